(* C159: a CircularStack shared by a main program and an interrupt handler. *)
From Verif.Common Require Import Base.
From Verif.Spec Require Import RingSpec IrqSpec StackIrqSpec.
From Verif.Model Require Import Circular Irq StackIrq.
From Verif.Proofs Require StackIrq.

(** C159.  The main program makes any calls; the handler interrupts them anywhere, any number of
    times, and only looks.  The main program gets the answers of the plain stack.  Each look between
    two calls is answered by the plain stack, each look during a call as before or as after that call
    - except that the stack may look empty while the element that fills it is pushed, and that only
    the range of size() is known during clear(). *)
Theorem C159_handler_that_looks :
  forall {T} cap (dflt : T), 0 < cap -> forall data h, zlen data = cap -> Forall (calls_by (fun _ => True) s_reads) h ->
    exists s' rs qs, irun (st_step cap dflt) (stk_main cap dflt) (st_init data) h = Ok (s', rs, qs) /\
      rs = snd (srun (stack_step dflt cap) [] (main_calls h)) /\ looks_ok dflt cap [] h qs.
Proof. exact @StackIrq.looks_only. Qed.
Print Assumptions C159_handler_that_looks.
(** Whenever a push fills the stack there is a moment at which the handler finds it empty. *)
Theorem C159_full_stack_looks_empty_refuted :
  forall {T} cap (dflt : T), 0 < cap -> forall data ops s rs x, zlen data = cap -> run (st_step cap dflt) (st_init data) ops = Ok (s, rs) -> st_size cap s = cap - 1 ->
    exists gaps s', concat gaps = [SEmpty; SSize; SBack] /\
      iexec (st_step cap dflt) (stk_main cap dflt (SPush x)) s gaps = Ok (s', OUnit, [OBool true; ONum 0; OOpt None]) /\
      st_step cap dflt s' SSize = Ok (s', ONum cap).
Proof. exact @StackIrq.reached_looks_empty. Qed.
Print Assumptions C159_full_stack_looks_empty_refuted.
(** Whenever an empty stack is cleared whose bottom is not at the start of the array, there is a
    moment at which the handler finds elements in it. *)
Theorem C159_cleared_empty_stack_shows_elements_refuted :
  forall {T} cap (dflt : T), 0 < cap -> forall data ops s rs, zlen data = cap -> run (st_step cap dflt) (st_init data) ops = Ok (s, rs) -> st_size cap s = 0 -> st_bot s <> 0 ->
    exists gaps s' y, concat gaps = [SEmpty; SSize; SBack] /\
      iexec (st_step cap dflt) (stk_main cap dflt SClear) s gaps = Ok (s', OUnit, [OBool false; ONum (cap - st_bot s); OOpt (Some y)]).
Proof. exact @StackIrq.clear_empty. Qed.
Print Assumptions C159_cleared_empty_stack_shows_elements_refuted.
(** A handler that brings the top to the start of the array (a push into the last place, a pop from
    the first, any clear) can make pop_back, pop_back_or_zero and back read in front of the array. *)
Theorem C159_handler_that_changes_refuted :
  forall {T} cap (dflt : T), 0 < cap -> forall s m o, zlen (st_data s) = cap -> 0 < st_top s < cap -> 0 <= st_bot s < cap -> st_size cap s <> 0 ->
    (m = SPop \/ m = SPopOrZero \/ m = SBack) ->
    match o with SPush _ => st_top s = cap - 1 | SPop | SPopOrZero => st_top s = 1 | SClear => True | _ => False end ->
    exists gaps, concat gaps = [o] /\ iexec (st_step cap dflt) (stk_main cap dflt m) s gaps = UB OutOfBounds.
Proof. exact @StackIrq.handler_changes. Qed.
Print Assumptions C159_handler_that_changes_refuted.
(** If both pop the only element, the main program can be given a leftover, and the stack then seems
    to hold all but one of its places. *)
Theorem C159_pop_during_pop_refuted :
  forall {T} cap (dflt : T), 0 < cap -> forall data ops s rs, zlen data = cap -> 2 <= cap -> run (st_step cap dflt) (st_init data) ops = Ok (s, rs) -> st_size cap s = 1 ->
    exists gaps s' x y, concat gaps = [SPop] /\ iexec (st_step cap dflt) (stk_main cap dflt SPop) s gaps = Ok (s', OOpt (Some y), [OOpt (Some x)]) /\
      st_step cap dflt s' SSize = Ok (s', ONum (cap - 1)).
Proof. exact @StackIrq.pop_twice. Qed.
Print Assumptions C159_pop_during_pop_refuted.
(** If both push, the main program's element [x] can be lost and a leftover [z] be on top. *)
Theorem C159_push_during_push_refuted :
  forall {T} cap (dflt : T), 0 < cap -> forall s x y z, zlen (st_data s) = cap -> 0 <= st_bot s <= st_top s -> st_top s + 2 < cap -> st_full s = false -> znth (st_data s) (st_top s + 1) = Some z ->
    exists gaps s' s'', concat gaps = [SPush y] /\ iexec (st_step cap dflt) (stk_main cap dflt (SPush x)) s gaps = Ok (s', OUnit, [OUnit]) /\
      run (st_step cap dflt) s' [SPop; SPop] = Ok (s'', [OOpt (Some z); OOpt (Some y)]) /\ st_step cap dflt s'' SSize = Ok (s'', ONum (st_size cap s)).
Proof. exact @StackIrq.push_twice. Qed.
Print Assumptions C159_push_during_push_refuted.
(** A call that is not interrupted does what the call does, in every state. *)
Theorem C159_uninterrupted :
  forall {T} cap (dflt : T) (s : cstk T) o, irun (st_step cap dflt) (stk_main cap dflt) s [Call o []] =
    match st_step cap dflt s o with Ok (s', r) => Ok (s', [r], []) | UB k => UB k | OutOfFuel => OutOfFuel end.
Proof. exact @StackIrq.uninterrupted_stack. Qed.
Print Assumptions C159_uninterrupted.
Example C159_hypotheses_met :
  (let h := [Call (SPush 5) [[]; [SSize]]; Irq SBack; Call (SPush 6) [[]; []; []; [SBack]; [SBack]]; Call SPop [[SSize]]; Call SClear []] in
   Forall (calls_by (fun _ => True) s_reads) h /\
   irun (st_step 3 0) (stk_main 3 0) (st_init [7; 8; 9]) h =
     Ok (CStk [5; 6; 9] 0 0 false, [OUnit; OUnit; OOpt (Some 6); OUnit], [ONum 0; OOpt (Some 5); OOpt (Some 5); OOpt (Some 6); ONum 2])) /\
  run (st_step 3 0) (st_init [7; 8; 9]) [SPush 1; SPush 2] = Ok (CStk [1; 2; 9] 2 0 false, [OUnit; OUnit]) /\
  run (st_step 3 0) (st_init [7; 8; 9]) [SPush 1; SPush 2; SPush 3; SPush 4; SPop; SPop] =
    Ok (CStk [4; 2; 3] 2 1 false, [OUnit; OUnit; OUnit; OUnit; OOpt (Some 4); OOpt (Some 3)]) /\
  run (st_step 3 0) (st_init [7; 8; 9]) [SPush 1; SPush 2; SPush 3; SPush 4; SPop; SPop; SPop] =
    Ok (CStk [4; 2; 3] 1 1 false, [OUnit; OUnit; OUnit; OUnit; OOpt (Some 4); OOpt (Some 3); OOpt (Some 2)]) /\
  st_size 3 (CStk [1; 2; 9] 2 0 false) = 2 /\ st_size 3 (CStk [4; 2; 3] 2 1 false) = 1 /\ st_size 3 (CStk [4; 2; 3] 1 1 false) = 0.
Proof.
  split; [|repeat split; vm_compute; reflexivity].
  split; [|vm_compute; reflexivity]. repeat (apply Forall_cons; [cbn; repeat split; repeat constructor|]). constructor.
Qed.
