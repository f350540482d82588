(* C150: a fixed vector shared by a main program and an interrupt handler. *)
From Verif.Common Require Import Base Lists.
From Verif.Spec Require Import IrqSpec VectorSpec VectorIrqSpec.
From Verif.Model Require Import FixedVector Irq VectorIrq.
From Verif.Proofs Require VectorIrq Uninterrupted.

(** C150.  The main program makes a call that moves no element (push_back, pop_back, clear, resize,
    setting an element, inserting or erasing at the end, looking); the handler interrupts it anywhere,
    any number of times, and only looks.  The call acts at one moment: the looks [a] see the vector
    as it was, the looks [b] as the call leaves it, and all answers are those of the plain list. *)
Theorem C150_interrupted_call :
  forall {T} N (dflt : T) s m gaps, zlen (v_data s) = N -> 0 <= v_n s <= N -> vop_ok N m -> v_moves_nothing (v_n s) m ->
    Forall (fun o => v_reads o /\ vop_ok N o) (concat gaps) ->
    exists s' r a b qa qb, iexec (fv_step false N dflt) (v_main N dflt m) s gaps = Ok (s', r, qa ++ qb) /\ concat gaps = a ++ b /\ length qa = length a /\
      rel_run (vec_spec dflt N) (fv_contents s) (a ++ m :: b) (qa ++ r :: qb) (fv_contents s').
Proof. exact @VectorIrq.interrupted. Qed.
Print Assumptions C150_interrupted_call.
(** Inserting or erasing before the end, interrupted by looks: the call still does what it should and
    nothing is undefined.  Each answer is that of some list [lk] that has the old or the new length
    and consists of old elements and the inserted one. *)
Theorem C150_interrupted_move :
  forall {T} N (dflt : T) s m gaps, zlen (v_data s) = N -> 0 <= v_n s <= N -> vop_ok N m -> ~ v_moves_nothing (v_n s) m ->
    Forall (fun o => v_reads o /\ vop_ok N o) (concat gaps) ->
    exists s' q, iexec (fv_step false N dflt) (v_main N dflt m) s gaps = Ok (s', VUnit, q) /\ vec_spec dflt N (fv_contents s) m VUnit (fv_contents s') /\
      Forall2 (fun o r => exists lk, vec_spec dflt N lk o r lk /\ incl lk (v_new m ++ fv_contents s) /\
        (zlen lk = zlen (fv_contents s) \/ zlen lk = zlen (fv_contents s'))) (concat gaps) q.
Proof. exact @VectorIrq.moving. Qed.
Print Assumptions C150_interrupted_move.
(** What does not hold.  During every insertion before the end there is a moment at which the handler
    sees the new element but no longer the last one. *)
Theorem C150_insert_seen_whole_refuted :
  forall {T} N (dflt : T) s i x, zlen (v_data s) = N -> 0 <= v_n s < N -> 0 <= i < v_n s ->
    exists gaps s', concat gaps = [VContents] /\ iexec (fv_step false N dflt) (v_main N dflt (VInsert i x)) s gaps =
      Ok (s', VUnit, [VList (take i (fv_contents s) ++ x :: take (v_n s - 1 - i) (drop i (fv_contents s)))]).
Proof. exact @VectorIrq.insert_loses_last. Qed.
Print Assumptions C150_insert_seen_whole_refuted.
(** During every erasure before the end there is a moment at which the handler sees the last element
    twice. *)
Theorem C150_erase_seen_whole_refuted :
  forall {T} N (dflt : T) s i, zlen (v_data s) = N -> 0 <= v_n s <= N -> 0 <= i < v_n s - 1 ->
    exists gaps s' z, znth (fv_contents s) (v_n s - 1) = Some z /\ concat gaps = [VContents] /\ iexec (fv_step false N dflt) (v_main N dflt (VErase i)) s gaps =
      Ok (s', VUnit, [VList (take i (fv_contents s) ++ drop (i + 1) (fv_contents s) ++ [z])]).
Proof. exact @VectorIrq.erase_doubles_last. Qed.
Print Assumptions C150_erase_seen_whole_refuted.
(** A handler that pushes during a push: both are told true, the main program's element is lost. *)
Theorem C150_push_during_push_refuted :
  forall {T} N (dflt : T) s x y, zlen (v_data s) = N -> 0 <= v_n s < N ->
    exists gaps s', concat gaps = [VPush y] /\ iexec (fv_step false N dflt) (v_main N dflt (VPush x)) s gaps = Ok (s', VBool true, [VBool true]) /\
      fv_contents s' = fv_contents s ++ [y].
Proof. exact @VectorIrq.push_during_push. Qed.
Print Assumptions C150_push_during_push_refuted.
(** A handler that pops during a pop: both can be given the last element. *)
Theorem C150_pop_during_pop_refuted :
  forall {T} N (dflt : T) s, zlen (v_data s) = N -> 0 < v_n s <= N ->
    exists gaps s' z, znth (fv_contents s) (v_n s - 1) = Some z /\ concat gaps = [VPop] /\ iexec (fv_step false N dflt) (v_main N dflt VPop) s gaps = Ok (s', VItem z, [VItem z]).
Proof. exact @VectorIrq.pop_during_pop. Qed.
Print Assumptions C150_pop_during_pop_refuted.
(** If that was the only element, the main program can even read outside the array. *)
Theorem C150_pop_of_last_during_pop_refuted :
  forall {T} N (dflt : T) s, zlen (v_data s) = N -> v_n s = 1 -> 1 <= N ->
    exists gaps, concat gaps = [VPop] /\ iexec (fv_step false N dflt) (v_main N dflt VPop) s gaps = UB OutOfBounds.
Proof. exact @VectorIrq.pop_during_last_pop. Qed.
Print Assumptions C150_pop_of_last_during_pop_refuted.

(** A vector [1; 2; 3] with room for five. *)
(** A call that is not interrupted does what the call does. *)
Theorem C150_uninterrupted :
  forall (T : Type) N (dflt : T) s o, 0 <= v_n s <= zlen (v_data s) ->
    irun (fv_step false N dflt) (v_main N dflt) s [Call o []] = let* (s', r) := fv_step false N dflt s o in Ok (s', [r], []).
Proof. exact @Uninterrupted.uninterrupted_vector. Qed.
Print Assumptions C150_uninterrupted.
Example C150_hypotheses_met :
  let s := FVec [1; 2; 3; 0; 0] 3 in
  let gaps := [[VSize]; []; [VContents; VBack]; [VAt 3]; [VContents]] in
  zlen (v_data s) = 5 /\ 0 <= v_n s < 5 /\ v_moves_nothing (v_n s) (VPush 4) /\ ~ v_moves_nothing (v_n s) (@VErase Z 0) /\
  Forall (fun o => v_reads o /\ vop_ok 5 o) (concat gaps) /\
  iexec (fv_step false 5 0) (v_main 5 0 (VPush 4)) s gaps = Ok (FVec [1; 2; 3; 4; 0] 4, VBool true, [VNum 3; VList [1; 2; 3]; VItem 3; VItem 4; VList [1; 2; 3]]) /\
  iexec (fv_step false 5 0) (v_main 5 0 (VErase 0)) s (repeat [] 8 ++ [[VContents]]) = Ok (FVec [2; 3; 3; 0; 0] 2, VUnit, [VList [2; 3; 3]]) /\
  iexec (fv_step false 5 0) (v_main 5 0 (VInsert 0 9)) s (repeat [] 12 ++ [[VContents]]) = Ok (FVec [9; 1; 2; 3; 0] 4, VUnit, [VList [9; 1; 2]]).
Proof.
  cbn zeta. repeat split; try (vm_compute; reflexivity); cbn; try lia. repeat constructor; cbn; lia.
Qed.
