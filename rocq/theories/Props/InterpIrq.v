(* C154: an interpolated parameter shared by a main program and an interrupt handler. *)
From Coq Require Import QArith.
From Verif.Common Require Import Base.
From Verif.Spec Require Import InterpVarSpec IrqSpec InterpIrqSpec.
From Verif.Model Require Import InterpVar Irq InterpIrq.
From Verif.Proofs Require InterpIrq.
Open Scope Z_scope.

(** C154.  The main program sets a new value, the handler advances the value, any number of times and
    anywhere.  In any arithmetic the call acts at one moment if no such interrupt comes between the
    reading of the present value (access 1) and the storing of the slope (access 3). *)
Theorem C154_set_at_one_moment :
  forall {A} (add sub div : A -> A -> A) of_int s x gaps, Forall advances (concat gaps) -> nth 2 gaps [] = [] -> nth 3 gaps [] = [] ->
    one_moment (run (vb_at_once add sub div of_int)) s (VSet x) gaps (iexec (vb_at_once add sub div of_int) (vb_main add sub div of_int (VSet x)) s gaps).
Proof. exact @InterpIrq.set_at_once. Qed.
Print Assumptions C154_set_at_one_moment.
(** In general, over exact numbers: [c] is the value read; with [k] updates made since, the value is
    the point number [k] of the straight line from [c] to [x], shifted by one old step for each of the
    [j] interrupts between the reading and the storing. *)
Theorem C154_set_leads :
  forall s (x : Q) gaps h2, 0 < vb_num s -> Forall advances (concat gaps) -> Forall advances h2 ->
    let step := vb_at_once Qplus Qminus Qdiv inject_Z in
    exists s' q s'' q', iexec step (vb_main Qplus Qminus Qdiv inject_Z (VSet x)) s gaps = Ok (s', None, q) /\ run step s' h2 = Ok (s'', q') /\ vb_target s' = x /\ vb_num s' = vb_num s /\
      let k := Z.of_nat (length (concat (skipn 4 gaps)) + length h2) in
      let j := Z.of_nat (calls_before 2 4 gaps) in
      let c := (vb_cur s + inject_Z (Z.of_nat (calls_before 0 2 gaps)) * vb_size s)%Q in
      (vb_cur s'' == c + (inject_Z k / inject_Z (vb_num s)) * (x - c) + inject_Z j * vb_size s)%Q.
Proof. exact InterpIrq.set_leads. Qed.
Print Assumptions C154_set_leads.
(** So the value does not always arrive: for every parameter that is moving, one interrupt there makes
    the next ramp end beside its target by the old step. *)
Theorem C154_arrives_refuted :
  forall s (x : Q), 0 < vb_num s -> ~ (vb_size s == 0)%Q ->
    let step := vb_at_once Qplus Qminus Qdiv inject_Z in
    exists gaps h2 s' q s'' q', concat gaps = [VNext] /\ Forall advances h2 /\ Z.of_nat (length h2) = vb_num s /\
      iexec step (vb_main Qplus Qminus Qdiv inject_Z (VSet x)) s gaps = Ok (s', None, q) /\ run step s' h2 = Ok (s'', q') /\ (vb_cur s'' == x + vb_size s)%Q /\ ~ (vb_cur s'' == x)%Q.
Proof. exact InterpIrq.set_misses. Qed.
Print Assumptions C154_arrives_refuted.
(** The roles exchanged: the main program advances the value and the handler sets new values and
    numbers of updates.  The call acts at one moment if no such interrupt comes between the reading of
    the slope (access 1) and the storing of the value (access 2). *)
Theorem C154_next_at_one_moment :
  forall {A} (add sub div : A -> A -> A) of_int s gaps, Forall configures (concat gaps) -> nth 2 gaps [] = [] ->
    one_moment (run (vb_at_once add sub div of_int)) s VNext gaps (iexec (vb_at_once add sub div of_int) (vb_main add sub div of_int VNext) s gaps).
Proof. exact @InterpIrq.next_at_once. Qed.
Print Assumptions C154_next_at_one_moment.
(** If one does, the ramp ends beside its target by the old step. *)
Theorem C154_next_then_arrives_refuted :
  forall s (x : Q) h2, 0 < vb_num s -> Forall advances h2 -> Z.of_nat (length h2) = vb_num s ->
    let step := vb_at_once Qplus Qminus Qdiv inject_Z in
    exists s' q s'' q', iexec step (vb_main Qplus Qminus Qdiv inject_Z VNext) s [[]; []; [VSet x]] = Ok (s', Some (vb_cur s + vb_size s)%Q, q) /\
      run step s' h2 = Ok (s'', q') /\ (vb_cur s'' == x + vb_size s)%Q.
Proof. exact InterpIrq.next_window. Qed.
Print Assumptions C154_next_then_arrives_refuted.
(** A value stored into cur_val by the handler during next is lost, and when both sides advance the
    value at the same time one of the two steps is lost. *)
Theorem C154_stored_value_kept_refuted :
  forall {A} (add sub div : A -> A -> A) of_int s y, exists s' q,
    iexec (vb_at_once add sub div of_int) (vb_main add sub div of_int VNext) s [[]; [VJump y]] = Ok (s', Some (add (vb_cur s) (vb_size s)), q) /\ vb_cur s' = add (vb_cur s) (vb_size s).
Proof. exact @InterpIrq.jump_lost. Qed.
Print Assumptions C154_stored_value_kept_refuted.
Theorem C154_two_steps_refuted :
  forall {A} (add sub div : A -> A -> A) of_int s, exists s',
    iexec (vb_at_once add sub div of_int) (vb_main add sub div of_int VNext) s [[]; [VNext]] = Ok (s', Some (add (vb_cur s) (vb_size s)), [Some (add (vb_cur s) (vb_size s))]) /\
    vb_cur s' = add (vb_cur s) (vb_size s).
Proof. exact @InterpIrq.next_lost. Qed.
Print Assumptions C154_two_steps_refuted.
(** A parameter moving by 2 per update; numbers of updates as integers for brevity. *)
(** A call that is not interrupted does what the call does. *)
Theorem C154_uninterrupted :
  forall {A} (add sub div : A -> A -> A) of_int s c,
    irun (vb_at_once add sub div of_int) (vb_main add sub div of_int) s [Call c []] =
      Ok (fst (vb_step add sub div of_int s c), [snd (vb_step add sub div of_int s c)], []).
Proof. exact @InterpIrq.uninterrupted_vb. Qed.
Print Assumptions C154_uninterrupted.
Example C154_hypotheses_met :
  let step := vb_at_once Z.add Z.sub Z.div (fun n => n) in
  let main := vb_main Z.add Z.sub Z.div (fun n => n) in
  let s := IVB 10 20 2 4 in
  let gaps := [[VNext]; [VNext]; []; []; [VNext]] in
  Forall advances (concat gaps) /\ nth 2 gaps [] = [] /\ nth 3 gaps [] = [] /\ 0 < vb_num s /\ calls_before 0 2 gaps = 2%nat /\
  iexec step (main (VSet 30)) s gaps = Ok (IVB 18 30 4 4, None, [Some 12; Some 14; Some 18]) /\
  iexec step (main (VSet 30)) s [[]; []; [VNext]] = Ok (IVB 12 30 5 4, None, [Some 12]) /\
  Forall configures (concat [[VSet 30]; [VNum 2]; []; [VSet 0]]) /\
  iexec step (main VNext) s [[VSet 30]; [VNum 2]; []; [VSet 0]] = Ok (IVB 15 0 (-8) 2, Some 15, [None; None; None]).
Proof. repeat split; try (vm_compute; reflexivity); repeat constructor. Qed.
