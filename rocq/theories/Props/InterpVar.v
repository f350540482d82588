(* C149: interpolated parameters whose number of updates changes at run time. *)
From Coq Require Import QArith Reals Floats.SpecFloat.
From Flocq Require Import Core.
From Verif.Common Require Import Base F32 F32Order F32Real.
From Verif.Spec Require Import InterpVarSpec.
From Verif.Model Require Import InterpVar.
From Verif.Proofs Require InterpVar.
Open Scope Z_scope.

(** C149.  The parameter over exact and single precision numbers, [n0] the constructor's argument. *)
Notation exactly n0 h := (vb_after Qplus Qminus Qdiv inject_Z n0 h).
Notation in_float n0 h := (vb_after fadd fsub fdiv f32_of_int n0 h).

(** After any history, set_new_value([x]) starts a straight line from the present value whose slope
    is fixed by the number of updates then in force; later calls of set_num_updates do not bend it. *)
Theorem C149_line_from_present_value :
  forall n0 h1 (x : Q) h2, 0 < updates_in_force n0 h1 -> undisturbed h2 ->
    let c := vb_cur (exactly n0 h1) in
    (vb_cur (exactly n0 (h1 ++ VSet x :: h2)) ==
     c + (inject_Z (Z.of_nat (nexts h2)) / inject_Z (updates_in_force n0 h1)) * (x - c))%Q.
Proof. exact InterpVar.exact_ramp. Qed.
Print Assumptions C149_line_from_present_value.
Theorem C149_arrives :
  forall n0 h1 (x : Q) h2, 0 < updates_in_force n0 h1 -> undisturbed h2 -> Z.of_nat (nexts h2) = updates_in_force n0 h1 ->
    (vb_cur (exactly n0 (h1 ++ VSet x :: h2)) == x)%Q.
Proof. exact InterpVar.exact_arrives. Qed.
Print Assumptions C149_arrives.
(** It does not stop there: each further call moves the value as far again beyond the target. *)
Theorem C149_stays_on_target_refuted :
  forall n0 h1 (x : Q) h2 j, 0 < updates_in_force n0 h1 -> undisturbed h2 -> Z.of_nat (nexts h2) = updates_in_force n0 h1 + j ->
    let c := vb_cur (exactly n0 h1) in
    (vb_cur (exactly n0 (h1 ++ VSet x :: h2)) == x + (inject_Z j / inject_Z (updates_in_force n0 h1)) * (x - c))%Q.
Proof. exact InterpVar.exact_overshoots. Qed.
Print Assumptions C149_stays_on_target_refuted.
(** Until the first value is set the parameter rests at 0, as does its target. *)
Theorem C149_rests_at_zero :
  forall n0, (forall h, undisturbed h -> vb_cur (exactly n0 h) = 0%Q /\ vb_target (exactly n0 h) = 0%Q) /\
    (forall h, undisturbed h -> vb_cur (in_float n0 h) = f32_of_int 0 /\ vb_target (in_float n0 h) = f32_of_int 0).
Proof.
  intros n0. split; intros h U.
  - destruct (InterpVar.rest_start Qplus Qminus Qdiv inject_Z n0 eq_refl h U) as (A & B & _). split; assumption.
  - destruct (InterpVar.rest_start fadd fsub fdiv f32_of_int n0 eq_refl h U) as (A & B & _). split; assumption.
Qed.
Print Assumptions C149_rests_at_zero.
(** In any arithmetic next returns cur_val, target_val is the last value set, and neither
    set_new_value nor set_num_updates moves the value. *)
Theorem C149_members :
  forall {A : Type} (add sub div : A -> A -> A) of_int n0 h,
    let after := vb_after add sub div of_int n0 in
    let results h := snd (srun (vb_step add sub div of_int) (vb0 of_int n0) h) in
    results (h ++ [VNext]) = results h ++ [Some (vb_cur (after (h ++ [VNext])))] /\
    vb_num (after h) = updates_in_force n0 h /\
    (forall x h2, undisturbed h2 -> vb_target (after (h ++ VSet x :: h2)) = x) /\
    (forall x, vb_cur (after (h ++ [VSet x])) = vb_cur (after h)) /\
    (forall n, vb_cur (after (h ++ [VNum n])) = vb_cur (after h)) /\
    (forall x, vb_cur (after (h ++ [VJump x])) = x).
Proof.
  intros A add sub div of_int n0 h after results. split; [exact (InterpVar.next_returns add sub div of_int n0 h)|].
  split; [exact (InterpVar.num_after add sub div of_int n0 h)|]. split; [intros x h2 U; exact (proj2 (InterpVar.ramp add sub div of_int n0 h x h2 U))|].
  split; [intros x; exact (InterpVar.keeps_value add sub div of_int n0 h (VSet x) I)|].
  split; [intros n; exact (InterpVar.keeps_value add sub div of_int n0 h (VNum n) I)|].
  intros x. unfold after, vb_after. rewrite InterpVar.srun_app_fst. reflexivity.
Qed.
Print Assumptions C149_members.
(** Single precision stays near the line. *)
Theorem C149_float_follows_the_line :
  forall e n0 h1 x h2,
    let c := vb_cur (in_float n0 h1) in let n := updates_in_force n0 h1 in let k := nexts h2 in
    let r := vb_cur (in_float n0 (h1 ++ VSet x :: h2)) in
    -60 <= e <= 120 -> 1 <= n <= 2 ^ 22 -> finite_f32 c -> finite_f32 x ->
    (Rabs (fval c) <= bpow radix2 e)%R -> (Rabs (fval x) <= bpow radix2 e)%R -> undisturbed h2 -> Z.of_nat k <= n ->
    finite_f32 r /\ (Rabs (fval r - (fval c + INR k * ((fval x - fval c) / IZR n))) <= (INR k + 4) * bpow radix2 (e - 24))%R.
Proof. exact InterpVar.float_ramp. Qed.
Print Assumptions C149_float_follows_the_line.
(** With no updates in force a new value makes the parameter infinite or not a number at the next
    update, and no later call of set_num_updates, set_new_value and next brings it back. *)
Theorem C149_zero_updates_recovers_refuted :
  forall n0 h1 x h2, updates_in_force n0 h1 = 0 -> no_jump h2 ->
    ffinite (vb_cur (in_float n0 (h1 ++ VSet x :: VNext :: h2))) = false.
Proof. exact InterpVar.zero_updates_lost. Qed.
Print Assumptions C149_zero_updates_recovers_refuted.
Example C149_hypotheses_met :
  let h1 := [VNum 4; VSet (8 # 1); VNext]%Q in
  updates_in_force 256 h1 = 4 /\ undisturbed [VNext; VNum 100; @VNext Q; VNext; VNext] /\
  (vb_cur (exactly 256 h1) == 2)%Q /\ (vb_cur (exactly 256 (h1 ++ VSet (-6 # 1) :: [VNext; VNum 100; VNext; VNext; VNext])) == -6)%Q /\
  (vb_cur (exactly 256 (h1 ++ VSet (-6 # 1) :: [VNext; VNum 100; VNext])) == -2)%Q /\
  vb_cur (in_float 256 [VNum 4; VSet (f32_of_int 8); VNext]) = f32_of_int 2 /\
  updates_in_force 256 [VNum 0; VSet f32_one] = 0 /\
  vb_cur (in_float 256 [VNum 0; VSet f32_one; VNext]) = S754_infinity false /\
  vb_cur (in_float 256 [VNum 0; VSet f32_one; VNext; VNum 4; VSet f32_one; VNext; VNext]) = S754_nan.
Proof. repeat split; try (vm_compute; reflexivity). repeat constructor. Qed.
