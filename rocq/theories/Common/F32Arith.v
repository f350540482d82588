(* More on single precision: powers of two, rounding errors. *)
From Coq Require Import Reals Lra Lia ZArith Floats.SpecFloat.
From Flocq Require Import Core Relative Mult_error.
From Verif.Common Require Import Base F32 F32Order F32Real.
Open Scope R_scope.

Lemma in_pow e : (-149 <= e <= 127)%Z -> in_f32 (bpow radix2 e).
Proof. intros H. change in_f32 with (generic_format radix2 (FLT_exp (-149) 24)). apply generic_format_bpow. unfold FLT_exp. lia. Qed.
Lemma pow_bound e : (e <= 127)%Z -> Rabs (bpow radix2 e) < fmax.
Proof. intros H. rewrite Rabs_pos_eq by apply bpow_ge_0. apply bpow_lt. lia. Qed.
Lemma scale_in x k : in_f32 x -> (0 <= k)%Z -> in_f32 (x * bpow radix2 k).
Proof. intros H Hk. apply (mult_bpow_pos_exact_FLT radix2 (-149) 24 x k H Hk). Qed.
Lemma pow_int_val k : (0 <= k <= 127)%Z -> fval (f32_of_int (2 ^ k)) = bpow radix2 k /\ ffinite (f32_of_int (2 ^ k)) = true.
Proof.
  intros Hk. unfold f32_of_int. destruct (f32_of_val (2 ^ k) 0) as [A B]; change (bpow radix2 0) with 1 in *; rewrite Rmult_1_r in *; change 2%Z with (radix_val radix2) in *; rewrite IZR_Zpower in * by lia; rewrite RN_id in * by (apply in_pow; lia); [apply pow_bound; lia|]. auto.
Qed.
Lemma RN_err e t : (-125 <= e)%Z -> Rabs t <= bpow radix2 e -> Rabs (RN t - t) <= bpow radix2 (e - 25).
Proof.
  intros He Ht. destruct (Req_dec t 0) as [->|Hn]; [rewrite RN_0, Rminus_0_r, Rabs_R0; apply bpow_ge_0|].
  destruct (Req_dec (Rabs t) (bpow radix2 e)) as [E|E].
  - assert (HI : in_f32 t). { assert (HP : in_f32 (bpow radix2 e)) by (change in_f32 with (generic_format radix2 (FLT_exp (-149) 24)); apply generic_format_bpow; unfold FLT_exp; lia). unfold Rabs in E. destruct (Rcase_abs t); [|rewrite E; exact HP]. rewrite <- (Ropp_involutive t), E. apply generic_format_opp. exact HP. }
    rewrite RN_id, Rminus_diag_eq, Rabs_R0 by auto. apply bpow_ge_0.
  - apply Rle_trans with (/ 2 * ulp radix2 fexp32 t); [apply error_le_half_ulp; auto with typeclass_instances|].
    assert (HU : ulp radix2 fexp32 t <= bpow radix2 (e - 24)).
    { rewrite ulp_neq_0 by exact Hn. apply bpow_le. unfold cexp. change fexp32 with (FLT_exp (-149) 24). unfold FLT_exp.
      assert (mag radix2 t <= e)%Z by (apply mag_le_bpow; [exact Hn|lra]). lia. }
    replace (e - 25)%Z with (e - 24 + -1)%Z by lia. rewrite bpow_plus. change (bpow radix2 (-1)) with (/ 2). lra.
Qed.
(** relative error for numbers that are not tiny *)
Lemma RN_rel t : bpow radix2 (-126) <= Rabs t -> Rabs (RN t - t) <= bpow radix2 (-24) * Rabs t.
Proof.
  intros H. replace (bpow radix2 (-24)) with (/ 2 * bpow radix2 (- 24 + 1)) by (rewrite (bpow_plus radix2 (-24) 1); change (bpow radix2 1) with 2; field). apply (relative_error_N_FLT radix2 (-149) 24); [reflexivity|]. change (-149 + 24 - 1)%Z with (-126)%Z. exact H.
Qed.
(** operations whose exact result is at most 2^127 *)
Lemma RN_pow_bound r : Rabs r <= bpow radix2 127 -> Rabs (RN r) < fmax.
Proof. intros H. rewrite RN_abs. apply Rle_lt_trans with (RN (bpow radix2 127)); [apply RN_le; exact H|]. rewrite RN_id by (apply in_pow; lia). apply bpow_lt. lia. Qed.
Lemma fadd_b x y : finite_f32 x -> finite_f32 y -> Rabs (fval x + fval y) <= bpow radix2 127 -> finite_f32 (fadd x y) /\ fval (fadd x y) = RN (fval x + fval y).
Proof. intros [Vx Fx] [Vy Fy] H. destruct (fadd_val x y Vx Vy Fx Fy (RN_pow_bound _ H)). repeat split; auto. apply fadd_valid; assumption. Qed.
Lemma fsub_b x y : finite_f32 x -> finite_f32 y -> Rabs (fval x - fval y) <= bpow radix2 127 -> finite_f32 (fsub x y) /\ fval (fsub x y) = RN (fval x - fval y).
Proof. intros [Vx Fx] [Vy Fy] H. destruct (fsub_val x y Vx Vy Fx Fy (RN_pow_bound _ H)). repeat split; auto. apply fsub_valid; assumption. Qed.
Lemma fmul_b x y : finite_f32 x -> finite_f32 y -> Rabs (fval x * fval y) <= bpow radix2 127 -> finite_f32 (fmul x y) /\ fval (fmul x y) = RN (fval x * fval y).
Proof. intros [Vx Fx] [Vy Fy] H. destruct (fmul_val x y Vx Vy Fx Fy (RN_pow_bound _ H)). repeat split; auto. apply fmul_valid; assumption. Qed.
Lemma fdiv_b x y : finite_f32 x -> finite_f32 y -> fval y <> 0 -> Rabs (fval x / fval y) <= bpow radix2 127 -> finite_f32 (fdiv x y) /\ fval (fdiv x y) = RN (fval x / fval y).
Proof. intros [Vx Fx] [Vy Fy] Hy H. destruct (fdiv_val x y Vx Vy Fx Hy (RN_pow_bound _ H)). repeat split; auto. apply fdiv_valid; assumption. Qed.
Lemma int_b n : (Z.abs n <= 2 ^ 24)%Z -> finite_f32 (f32_of_int n) /\ fval (f32_of_int n) = IZR n.
Proof. intros H. destruct (f32_of_int_val n H). repeat split; auto. apply f32_of_int_valid. Qed.
Lemma one_b : finite_f32 f32_one /\ fval f32_one = 1. Proof. apply (int_b 1). lia. Qed.
Lemma zero_b : finite_f32 f32_zero /\ fval f32_zero = 0. Proof. repeat split. Qed.
Lemma half_b : finite_f32 (f32_of 1 (-1)) /\ fval (f32_of 1 (-1)) = / 2.
Proof. destruct (f32_of_val 1 (-1)) as [A B]; rewrite Rmult_1_l in *; rewrite RN_id in * by (apply in_pow; lia); [apply pow_bound; lia|]. repeat split; auto. Qed.
Lemma small_le_127 n r : (0 <= n <= 127)%Z -> Rabs r <= IZR (2 ^ n) -> Rabs r <= bpow radix2 127.
Proof. intros Hn H. apply Rle_trans with (1 := H). change 2%Z with (radix_val radix2). rewrite IZR_Zpower by lia. apply bpow_le. lia. Qed.
