(* The error of one rounding, for every argument: relative 2^-24 plus absolute 2^-150. *)
From Coq Require Import ZArith Reals Lra Lia Floats.SpecFloat.
From Flocq Require Import Core Relative.
From Verif.Common Require Import F32 F32Real F32Arith.
Open Scope R_scope.

Definition fu : R := bpow radix2 (-24).
Definition feta : R := bpow radix2 (-150).
Lemma fu_val : fu = / 16777216. Proof. reflexivity. Qed.
Lemma feta_pos : 0 < feta. Proof. apply bpow_gt_0. Qed.
Lemma feta_small : feta <= / 10 ^ 40.
Proof. apply Rle_trans with (bpow radix2 (-140)); [apply bpow_le; lia|]. change (bpow radix2 (-140)) with (/ IZR (2 ^ 140)). apply Rinv_le_contravar; [lra|]. rewrite pow_IZR. apply IZR_le. vm_compute. discriminate. Qed.
Lemma RN_any t : Rabs (RN t - t) <= fu * Rabs t + feta.
Proof.
  destruct (error_N_FLT radix2 (-149) 24 ltac:(reflexivity) (fun x => negb (Z.even x)) t) as (eps & eta & A & B & _ & E).
  change (RN t) with (round radix2 (FLT_exp (-149) 24) (Znearest (fun x => negb (Z.even x))) t). rewrite E. replace (t * (1 + eps) + eta - t) with (t * eps + eta) by ring.
  apply Rle_trans with (1 := Rabs_triang _ _). rewrite Rabs_mult. apply Rplus_le_compat.
  - rewrite Rmult_comm. apply Rmult_le_compat_r; [apply Rabs_pos|]. apply Rle_trans with (1 := A). change fu with (bpow radix2 (-1 + (Z.opp 24 + 1))). rewrite (bpow_plus radix2 (-1)). change (bpow radix2 (-1)) with (/ 2). apply Rle_refl.
  - apply Rle_trans with (1 := B). change feta with (bpow radix2 (-1 + -149)). rewrite (bpow_plus radix2 (-1)). change (bpow radix2 (-1)) with (/ 2). apply Rle_refl.
Qed.
(* two rounded values differ by nothing smaller than 2^-149 *)
Lemma sub_exact_small x y : in_f32 x -> in_f32 y -> Rabs (x - y) <= bpow radix2 (-125) -> in_f32 (x - y).
Proof.
  intros Hx Hy H. destruct (FLT_format_generic radix2 (-149) 24 x Hx) as [fx Ex _ Lx]. destruct (FLT_format_generic radix2 (-149) 24 y Hy) as [fy Ey _ Ly].
  assert (exists n, x - y = IZR n * bpow radix2 (-149)) as [n En].
  { exists (Fnum fx * 2 ^ (Fexp fx + 149) - Fnum fy * 2 ^ (Fexp fy + 149))%Z. rewrite minus_IZR, !mult_IZR. change 2%Z with (radix_val radix2). rewrite !IZR_Zpower by lia. rewrite Rmult_minus_distr_r, !Rmult_assoc, <- !bpow_plus. rewrite Ex, Ey. unfold F2R. f_equal; [|f_equal]; f_equal; f_equal; lia. }
  rewrite En in *. change in_f32 with (generic_format radix2 (FLT_exp (-149) 24)). apply generic_format_FLT. 
  assert (HN : (Z.abs n <= 2 ^ 24)%Z).
  { apply le_IZR. rewrite abs_IZR. apply Rmult_le_reg_r with (bpow radix2 (-149)); [apply bpow_gt_0|]. rewrite Rabs_mult, (Rabs_pos_eq (bpow radix2 (-149))) in H by apply bpow_ge_0. apply Rle_trans with (1 := H). change 2%Z with (radix_val radix2). rewrite IZR_Zpower by lia. rewrite <- bpow_plus. apply bpow_le. lia. }
  destruct (Z.eq_dec (Z.abs n) (2 ^ 24)) as [EQ|NE].
  - assert (n = 2 ^ 24 \/ n = - 2 ^ 24)%Z as [-> | ->] by lia.
    + exists (Float radix2 1 (-125)); [|reflexivity|cbn; lia]. unfold F2R. cbn [Fnum Fexp]. rewrite Rmult_1_l. change (IZR (2 ^ 24)) with (bpow radix2 24). rewrite <- bpow_plus. reflexivity.
    + exists (Float radix2 (-1) (-125)); [|reflexivity|cbn; lia]. unfold F2R. cbn [Fnum Fexp]. rewrite opp_IZR. change (IZR (2 ^ 24)) with (bpow radix2 24). rewrite Ropp_mult_distr_l_reverse, <- bpow_plus. change (bpow radix2 (24 + -149)) with (bpow radix2 (-125)). change (-1)%Z with (- (1))%Z. rewrite opp_IZR. ring.
  - exists (Float radix2 n (-149)); [reflexivity|cbn; lia|cbn; lia].
Qed.
