(* The frequency flash_once_ms computes from a whole number of milliseconds. *)
From Coq Require Import Reals Lra Lia ZArith Floats.SpecFloat.
From Flocq Require Import Core.
From Verif.Common Require Import Base Lemmas F32 F32Order F32Real F32Arith.
From Verif.Model Require Import RgbLed.
From Verif.Proofs Require Import TableF.
Open Scope R_scope.

Lemma flash_freq_whole ms : (1 <= ms <= 2 ^ 24)%Z -> flash_freq (f32_of_int ms) = Ok (1000 / ms)%Z.
Proof.
  intros H. destruct (int_b 1000 ltac:(lia)) as [F1 E1]. destruct (int_b ms ltac:(lia)) as [F2 E2]. set (k := (1000 / ms)%Z).
  assert (HM : 1 <= IZR ms <= 16777216) by (split; apply IZR_le; lia).
  assert (HK : (0 <= k <= 1000)%Z) by (unfold k; split; [apply Z.div_pos; lia|apply Z.div_le_upper_bound; nia]).
  assert (IP : 0 < / IZR ms <= 1) by (split; [apply Rinv_0_lt_compat; lra|rewrite <- Rinv_1; apply Rinv_le; lra]).
  set (v := 1000 / IZR ms). assert (HV : 0 < v <= 1000) by (unfold v, Rdiv; lra). assert (EV : v * IZR ms = 1000) by (unfold v; field; lra).
  destruct (fdiv_b _ _ F1 F2) as [FD ED]; [rewrite E2; lra|rewrite E1, E2; apply (small_le_127 10); [lia|]; fold v; change (IZR (2 ^ 10)) with 1024; apply Rabs_le; lra|]. rewrite E1, E2 in ED. fold v in ED.
  unfold flash_freq. apply cast_val; [apply FD| |lia]. rewrite ED.
  assert (B : (k * ms <= 1000)%Z /\ (1000 + 1 <= (k + 1) * ms)%Z). { pose proof (Z.div_mod 1000 ms ltac:(lia)). pose proof (Z.mod_pos_bound 1000 ms ltac:(lia)). fold k in H0. nia. }
  destruct B as [B1 B2]. apply IZR_le in B1, B2. rewrite mult_IZR in B1, B2. rewrite !plus_IZR in B2.
  assert (L : IZR k <= v) by (apply Rmult_le_reg_r with (IZR ms); lra).
  assert (U : v <= IZR k + 1 - / IZR ms). { apply Rmult_le_reg_r with (IZR ms); [lra|]. rewrite Rmult_minus_distr_r, Rinv_l by lra. lra. }
  assert (R : RN v <= v + / 16777216 * v).
  { assert (VB : / 65536 <= v). { apply Rmult_le_reg_r with (IZR ms); [lra|]. lra. }
    pose proof (RN_rel v) as Q. rewrite (Rabs_right v) in Q by lra. apply Rle_trans with (v + Rabs (RN v - v)); [pose proof (Rle_abs (RN v - v)); lra|]. apply Rplus_le_compat_l. apply Q. apply Rle_trans with (bpow radix2 (-16)); [apply bpow_le; lia|exact VB]. }
  assert (S : / 16777216 * v < / IZR ms). { unfold v, Rdiv. lra. }
  rewrite Ztrunc_floor; [apply Zfloor_imp; rewrite plus_IZR; split; [|lra]|]; [rewrite <- (RN_id (IZR k)) by (apply (in_int k); lia); apply RN_le; exact L|rewrite <- RN_0; apply RN_le; lra].
Qed.
