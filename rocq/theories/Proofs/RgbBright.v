(* MixedRgbLed::set_color with a brightness. *)
From Coq Require Import ZArith Reals Lra Lia List Bool Floats.SpecFloat.
From Flocq Require Import Core.
From Verif.Common Require Import Base F32 F32Order F32Real F32Arith.
From Verif.Spec Require Import ColorSpec.
From Verif.Model Require Import Color RgbLed.
From Verif.Proofs Require Import MathFloat ColorFloat.
From Verif.Proofs Require Audio.

Lemma u8_ch x b : (0 <= x < 256 -> 0 <= b < 256 ->
  256 * Z.shiftr (x * b) 8 <= x * b < 256 * Z.shiftr (x * b) 8 + 256 /\ 0 <= Z.shiftr (x * b) 8 <= x)%Z.
Proof.
  intros Hx Hb. rewrite Z.shiftr_div_pow2 by lia. change (2 ^ 8)%Z with 256%Z.
  assert (0 <= x * b <= 256 * x)%Z by nia. pose proof (Z.div_mod (x * b) 256 ltac:(lia)). pose proof (Z.mod_pos_bound (x * b) 256 ltac:(lia)). lia.
Qed.
Lemma u8_full x : (0 <= x < 256 -> Z.shiftr (x * 255) 8 = Z.max 0 (x - 1))%Z.
Proof. intros Hx. destruct (u8_ch x 255 Hx ltac:(lia)). lia. Qed.

Open Scope R_scope.
Lemma f_ch x b : (0 <= x < 256)%Z -> finite_f32 b -> 0 <= fval b -> IZR x * fval b <= 255 ->
  exists r, f32_to_uint 8 (fmul (f32_of_int x) b) = Ok r /\ (0 <= r < 256)%Z /\
    IZR x * fval b - 1 - / 131072 < IZR r <= IZR x * fval b + / 131072 /\
    (fval b <= 1 -> (r <= x)%Z) /\ (fval b = 1 -> r = x).
Proof.
  intros Hx Fb H0 H1. destruct (byte_b x Hx) as (Fx & Vx & Rx & Bx).
  assert (P : 0 <= IZR x * fval b) by (apply Rmult_le_pos; lra).
  assert (B : Rabs (IZR x * fval b) <= bpow radix2 8) by (rewrite Rabs_pos_eq by lra; change (bpow radix2 8) with 256; lra).
  destruct (fmul_b (f32_of_int x) b Fx Fb ltac:(rewrite Vx; apply (le_127 8); [lia|exact B])) as [Fm Vm]. rewrite Vx in Vm.
  pose proof (RN_err 8 _ ltac:(lia) B) as E. change (bpow radix2 (8 - 25)) with (/ 131072) in E. apply Rabs_le_inv in E.
  set (v := fmul (f32_of_int x) b) in *.
  assert (I255 : in_f32 (IZR 255)) by (destruct (byte_b 255 ltac:(lia)) as ([V _] & V2 & _); rewrite <- V2; apply fval_in, V).
  assert (Ix : in_f32 (IZR x)) by (rewrite <- Vx; apply fval_in, Fx).
  assert (P2 : 0 <= fval v) by (rewrite Vm, <- RN_0; apply RN_le, P).
  assert (U2 : fval v <= 255) by (rewrite Vm, <- (RN_id 255 I255); apply RN_le, H1).
  pose proof (Zfloor_lb (fval v)) as L. pose proof (Zfloor_ub (fval v)) as U.
  assert (Z1 : (0 <= Zfloor (fval v))%Z) by (apply Zfloor_lub; exact P2). assert (Z2 : (Zfloor (fval v) < 256)%Z) by (apply lt_IZR; lra).
  exists (Zfloor (fval v)). split; [apply Audio.cast_u; [apply Fm|apply Ztrunc_floor; exact P2|split; [exact Z1|exact Z2]]|].
  split; [lia|]. split; [lra|]. split.
  - intros Hb. assert (fval v <= IZR x). { rewrite Vm. apply Rle_trans with (RN (IZR x)); [|rewrite (RN_id _ Ix); lra]. apply RN_le. apply Rle_trans with (IZR x * 1); [apply Rmult_le_compat_l|]; lra. }
    apply le_IZR. lra.
  - intros Hb. rewrite Vm, Hb, Rmult_1_r, (RN_id _ Ix). apply Zfloor_IZR.
Qed.

Lemma f_ch_ub x b : (0 <= x < 256)%Z -> finite_f32 b -> Rabs (fval b) <= bpow radix2 100 ->
  256 <= IZR x * fval b \/ IZR x * fval b <= -1 -> f32_to_uint 8 (fmul (f32_of_int x) b) = UB BadCast.
Proof.
  intros Hx Fb Hb H. destruct (byte_b x Hx) as (Fx & Vx & Rx & Bx).
  assert (BP : bpow radix2 8 * bpow radix2 100 <= bpow radix2 127) by (rewrite <- bpow_plus; apply bpow_le; lia).
  assert (B : Rabs (IZR x * fval b) <= bpow radix2 127).
  { rewrite Rabs_mult. apply Rle_trans with (bpow radix2 8 * bpow radix2 100); [|exact BP]. apply Rmult_le_compat; try apply Rabs_pos; assumption. }
  destruct (fmul_b (f32_of_int x) b Fx Fb ltac:(rewrite Vx; exact B)) as [Fm Vm]. rewrite Vx in Vm.
  apply out_of_byte; [apply Fm|]. rewrite Vm. destruct H as [H|H]; [left|right].
  - rewrite <- (RN_id 256) by (apply (in_int 256); lia). apply RN_le; exact H.
  - rewrite <- (RN_id (-1)) by (apply (in_int (-1)); lia). apply RN_le; exact H.
Qed.
Lemma set_color_f_ub c b : is_color c -> finite_f32 b -> Rabs (fval b) <= bpow radix2 100 ->
  (exists x, (x = red c \/ x = green c \/ x = blue c) /\ (256 <= IZR x * fval b \/ IZR x * fval b <= -1)) -> set_color_f c b = UB BadCast.
Proof.
  intros (C1 & C2 & C3) Fb Hb (x & Hx & H). unfold set_color_f.
  destruct Hx as [-> |[-> | ->]].
  - rewrite f_ch_ub; auto.
  - destruct (to_uint_cases 8 (fmul (f32_of_int (red c)) b)) as [[n ->]| ->]; cbn [bind]; [|reflexivity]. rewrite f_ch_ub; auto.
  - destruct (to_uint_cases 8 (fmul (f32_of_int (red c)) b)) as [[n ->]| ->]; cbn [bind]; [|reflexivity].
    destruct (to_uint_cases 8 (fmul (f32_of_int (green c)) b)) as [[n2 ->]| ->]; cbn [bind]; [|reflexivity]. rewrite f_ch_ub; auto.
Qed.
