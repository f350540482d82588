(* Color::blend with a float phase. *)
From Coq Require Import ZArith Reals Lra Lia List Bool Floats.SpecFloat.
From Flocq Require Import Core.
From Verif.Common Require Import Base F32 F32Order F32Real F32Arith.
From Verif.Model Require Import Color MathFloat.
From Verif.Spec Require Import ColorSpec.
From Verif.Proofs Require Import MathFloat.
From Verif.Proofs Require Audio.
Open Scope R_scope.

Lemma byte_b x : (0 <= x < 256)%Z -> finite_f32 (f32_of_int x) /\ fval (f32_of_int x) = IZR x /\ 0 <= IZR x <= 255 /\ Rabs (IZR x) <= bpow radix2 8.
Proof. intros H. destruct (int_b x ltac:(lia)) as [F V]. assert (R : 0 <= IZR x <= 255) by (split; apply IZR_le; lia). repeat split; try apply F; try assumption; try apply R. change (bpow radix2 8) with 256. apply Rabs_le. lra. Qed.
Lemma sum_nonneg x y p : finite_f32 p -> 0 <= fval p <= 1 -> (0 <= x < 256)%Z -> (0 <= y < 256)%Z -> 0 <= fval (finterpolate (f32_of_int x) (f32_of_int y) p).
Proof.
  intros Fp Hp Hx Hy. destruct (byte_b x Hx) as (Fx & Vx & Rx & Bx). destruct (byte_b y Hy) as (Fy & Vy & Ry & By). rewrite <- Vx in Bx. rewrite <- Vy in By. destruct (interp_val 8 _ _ p ltac:(lia) Fx Fy Fp Bx By Hp) as (_ & EV & _). rewrite EV, Vx, Vy.
  rewrite <- RN_0. apply RN_le. assert (Q : 0 <= RN (1 - fval p)) by (rewrite <- RN_0; apply RN_le; lra).
  assert (A : 0 <= RN (IZR x * RN (1 - fval p))) by (rewrite <- RN_0 at 1; apply RN_le, Rmult_le_pos; lra). assert (B : 0 <= RN (IZR y * fval p)) by (rewrite <- RN_0 at 1; apply RN_le, Rmult_le_pos; lra). lra.
Qed.
Lemma blend_ch x y p : finite_f32 p -> 0 <= fval p <= 1 -> (0 <= x < 256)%Z -> (0 <= y < 256)%Z ->
  let m := IZR x + fval p * (IZR y - IZR x) in exists r, blendf_ch x y p = Ok r /\ (0 <= r < 256)%Z /\ m - 1 - / 16384 < IZR r <= m + / 16384.
Proof.
  intros Fp Hp Hx Hy m. destruct (byte_b x Hx) as (Fx & Vx & Rx & Bx). destruct (byte_b y Hy) as (Fy & Vy & Ry & By). rewrite <- Vx in Bx. rewrite <- Vy in By. destruct (interp_val 8 _ _ p ltac:(lia) Fx Fy Fp Bx By Hp) as (F & _ & _). pose proof (interp_accurate 8 _ _ p ltac:(lia) Fx Fy Fp Bx By Hp) as A. rewrite Vx, Vy in A. fold m in A. pose proof (sum_nonneg x y p Fp Hp Hx Hy) as P.
  change (bpow radix2 (8 - 25)) with (/ 131072) in A. apply Rabs_le_inv in A. set (v := finterpolate (f32_of_int x) (f32_of_int y) p) in *.
  assert (MB : m <= 255). { unfold m. replace (IZR x + fval p * (IZR y - IZR x)) with ((1 - fval p) * IZR x + fval p * IZR y) by ring. assert ((1 - fval p) * IZR x <= (1 - fval p) * 255) by (apply Rmult_le_compat_l; lra). assert (fval p * IZR y <= fval p * 255) by (apply Rmult_le_compat_l; lra). lra. }
  pose proof (Zfloor_lb (fval v)) as L. pose proof (Zfloor_ub (fval v)) as U. assert (Z1 : (0 <= Zfloor (fval v))%Z) by (apply Zfloor_lub; exact P). assert (Z2 : (Zfloor (fval v) < 256)%Z) by (apply lt_IZR; lra).
  exists (Zfloor (fval v)). split; [|split; [lia|lra]]. change (blendf_ch x y p) with (f32_to_uint 8 v). apply Audio.cast_u; [apply F|apply Ztrunc_floor; exact P|split; [exact Z1|exact Z2]].
Qed.
Lemma blend_ends x y s : (0 <= x < 256)%Z -> (0 <= y < 256)%Z -> blendf_ch x y (S754_zero s) = Ok x /\ blendf_ch x y f32_one = Ok y.
Proof.
  intros Hx Hy. destruct (byte_b x Hx) as (Fx & Vx & Rx & _). destruct (byte_b y Hy) as (Fy & Vy & Ry & _). destruct (interp_at_0 _ _ s Fx Fy) as [F0 V0]. destruct (interp_at_1 _ _ Fx Fy) as [F1 V1].
  split; [change (blendf_ch x y (S754_zero s)) with (f32_to_uint 8 (finterpolate (f32_of_int x) (f32_of_int y) (S754_zero s)))|change (blendf_ch x y f32_one) with (f32_to_uint 8 (finterpolate (f32_of_int x) (f32_of_int y) f32_one))]; apply Audio.cast_u; try apply F0; try apply F1; try assumption.
  - rewrite V0, Vx. apply Ztrunc_IZR.
  - rewrite V1, Vy. apply Ztrunc_IZR.
Qed.

Lemma out_of_byte v : ffinite v = true -> 256 <= fval v \/ fval v <= -1 -> f32_to_uint 8 v = UB BadCast.
Proof.
  intros F H. unfold f32_to_uint. rewrite trunc_val by exact F. change (2 ^ 8)%Z with 256%Z.
  destruct H as [H|H].
  - assert (T : (256 <= Ztrunc (fval v))%Z) by (rewrite <- (Ztrunc_IZR 256); apply Ztrunc_le; exact H).
    destruct (Z.ltb_spec (Ztrunc (fval v)) 256); [lia|]. rewrite andb_false_r. reflexivity.
  - assert (T : (Ztrunc (fval v) <= -1)%Z) by (rewrite <- (Ztrunc_IZR (-1)); apply Ztrunc_le; exact H).
    destruct (Z.leb_spec 0 (Ztrunc (fval v))); [lia|]. reflexivity.
Qed.
Lemma to_uint_cases w v : (exists n, f32_to_uint w v = Ok n) \/ f32_to_uint w v = UB BadCast.
Proof. unfold f32_to_uint. destruct (f32_trunc v); [|auto]. destruct (_ && _); eauto. Qed.
Lemma blend_ch_ub x y p : (0 <= x < 256)%Z -> (0 <= y < 256)%Z -> finite_f32 p -> Rabs (fval p) <= 1024 ->
  let m := IZR x + fval p * (IZR y - IZR x) in 257 <= m \/ m <= -2 -> blendf_ch x y p = UB BadCast.
Proof.
  intros Hx Hy Fp Hp m H. destruct (byte_b x Hx) as (Fx & Vx & Rx & Bx). destruct (byte_b y Hy) as (Fy & Vy & Ry & By).
  assert (F1 : finite_f32 f32_one /\ fval f32_one = 1) by (apply (int_b 1); lia). destruct F1 as [F1 V1].
  assert (Hp' := Hp). apply Rabs_le_inv in Hp.
  assert (B1 : Rabs (1 - fval p) <= bpow radix2 11) by (change (bpow radix2 11) with 2048; apply Rabs_le; lra).
  destruct (fsub_b _ _ F1 Fp ltac:(rewrite V1; apply (le_127 11); [lia|exact B1])) as [FS ES]. rewrite V1 in ES.
  pose proof (RN_err 11 _ ltac:(lia) B1) as E1. change (bpow radix2 (11 - 25)) with (/ 16384) in E1. apply Rabs_le_inv in E1.
  set (q := RN (1 - fval p)) in *.
  assert (Rq : Rabs q <= 1026) by (apply Rabs_le; lra).
  assert (B2 : Rabs (IZR x * q) <= bpow radix2 19).
  { rewrite Rabs_mult, (Rabs_pos_eq (IZR x)) by lra. change (bpow radix2 19) with 524288. apply Rle_trans with (255 * 1026); [|lra]. apply Rmult_le_compat; try apply Rabs_pos; lra. }
  destruct (fmul_b _ _ Fx FS ltac:(rewrite Vx, ES; apply (le_127 19); [lia|exact B2])) as [FM EM]. rewrite Vx, ES in EM.
  pose proof (RN_err 19 _ ltac:(lia) B2) as E2. change (bpow radix2 (19 - 25)) with (/ 64) in E2. apply Rabs_le_inv in E2.
  assert (B3 : Rabs (IZR y * fval p) <= bpow radix2 18).
  { rewrite Rabs_mult, (Rabs_pos_eq (IZR y)) by lra. change (bpow radix2 18) with 262144. apply Rle_trans with (255 * 1024); [|lra]. apply Rmult_le_compat; try apply Rabs_pos; lra. }
  destruct (fmul_b _ _ Fy Fp ltac:(rewrite Vy; apply (le_127 18); [lia|exact B3])) as [FN EN]. rewrite Vy in EN.
  pose proof (RN_err 18 _ ltac:(lia) B3) as E3. change (bpow radix2 (18 - 25)) with (/ 128) in E3. apply Rabs_le_inv in E3.
  set (u := RN (IZR x * q)) in *. set (w := RN (IZR y * fval p)) in *.
  change (bpow radix2 19) with 524288 in B2. change (bpow radix2 18) with 262144 in B3. apply Rabs_le_inv in B2. apply Rabs_le_inv in B3.
  assert (B4 : Rabs (u + w) <= bpow radix2 20) by (change (bpow radix2 20) with 1048576; apply Rabs_le; lra).
  destruct (fadd_b _ _ FM FN ltac:(rewrite EM, EN; apply (le_127 20); [lia|exact B4])) as [FA EA]. rewrite EM, EN in EA.
  unfold blendf_ch. apply out_of_byte; [apply FA|]. rewrite EA.
  assert (X : Rabs (IZR x * (q - (1 - fval p))) <= 255 * / 16384).
  { rewrite Rabs_mult, (Rabs_pos_eq (IZR x)) by lra. apply Rmult_le_compat; try apply Rabs_pos; try lra. apply Rabs_le; lra. }
  apply Rabs_le_inv in X. assert (Em : m = IZR x * (1 - fval p) + IZR y * fval p) by (unfold m; ring).
  replace (IZR x * (q - (1 - fval p))) with (IZR x * q - IZR x * (1 - fval p)) in X by ring.
  destruct H as [H|H]; [left|right].
  - rewrite <- (RN_id 256) by (apply (in_int 256); lia). apply RN_le; lra.
  - rewrite <- (RN_id (-1)) by (apply (in_int (-1)); lia). apply RN_le; lra.
Qed.
Lemma blendf_ub c d p : is_color c -> is_color d -> finite_f32 p -> Rabs (fval p) <= 1024 ->
  (let out x y := let m := IZR x + fval p * (IZR y - IZR x) in 257 <= m \/ m <= -2 in
   out (red c) (red d) \/ out (green c) (green d) \/ out (blue c) (blue d)) -> blendf c d p = UB BadCast.
Proof.
  intros (C1 & C2 & C3) (D1 & D2 & D3) Fp Hp H. cbv zeta in H. unfold blendf.
  assert (K : forall x y, (exists n, blendf_ch x y p = Ok n) \/ blendf_ch x y p = UB BadCast) by (intros; apply to_uint_cases).
  destruct H as [H|[H|H]].
  - rewrite blend_ch_ub; auto.
  - destruct (K (red c) (red d)) as [[n ->]| ->]; cbn [bind]; [|reflexivity]. rewrite blend_ch_ub; auto.
  - destruct (K (red c) (red d)) as [[n ->]| ->]; cbn [bind]; [|reflexivity]. destruct (K (green c) (green d)) as [[n2 ->]| ->]; cbn [bind]; [|reflexivity]. rewrite blend_ch_ub; auto.
Qed.
