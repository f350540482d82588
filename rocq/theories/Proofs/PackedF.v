(* Packed blends with a float weight, and Color times float. *)
From Coq Require Import ZArith Reals Lra Lia List Floats.SpecFloat.
From Flocq Require Import Core.
From Verif.Common Require Import Base Lemmas F32 F32Order F32Real F32Arith.
From Verif.Spec Require Import ColorSpec.
From Verif.Model Require Import Color.
From Verif.Proofs Require Import Color ColorFloat.
From Verif.Proofs Require Audio.
Open Scope R_scope.

Lemma alpha_val a : finite_f32 a -> 0 <= fval a <= 1 -> exists k, alpha8 a = Ok k /\ (0 <= k <= 255)%Z /\ 255 * fval a - 1 - / 65536 < IZR k <= 255 * fval a + / 65536.
Proof.
  intros Fa Ha. destruct (int_b 255 ltac:(lia)) as [F1 E1]. destruct (fmul_b a _ Fa F1) as [FP EP]; [rewrite E1; apply (small_le_127 8); [lia|]; change (IZR (2 ^ 8)) with 256; apply Rabs_le; lra|]. rewrite E1 in EP.
  assert (ER : Rabs (RN (fval a * 255) - fval a * 255) <= bpow radix2 (8 - 25)) by (apply RN_err; [lia|]; change (bpow radix2 8) with 256; apply Rabs_le; lra). change (bpow radix2 (8 - 25)) with (/ 131072) in ER. apply Rabs_le_inv in ER.
  assert (B : 0 <= RN (fval a * 255) <= 255) by (apply RN_between; [apply (in_int 0); lia|apply (in_int 255); lia|lra]).
  set (v := fmul a (f32_of_int 255)) in *. rewrite <- EP in ER, B. pose proof (Zfloor_lb (fval v)) as L. pose proof (Zfloor_ub (fval v)) as U.
  assert (Z1 : (0 <= Zfloor (fval v))%Z) by (apply Zfloor_lub; apply B). assert (Z2 : (Zfloor (fval v) <= 255)%Z) by (apply le_IZR; lra).
  exists (Zfloor (fval v)). split; [|split; [lia|lra]]. unfold alpha8. fold v. apply Audio.cast_u; [apply FP|apply Ztrunc_floor; apply B|change (2 ^ 8)%Z with 256%Z; lia].
Qed.
Lemma alpha_out a : finite_f32 a -> Rabs (fval a) <= bpow radix2 100 -> fval a <= - / 255 \/ 256 / 255 <= fval a -> alpha8 a = UB BadCast.
Proof.
  intros Fa HB Ha. destruct (int_b 255 ltac:(lia)) as [F1 E1]. destruct (fmul_b a _ Fa F1) as [FP EP].
  { rewrite E1, Rabs_mult, (Rabs_pos_eq 255) by lra. apply Rle_trans with (bpow radix2 100 * bpow radix2 8); [apply Rmult_le_compat; try lra; [apply Rabs_pos|change (bpow radix2 8) with 256; lra]|]. rewrite <- bpow_plus. apply bpow_le. lia. }
  rewrite E1 in EP. unfold alpha8, f32_to_uint. rewrite trunc_val by apply FP. set (v := fmul a (f32_of_int 255)) in *.
  destruct Ha as [Ha|Ha].
  - assert (V : fval v <= -1) by (rewrite EP, <- (RN_id (-1)) by (apply (in_int (-1)); lia); apply RN_le; lra).
    assert (T : (Ztrunc (fval v) <= -1)%Z) by (rewrite <- (Ztrunc_IZR (-1)); apply Ztrunc_le; exact V). destruct (Z.leb_spec 0 (Ztrunc (fval v))); [lia|]. reflexivity.
  - assert (V : 256 <= fval v) by (rewrite EP, <- (RN_id 256) by (apply (in_int 256); lia); apply RN_le; lra).
    assert (T : (256 <= Ztrunc (fval v))%Z) by (rewrite <- (Ztrunc_IZR 256); apply Ztrunc_le; exact V). change (2 ^ 8)%Z with 256%Z. destruct (Z.ltb_spec (Ztrunc (fval v)) 256); [lia|]. rewrite andb_false_r. reflexivity.
Qed.
Lemma alpha_ends s : alpha8 (S754_zero s) = Ok 0%Z /\ alpha8 f32_one = Ok 255%Z.
Proof. split; [destruct s|]; vm_compute; reflexivity. Qed.

Open Scope Z_scope.
(* both blends by channel *)
Definition mean255 (x y a : Z) : Z := (y * a + x * (255 - a)) / 255.
Lemma slow_channels c1 c2 a : uint16 c1 -> uint16 c2 -> 0 <= a <= 255 ->
  let c := rgb565 (blend8 (color_of_565 c1) (color_of_565 c2) a) in
  uint16 c /\ red5 c = mean255 (red5 c1) (red5 c2) a /\ green6 c = mean255 (green6 c1) (green6 c2) a /\ blue5 c = mean255 (blue5 c1) (blue5 c2) a.
Proof.
  intros H1 H2 Ha c. pose proof (is_color_565 c1 H1) as K1. pose proof (is_color_565 c2 H2) as K2. assert (Hb : byte a) by (unfold byte; lia).
  assert (KB : is_color (blend8 (color_of_565 c1) (color_of_565 c2) a)).
  { destruct (blend8_within _ _ a K1 K2 Hb) as (W1 & W2 & W3). destruct K1 as (P1 & P2 & P3), K2 as (Q1 & Q2 & Q3). unfold is_color, byte, within in *. lia. }
  split; [apply (to565_spec _ KB)|]. destruct (to565_channels _ KB) as (E1 & E2 & E3). unfold c. rewrite E1, E2, E3, blend8_spec by assumption. rewrite !of565_spec by assumption. unfold each2. cbn [red green blue]. unfold mean255.
  assert (HD : forall k x y, 0 < k -> (y * k * a + x * k * (255 - a)) / 255 / k = (y * a + x * (255 - a)) / 255).
  { intros k x y Hk. rewrite Z.div_div by lia. replace (y * k * a + x * k * (255 - a)) with ((y * a + x * (255 - a)) * k) by ring. apply Z.div_mul_cancel_r; lia. }
  rewrite !HD by lia. auto.
Qed.
Lemma mean_near x y a m : 0 <= x < m -> 0 <= y < m -> m <= 64 -> 0 <= a <= 255 -> near 1 (mean255 x y a) (x + (y - x) * ((a + 4) / 8) / 32).
Proof.
  intros Hx Hy Hm Ha. unfold near, mean255. replace (y * a + x * (255 - a)) with ((y - x) * a + x * 255) by ring. rewrite Z.div_add by lia. set (d := y - x). assert (Hd : -63 <= d <= 63) by (unfold d; lia).
  pose proof (Z.div_mod (a + 4) 8 ltac:(lia)) as E. pose proof (Z.mod_pos_bound (a + 4) 8 ltac:(lia)) as M. set (r := (a + 4) / 8) in *. assert (Hr : 0 <= r <= 32) by lia.
  assert (B : -128 <= 32 * a - 255 * r <= 128) by lia. assert (B2 : -8064 <= d * (32 * a - 255 * r) <= 8064) by nia.
  pose proof (Z.div_mod (d * a) 255 ltac:(lia)) as E1. pose proof (Z.mod_pos_bound (d * a) 255 ltac:(lia)) as M1. pose proof (Z.div_mod (d * r) 32 ltac:(lia)) as E2. pose proof (Z.mod_pos_bound (d * r) 32 ltac:(lia)) as M2.
  replace (d * (32 * a - 255 * r)) with (32 * (d * a) - 255 * (d * r)) in B2 by ring. set (p := d * a) in *. set (q := d * r) in *. set (u := p / 255) in *. set (v := q / 32) in *. lia.
Qed.
Lemma blends_near c1 c2 a : uint16 c1 -> uint16 c2 -> finite_f32 a -> (0 <= fval a <= 1)%R ->
  exists s b, slow_blend c1 c2 a = Ok s /\ blend565f c1 c2 a = Ok b /\ uint16 s /\ uint16 b /\
    near 1 (red5 s) (red5 b) /\ near 1 (green6 s) (green6 b) /\ near 1 (blue5 s) (blue5 b).
Proof.
  intros H1 H2 Fa Ha. destruct (alpha_val a Fa Ha) as (k & E & Hk & _). unfold slow_blend, blend565f. rewrite E. cbn [bind]. do 2 eexists. split; [reflexivity|]. split; [reflexivity|].
  destruct (slow_channels c1 c2 k H1 H2 Hk) as (A0 & A1 & A2 & A3). destruct (blend565_channels c1 c2 k H1 H2 ltac:(unfold byte; lia)) as (B0 & B1 & B2 & B3). cbv zeta in *.
  split; [exact A0|]. split; [exact B0|]. rewrite A1, A2, A3, B1, B2, B3. unfold uint16, red5, green6, blue5 in *.
  assert (R : forall c, 0 <= c < 2 ^ 16 -> 0 <= c / 2 ^ 11 < 32) by (intros c Hc; split; [apply Z.div_pos; lia|apply Z.div_lt_upper_bound; lia]).
  splits; [apply (mean_near _ _ _ 32); auto; lia|apply (mean_near _ _ _ 64); try lia; apply Z.mod_pos_bound; lia|apply (mean_near _ _ _ 32); try lia; apply Z.mod_pos_bound; lia].
Qed.
Lemma blends_ends c1 c2 s : uint16 c1 -> uint16 c2 ->
  slow_blend c1 c2 (S754_zero s) = Ok c1 /\ slow_blend c1 c2 f32_one = Ok c2 /\ blend565f c1 c2 (S754_zero s) = Ok c1 /\ blend565f c1 c2 f32_one = Ok c2.
Proof.
  intros H1 H2. destruct (alpha_ends s) as [E0 E1]. unfold slow_blend, blend565f. rewrite E0, E1. cbn [bind].
  destruct (blend8_ends _ _ (is_color_565 c1 H1) (is_color_565 c2 H2)) as [-> ->]. rewrite !round565 by assumption.
  rewrite (proj1 (blend565_ends c1 c2 0 H1 H2 ltac:(unfold byte; lia))) by lia. rewrite (proj2 (blend565_ends c1 c2 255 H1 H2 ltac:(unfold byte; lia))) by lia. auto.
Qed.
Lemma blends_out c1 c2 a : finite_f32 a -> (Rabs (fval a) <= bpow radix2 100)%R -> (fval a <= - / 255 \/ 256 / 255 <= fval a)%R ->
  slow_blend c1 c2 a = UB BadCast /\ blend565f c1 c2 a = UB BadCast.
Proof. intros Fa HB Ha. unfold slow_blend, blend565f. rewrite alpha_out by assumption. auto. Qed.
Open Scope R_scope.
Lemma mean_real x y k (f : R) : (0 <= x < 64)%Z -> (0 <= y < 64)%Z -> 255 * f - 1 - / 65536 < IZR k <= 255 * f + / 65536 -> Rabs (IZR (mean255 x y k) - (IZR x + f * (IZR y - IZR x))) < 5 / 4.
Proof.
  intros Hx Hy Hk. unfold mean255. replace (y * k + x * (255 - k))%Z with ((y - x) * k + x * 255)%Z by ring. rewrite Z.div_add by lia. set (d := (y - x)%Z). assert (Hd : (-63 <= d <= 63)%Z) by (unfold d; lia).
  pose proof (Z.div_mod (d * k) 255 ltac:(lia)) as E. pose proof (Z.mod_pos_bound (d * k) 255 ltac:(lia)) as M. set (q := (d * k / 255)%Z) in *.
  apply (f_equal IZR) in E. rewrite plus_IZR, !mult_IZR in E. assert (M2 : 0 <= IZR (d * k mod 255) <= 254) by (split; apply IZR_le; lia). set (m := IZR (d * k mod 255)) in *. rewrite plus_IZR.
  assert (D : IZR y - IZR x = IZR d) by (unfold d; rewrite minus_IZR; reflexivity). rewrite D. clear D. assert (DR : -63 <= IZR d <= 63) by (split; apply IZR_le; lia). clearbody d q m. set (D := IZR d) in *. set (K := IZR k) in *. set (Q := IZR q) in *. clearbody D K Q.
  set (t := K - 255 * f). assert (T : -1 - / 65536 < t <= / 65536) by (unfold t; lra).
  assert (TD : -63.5 <= D * t <= 63.5) by (split; nra). replace (Q + IZR x - (IZR x + f * D)) with ((D * t - m) / 255); [apply Rabs_def1; lra|].
  unfold t. replace (D * (K - 255 * f) - m) with (D * K - m - 255 * (f * D)) by ring. rewrite E. field.
Qed.
Lemma channel_ranges c : uint16 c -> (0 <= red5 c < 64)%Z /\ (0 <= green6 c < 64)%Z /\ (0 <= blue5 c < 64)%Z.
Proof.
  unfold uint16, red5, green6, blue5. intros H. repeat split; try (apply Z.div_pos; lia); try (apply Z.mod_pos_bound; lia); [apply Z.lt_trans with 32%Z; [apply Z.div_lt_upper_bound; lia|lia]|].
  apply Z.lt_trans with 32%Z; [apply Z.mod_pos_bound; lia|lia].
Qed.
Lemma blends_mixed c1 c2 a : uint16 c1 -> uint16 c2 -> finite_f32 a -> 0 <= fval a <= 1 ->
  let mixed (e : R) x y r := Rabs (IZR r - (IZR x + fval a * (IZR y - IZR x))) < e in
  exists s b, slow_blend c1 c2 a = Ok s /\ blend565f c1 c2 a = Ok b /\
    mixed (5 / 4) (red5 c1) (red5 c2) (red5 s) /\ mixed (5 / 4) (green6 c1) (green6 c2) (green6 s) /\ mixed (5 / 4) (blue5 c1) (blue5 c2) (blue5 s) /\
    mixed (9 / 4) (red5 c1) (red5 c2) (red5 b) /\ mixed (9 / 4) (green6 c1) (green6 c2) (green6 b) /\ mixed (9 / 4) (blue5 c1) (blue5 c2) (blue5 b).
Proof.
  intros H1 H2 Fa Ha mixed. destruct (blends_near c1 c2 a H1 H2 Fa Ha) as (s & b & Es & Eb & Us & Ub & N1 & N2 & N3). exists s, b. split; [exact Es|]. split; [exact Eb|].
  destruct (alpha_val a Fa Ha) as (k & E & Hk & Hr). unfold slow_blend in Es. rewrite E in Es. cbn [bind] in Es. injection Es as Es. destruct (slow_channels c1 c2 k H1 H2 Hk) as (_ & A1 & A2 & A3). rewrite Es in A1, A2, A3.
  destruct (channel_ranges c1 H1) as (R1 & R2 & R3). destruct (channel_ranges c2 H2) as (S1 & S2 & S3).
  assert (T1 : mixed (5 / 4) (red5 c1) (red5 c2) (red5 s)) by (unfold mixed; rewrite A1; apply mean_real; assumption).
  assert (T2 : mixed (5 / 4) (green6 c1) (green6 c2) (green6 s)) by (unfold mixed; rewrite A2; apply mean_real; assumption).
  assert (T3 : mixed (5 / 4) (blue5 c1) (blue5 c2) (blue5 s)) by (unfold mixed; rewrite A3; apply mean_real; assumption).
  assert (ST : forall x y p q, near 1 p q -> mixed (5 / 4) x y p -> mixed (9 / 4) x y q).
  { intros x y p q HN HM. unfold mixed, near in *. assert (Q1 : (p - 1 <= q <= p + 1)%Z) by lia. destruct Q1 as [Q1 Q2]. apply IZR_le in Q1, Q2. rewrite minus_IZR in Q1. rewrite plus_IZR in Q2. apply Rabs_def2 in HM. apply Rabs_def1; lra. }
  repeat split; auto; eapply ST; eauto.
Qed.

(* Color times float *)
Lemma scale_ch y p : finite_f32 p -> 0 <= fval p <= 1 -> (0 <= y < 256)%Z -> exists r, blendf_ch 0 y p = Ok r /\ (0 <= r <= y)%Z /\ fval p * IZR y - 1 - / 16384 < IZR r <= fval p * IZR y + / 16384.
Proof.
  intros Fp Hp Hy. destruct (blend_ch 0 y p Fp Hp ltac:(lia) Hy) as (r & E & Hr & Hm). exists r. split; [exact E|]. assert (RY : 0 <= IZR y <= 255) by (split; apply IZR_le; lia).
  replace (IZR 0 + fval p * (IZR y - IZR 0)) with (fval p * IZR y) in Hm by (change (IZR 0) with 0; ring). split; [|exact Hm]. split; [lia|].
  assert (P : fval p * IZR y <= IZR y) by (rewrite <- (Rmult_1_l (IZR y)) at 2; apply Rmult_le_compat_r; lra). assert (L : IZR r < IZR (y + 1)) by (rewrite plus_IZR; lra). apply lt_IZR in L. lia.
Qed.
Lemma scale_within c p : is_color c -> finite_f32 p -> 0 <= fval p <= 1 ->
  let dimmed y r := (0 <= r <= y)%Z /\ fval p * IZR y - 1 - / 16384 < IZR r <= fval p * IZR y + / 16384 in
  exists r, scale c p = Ok r /\ dimmed (red c) (red r) /\ dimmed (green c) (green r) /\ dimmed (blue c) (blue r).
Proof.
  intros (C1 & C2 & C3) Fp Hp dimmed. unfold scale, blendf. cbn [red green blue]. destruct (scale_ch (red c) p Fp Hp C1) as (r & -> & R). destruct (scale_ch (green c) p Fp Hp C2) as (g & -> & G). destruct (scale_ch (blue c) p Fp Hp C3) as (b & -> & B).
  exists (RGB r g b). unfold byte in *. cbn [bind]. unfold mk. rewrite !word_small by (change (2 ^ 8)%Z with 256%Z; lia). auto.
Qed.
Lemma scale_up_ub c p : is_color c -> finite_f32 p -> 1 <= fval p <= bpow radix2 100 -> 256 <= fval p * IZR (red c) -> scale c p = UB BadCast.
Proof.
  intros (C1 & _) Fp Hp HX. destruct (byte_b (red c) C1) as (Fy & Vy & Ry & _). destruct (byte_b 0 ltac:(lia)) as (F0 & V0 & _). assert (P0 : 0 < bpow radix2 100) by apply bpow_gt_0.
  unfold scale, blendf, blendf_ch. cbn [red green blue].
  assert (F1 : finite_f32 f32_one /\ fval f32_one = 1) by (apply (int_b 1); lia). destruct F1 as [F1 V1].
  assert (BP : bpow radix2 100 * bpow radix2 8 <= bpow radix2 127) by (rewrite <- bpow_plus; apply bpow_le; lia). change (bpow radix2 8) with 256 in BP.
  destruct (fsub_b _ _ F1 Fp) as [FS ES]; [rewrite V1; apply Rabs_le; lra|].
  destruct (fmul_b _ _ F0 FS) as [FM EM]; [rewrite V0, Rmult_0_l, Rabs_R0; lra|]. rewrite V0, Rmult_0_l, RN_0 in EM.
  assert (PB : Rabs (IZR (red c) * fval p) <= bpow radix2 127).
  { rewrite Rabs_pos_eq by (apply Rmult_le_pos; lra). apply Rle_trans with (256 * bpow radix2 100); [apply Rmult_le_compat; lra|lra]. }
  destruct (fmul_b _ _ Fy Fp) as [FN EN]; [rewrite Vy; exact PB|]. rewrite Vy in EN.
  assert (NB : 256 <= RN (IZR (red c) * fval p) <= bpow radix2 127).
  { split; [rewrite <- (RN_id 256) by (apply (in_int 256); lia); apply RN_le; lra|]. rewrite <- (RN_id (bpow radix2 127)) by (apply in_pow; lia). apply RN_le. apply Rabs_le_inv in PB. lra. }
  destruct (fadd_b _ _ FM FN) as [FA EA]; [rewrite EM, EN, Rplus_0_l, Rabs_pos_eq by lra; lra|]. rewrite EM, EN, Rplus_0_l in EA. rewrite (RN_id (RN _)) in EA by apply RN_in.
  unfold f32_to_uint. rewrite trunc_val by apply FA. set (v := fadd _ _) in *. assert (T : (256 <= Ztrunc (fval v))%Z) by (rewrite <- (Ztrunc_IZR 256); apply Ztrunc_le; rewrite EA; lra).
  change (2 ^ 8)%Z with 256%Z. destruct (Z.ltb_spec (Ztrunc (fval v)) 256); [lia|]. rewrite andb_false_r. reflexivity.
Qed.
