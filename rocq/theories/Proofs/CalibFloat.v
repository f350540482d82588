(* Calibrator in single precision. *)
From Coq Require Import ZArith Reals Lra Lia Floats.SpecFloat.
From Flocq Require Import Core.
From Verif.Common Require Import Base F32 F32Order F32Real F32Arith F32Err.
From Verif.Model Require Import Calib.
From Verif.Proofs Require Import MathFloat TableAcc TableF.
Open Scope R_scope.

Notation u := (/ 16777216).
Lemma any t : Rabs (RN t - t) <= u * Rabs t + feta. Proof. apply RN_any. Qed.
Lemma near_abs a b r : Rabs (a - b) <= r -> Rabs a <= Rabs b + r.
Proof. intros H. replace a with (b + (a - b)) by ring. apply Rle_trans with (1 := Rabs_triang _ _). lra. Qed.
Lemma abs_sub a b : Rabs (a - b) <= Rabs a + Rabs b. Proof. unfold Rminus. rewrite <- (Rabs_Ropp b). apply Rabs_triang. Qed.
(* quotients of nearby numbers *)
Lemma quot_near a b A B : B <> 0 -> Rabs (a - A) <= u * Rabs A -> Rabs (b - B) <= u * Rabs B -> b <> 0 /\ Rabs (a / b - A / B) <= 21 / 10 * u * Rabs (A / B).
Proof.
  intros HB Ha Hb. assert (PB : 0 < Rabs B) by (apply Rabs_pos_lt; exact HB). pose proof (near_abs B b _ ltac:(rewrite Rabs_minus_sym; exact Hb)) as LB. assert (Pb : 0 < Rabs b) by lra. assert (NB : b <> 0) by (intros ->; rewrite Rabs_R0 in Pb; lra). split; [exact NB|].
  assert (EA : A = A / B * B) by (field; exact HB). assert (EB : Rabs A = Rabs (A / B) * Rabs B) by (rewrite <- Rabs_mult, <- EA; reflexivity). generalize dependent (A / B). intros T EA EB. replace (a / b - T) with ((a - A + - (T * (b - B))) * / b) by (rewrite EA; field; exact NB). rewrite Rabs_mult, Rabs_inv.
  apply Rmult_le_reg_r with (Rabs b); [exact Pb|]. rewrite Rmult_assoc, Rinv_l, Rmult_1_r by lra. apply Rle_trans with (1 := Rabs_triang _ _). rewrite Rabs_Ropp, Rabs_mult. rewrite EB in Ha. pose proof (Rmult_le_compat_l (Rabs T) _ _ (Rabs_pos _) Hb). pose proof (Rmult_le_compat_l (Rabs T) _ _ (Rabs_pos _) LB). pose proof (Rmult_le_pos _ _ (Rabs_pos T) (Rabs_pos B)). lra.
Qed.
Lemma sub_ne x y : in_f32 x -> in_f32 y -> x <> y -> RN (x - y) <> 0.
Proof. intros Hx Hy H. destruct (Rtotal_order x y) as [L|[L|L]]; [|contradiction|]. - pose proof (sub_nonzero _ _ Hx Hy L). replace (x - y) with (- (y - x)) by ring. rewrite RN_opp. lra. - pose proof (sub_nonzero _ _ Hy Hx L). lra. Qed.

Lemma quot_change v a b : a <> 0 -> b <> 0 -> v / a - v / b = v / b * ((b - a) * / a). Proof. intros. field. auto. Qed.
Lemma mul_back v b : b <> 0 -> b * (v / b) = v. Proof. intros. field. auto. Qed.
Lemma line_form t r m b : b <> 0 -> t + (r - m) * b = (r - (m - t / b)) * b. Proof. intros. field. auto. Qed.
Lemma line_over t r m b : b <> 0 -> (t + (r - m) * b) / b = t / b + (r - m). Proof. intros. field. auto. Qed.

Section Cal.
Variables (tl th ml mh : f32).
Hypotheses (Ftl : finite_f32 tl) (Fth : finite_f32 th) (Fml : finite_f32 ml) (Fmh : finite_f32 mh)
  (Btl : Rabs (fval tl) <= bpow radix2 60) (Bth : Rabs (fval th) <= bpow radix2 60) (Bml : Rabs (fval ml) <= bpow radix2 60) (Bmh : Rabs (fval mh) <= bpow radix2 60)
  (Hm : fval mh <> fval ml).
Notation S := ((fval th - fval tl) / (fval mh - fval ml)).
Hypotheses (HS : bpow radix2 (-30) <= Rabs S <= bpow radix2 30).
Notation c := (calibrate_chan fsub fdiv tl th ml mh).
Notation w := (fval tl / S).
Lemma mm_ne : fval mh - fval ml <> 0. Proof. apply Rminus_eq_contra, Hm. Qed.
Lemma s_pos : 0 < Rabs S. Proof. apply Rlt_le_trans with (bpow radix2 (-30)); [apply bpow_gt_0|apply HS]. Qed.
Lemma S_ne : S <> 0. Proof. pose proof s_pos as H. intros E. rewrite E, Rabs_R0 in H. lra. Qed.
Lemma diff60 x y : finite_f32 x -> finite_f32 y -> Rabs (fval x) <= bpow radix2 60 -> Rabs (fval y) <= bpow radix2 60 -> finite_f32 (fsub x y) /\ fval (fsub x y) = RN (fval x - fval y).
Proof. intros Fx Fy Bx By. apply fsub_b; auto. apply (le_127 61); [lia|]. change 61%Z with (60 + 1)%Z. rewrite pow_step. apply Rabs_le_inv in Bx, By. apply Rabs_le. lra. Qed.
Lemma slope_b : finite_f32 (cal_slope c) /\ Rabs (fval (cal_slope c) - S) <= 32 / 10 * u * Rabs S.
Proof.
  destruct (diff60 th tl Fth Ftl Bth Btl) as [Fa Va]. destruct (diff60 mh ml Fmh Fml Bmh Bml) as [Fb Vb]. pose proof s_pos as SP.
  pose proof (sub_rel _ _ (fval_in th (proj1 Fth)) (fval_in tl (proj1 Ftl))) as Ra. pose proof (sub_rel _ _ (fval_in mh (proj1 Fmh)) (fval_in ml (proj1 Fml))) as Rb. rewrite fu_val in Ra, Rb.
  destruct (quot_near _ _ _ _ mm_ne Ra Rb) as [NB Q]. assert (HQ : Rabs (RN (fval th - fval tl) / RN (fval mh - fval ml)) <= bpow radix2 31). { apply Rle_trans with (1 := near_abs _ _ _ Q). change 31%Z with (30 + 1)%Z. rewrite pow_step. lra. }
  assert (HQ2 : bpow radix2 (-126) <= Rabs (RN (fval th - fval tl) / RN (fval mh - fval ml))). { rewrite Rabs_minus_sym in Q. pose proof (near_abs _ _ _ Q). apply Rle_trans with (bpow radix2 (-31)); [apply bpow_le; lia|]. pose proof (pow_step (-31)) as PS. change (-31 + 1)%Z with (-30)%Z in PS. lra. }
  destruct (fdiv_b _ _ Fa Fb) as [F V]; [rewrite Vb; exact NB|rewrite Va, Vb; apply (le_127 31); [lia|exact HQ]|]. rewrite Va, Vb in V. cbn [cal_slope calibrate_chan]. split; [exact F|]. rewrite V. pose proof (RN_rel _ HQ2) as R. change (bpow radix2 (-24)) with u in R. pose proof (near_abs _ _ _ Q) as NQ. set (q := RN (fval th - fval tl) / RN (fval mh - fval ml)) in *.
  replace (RN q - S) with ((RN q - q) + (q - S)) by ring. apply Rle_trans with (1 := Rabs_triang _ _). lra.
Qed.
Lemma slope_big : 99 / 100 * Rabs S <= Rabs (fval (cal_slope c)) <= 101 / 100 * Rabs S.
Proof. destruct slope_b as [_ H]. pose proof (near_abs _ _ _ H). rewrite Rabs_minus_sym in H. pose proof (near_abs _ _ _ H). pose proof s_pos. lra. Qed.
Lemma over_slope v : finite_f32 v -> Rabs (fval v) <= bpow radix2 93 -> finite_f32 (fdiv v (cal_slope c)) /\ Rabs (fval (fdiv v (cal_slope c)) - fval v / S) <= 44 / 10 * u * Rabs (fval v / S) + feta.
Proof.
  intros Fv Bv. destruct slope_b as [Fs Es]. pose proof slope_big as [L U]. pose proof s_pos as SP. pose proof S_ne as SN. assert (NS : fval (cal_slope c) <> 0) by (intros E; rewrite E, Rabs_R0 in L; lra).
  set (sl := fval (cal_slope c)) in *. assert (NEAR : Rabs (fval v / sl - fval v / S) <= 33 / 10 * u * Rabs (fval v / S)).
  { replace (fval v / sl - fval v / S) with (fval v / S * ((S - sl) * / sl)) by (symmetry; apply quot_change; assumption). rewrite Rabs_mult, Rmult_comm. apply Rmult_le_compat_r; [apply Rabs_pos|]. rewrite Rabs_mult, Rabs_inv, Rabs_minus_sym. apply Rmult_le_reg_r with (Rabs sl); [lra|]. rewrite Rmult_assoc, Rinv_l, Rmult_1_r by lra. lra. }
  assert (VS : Rabs (fval v / S) <= bpow radix2 123). { unfold Rdiv at 1. rewrite Rabs_mult, Rabs_inv. change 123%Z with (93 + 30)%Z. rewrite bpow_plus. apply Rmult_le_compat; [apply Rabs_pos|apply Rlt_le, Rinv_0_lt_compat; exact SP|exact Bv|]. change (bpow radix2 30) with (bpow radix2 (- -30)). rewrite bpow_opp. apply Rinv_le_contravar; [apply bpow_gt_0|apply HS]. }
  pose proof (near_abs _ _ _ NEAR) as NA. assert (PV : 0 <= Rabs (fval v / S)) by apply Rabs_pos. assert (B : Rabs (fval v / sl) <= bpow radix2 124) by (change 124%Z with (123 + 1)%Z; rewrite pow_step; lra).
  destruct (fdiv_b v (cal_slope c) Fv Fs NS (le_127 124 _ ltac:(lia) B)) as [F V]. split; [exact F|]. rewrite V. fold sl. pose proof (any (fval v / sl)) as A.
  replace (RN (fval v / sl) - fval v / S) with ((RN (fval v / sl) - fval v / sl) + (fval v / sl - fval v / S)) by ring. apply Rle_trans with (1 := Rabs_triang _ _). lra.
Qed.
Lemma w_bound : Rabs w <= bpow radix2 90.
Proof. unfold Rdiv at 1. rewrite Rabs_mult, Rabs_inv. change 90%Z with (60 + 30)%Z. rewrite bpow_plus. apply Rmult_le_compat; [apply Rabs_pos|apply Rlt_le, Rinv_0_lt_compat, s_pos|exact Btl|]. change (bpow radix2 30) with (bpow radix2 (- -30)). rewrite bpow_opp. apply Rinv_le_contravar; [apply bpow_gt_0|apply HS]. Qed.
Lemma eta1 : feta <= bpow radix2 0. Proof. apply bpow_le. lia. Qed.
Lemma pow_le a b : (a <= b)%Z -> bpow radix2 a <= bpow radix2 b. Proof. apply bpow_le. Qed.
Lemma off_b : finite_f32 (cal_offset c) /\ Rabs (fval (cal_offset c) - (fval ml - w)) <= u * (55 / 10 * Rabs w + Rabs (fval ml)) + 21 / 10 * feta.
Proof.
  destruct (over_slope tl Ftl) as [Fz Ez]; [apply Rle_trans with (1 := Btl); apply bpow_le; lia|]. pose proof w_bound as WB. pose proof feta_pos as EP. pose proof eta1 as E1. pose proof (pow_le 0 60 ltac:(lia)). pose proof (pow_le 60 90 ltac:(lia)).
  cbn [cal_offset calibrate_chan cal_slope] in *. set (z := fdiv tl (fdiv (fsub th tl) (fsub mh ml))) in *. pose proof (near_abs _ _ _ Ez) as NZ. pose proof (Rabs_pos w) as PW.
  assert (ND : Rabs (fval ml - fval z) <= Rabs (fval ml) + Rabs (fval z)) by apply abs_sub.
  assert (B : Rabs (fval ml - fval z) <= bpow radix2 92). { change 92%Z with (90 + 1 + 1)%Z. rewrite !pow_step. lra. }
  destruct (fsub_b ml z Fml Fz (le_127 92 _ ltac:(lia) B)) as [F V]. split; [exact F|]. rewrite V. pose proof (any (fval ml - fval z)) as A.
  replace (RN (fval ml - fval z) - (fval ml - w)) with ((RN (fval ml - fval z) - (fval ml - fval z)) + - (fval z - w)) by ring. apply Rle_trans with (1 := Rabs_triang _ _). rewrite Rabs_Ropp. pose proof (Rabs_pos (fval ml)). lra.
Qed.
Lemma tiny : 4 * (bpow radix2 30 + 1) * feta <= bpow radix2 (-100).
Proof. assert (E : bpow radix2 (-100) = bpow radix2 50 * feta) by (unfold feta; rewrite <- bpow_plus; f_equal). rewrite E. apply Rmult_le_compat_r; [apply Rlt_le, feta_pos|]. change (bpow radix2 30) with (IZR (2 ^ 30)). change (bpow radix2 50) with (IZR (2 ^ 50)). change 1 with (IZR 1). rewrite <- plus_IZR. rewrite <- mult_IZR. apply IZR_le. vm_compute. discriminate. Qed.
Lemma adjust_line raw : finite_f32 raw -> Rabs (fval raw) <= bpow radix2 60 ->
  let r := adjust fsub fmul c raw in finite_f32 r /\ Rabs (fval r - (fval tl + (fval raw - fval ml) * S)) <= 12 * u * (Rabs S * (Rabs (fval raw) + Rabs (fval ml)) + Rabs (fval tl)) + bpow radix2 (-100).
Proof.
  intros Fr Br r. destruct slope_b as [Fs Es]. pose proof slope_big as [L U]. pose proof s_pos as SP. pose proof S_ne as SN. destruct off_b as [Fo Eo]. pose proof w_bound as WB. pose proof feta_pos as EP. pose proof eta1 as E1. pose proof (pow_le 0 60 ltac:(lia)). pose proof (pow_le 60 90 ltac:(lia)). pose proof tiny as TN.
  assert (TLW : Rabs (fval tl) = Rabs S * Rabs w) by (rewrite <- Rabs_mult; f_equal; symmetry; apply mul_back; exact SN).
  rewrite (line_form _ _ _ _ SN).
  unfold r, adjust. set (off := cal_offset c) in *. set (slp := cal_slope c) in *. set (X := Rabs (fval raw)) in *. set (M := Rabs (fval ml)) in *. set (W := Rabs w) in *. set (s := Rabs S) in *.
  assert (PX : 0 <= X) by apply Rabs_pos. assert (PM : 0 <= M) by apply Rabs_pos. assert (PW : 0 <= W) by apply Rabs_pos.
  assert (MW : Rabs (fval ml - w) <= M + W) by apply abs_sub.
  pose proof (near_abs _ _ _ Eo) as NO. assert (ND : Rabs (fval raw - fval off) <= X + Rabs (fval off)) by apply abs_sub.
  assert (B : Rabs (fval raw - fval off) <= bpow radix2 93). { change 93%Z with (90 + 1 + 1 + 1)%Z. rewrite !pow_step. lra. }
  destruct (fsub_b raw off Fr Fo (le_127 93 _ ltac:(lia) B)) as [Fg Vg]. pose proof (any (fval raw - fval off)) as A. rewrite <- Vg in A. set (g := fsub raw off) in *. set (G := fval raw - (fval ml - w)) in *.
  assert (EG : Rabs (fval g - G) <= u * (66 / 10 * W + 21 / 10 * M + 11 / 10 * X) + 32 / 10 * feta).
  { replace (fval g - G) with ((fval g - (fval raw - fval off)) + - (fval off - (fval ml - w))) by (unfold G; ring). apply Rle_trans with (1 := Rabs_triang _ _). rewrite Rabs_Ropp. lra. }
  assert (NG : Rabs G <= X + M + W). { apply Rle_trans with (1 := abs_sub _ _). fold X. lra. }
  pose proof (near_abs _ _ _ EG) as NG2. set (d1 := u * (66 / 10 * W + 21 / 10 * M + 11 / 10 * X) + 32 / 10 * feta) in *. assert (D1 : 0 <= d1) by (unfold d1; lra).
  assert (EP1 : Rabs (fval g * fval slp - G * S) <= d1 * (101 / 100 * s) + (X + M + W) * (32 / 10 * u * s)).
  { replace (fval g * fval slp - G * S) with ((fval g - G) * fval slp + G * (fval slp - S)) by ring. apply Rle_trans with (1 := Rabs_triang _ _). rewrite !Rabs_mult. apply Rplus_le_compat; apply Rmult_le_compat; auto using Rabs_pos. }
  assert (MG : Rabs (fval g * fval slp) <= (X + M + W + d1) * (101 / 100 * s)). { rewrite Rabs_mult. apply Rmult_le_compat; auto using Rabs_pos. lra. }
  assert (B2 : Rabs (fval g * fval slp) <= bpow radix2 127). { apply (le_127 125); [lia|]. rewrite Rabs_mult. apply Rle_trans with (bpow radix2 94 * bpow radix2 31); [|rewrite <- bpow_plus; apply bpow_le; lia]. apply Rmult_le_compat; auto using Rabs_pos.
    - change 94%Z with (90 + 1 + 1 + 1 + 1)%Z. rewrite !pow_step. unfold d1 in NG2. lra.
    - change 31%Z with (30 + 1)%Z. rewrite pow_step. lra. }
  destruct (fmul_b g slp Fg Fs B2) as [F V]. split; [exact F|]. rewrite V. pose proof (any (fval g * fval slp)) as AR.
  replace (RN (fval g * fval slp) - G * S) with ((RN (fval g * fval slp) - fval g * fval slp) + (fval g * fval slp - G * S)) by ring. apply Rle_trans with (1 := Rabs_triang _ _). rewrite TLW.
  assert (SE : s * feta <= bpow radix2 30 * feta) by (apply Rmult_le_compat_r; lra).
  assert (0 <= s * W) by (apply Rmult_le_pos; lra). assert (0 <= s * X) by (apply Rmult_le_pos; lra). assert (0 <= s * M) by (apply Rmult_le_pos; lra). assert (0 <= s * feta) by (apply Rmult_le_pos; lra).
  unfold d1 in *. lra.
Qed.
Lemma reverse_line v : finite_f32 v -> Rabs (fval v) <= bpow radix2 93 ->
  let r := reverse_calibrate fdiv fadd c v in finite_f32 r /\ Rabs (fval r - (fval ml + (fval v - fval tl) / S)) <= 7 * u * (Rabs (fval v / S) + Rabs (fval tl / S) + Rabs (fval ml)) + bpow radix2 (-100).
Proof.
  intros Fv Bv r. destruct (over_slope v Fv Bv) as [Fy Ey]. destruct off_b as [Fo Eo]. pose proof w_bound as WB. pose proof feta_pos as EP. pose proof eta1 as E1. pose proof s_pos as SP. pose proof S_ne as SN. pose proof tiny as TN. pose proof (pow_le 0 60 ltac:(lia)). pose proof (pow_le 60 90 ltac:(lia)). pose proof (pow_le 90 123 ltac:(lia)).
  assert (VS : Rabs (fval v / S) <= bpow radix2 123). { unfold Rdiv at 1. rewrite Rabs_mult, Rabs_inv. change 123%Z with (93 + 30)%Z. rewrite bpow_plus. apply Rmult_le_compat; [apply Rabs_pos|apply Rlt_le, Rinv_0_lt_compat; exact SP|exact Bv|]. change (bpow radix2 30) with (bpow radix2 (- -30)). rewrite bpow_opp. apply Rinv_le_contravar; [apply bpow_gt_0|apply HS]. }
  replace (fval ml + (fval v - fval tl) / S) with (fval v / S + (fval ml - w)) by (unfold Rdiv; ring).
  unfold r, reverse_calibrate. set (off := cal_offset c) in *. set (y := fdiv v (cal_slope c)) in *. set (Y := Rabs (fval v / S)) in *. set (M := Rabs (fval ml)) in *. set (W := Rabs w) in *.
  assert (PY : 0 <= Y) by apply Rabs_pos. assert (PM : 0 <= M) by apply Rabs_pos. assert (PW : 0 <= W) by apply Rabs_pos.
  assert (MW : Rabs (fval ml - w) <= M + W) by apply abs_sub.
  pose proof (near_abs _ _ _ Eo) as NO. pose proof (near_abs _ _ _ Ey) as NY. pose proof (Rabs_triang (fval y) (fval off)) as ND. fold Y in NY.
  assert (B : Rabs (fval y + fval off) <= bpow radix2 126). { change 126%Z with (123 + 1 + 1 + 1)%Z. rewrite !pow_step. lra. }
  destruct (fadd_b y off Fy Fo (le_127 126 _ ltac:(lia) B)) as [F V]. split; [exact F|]. rewrite V. pose proof (any (fval y + fval off)) as A.
  replace (RN (fval y + fval off) - (fval v / S + (fval ml - w))) with ((RN (fval y + fval off) - (fval y + fval off)) + ((fval y - fval v / S) + (fval off - (fval ml - w)))) by ring.
  apply Rle_trans with (1 := Rabs_triang _ _). apply Rle_trans with (1 := Rplus_le_compat_l _ _ _ (Rabs_triang _ _)). pose proof (Rmult_le_compat_r feta _ _ (Rlt_le _ _ EP) (pow_le 0 30 ltac:(lia))) as Q. change (bpow radix2 0) with 1 in Q. lra.
Qed.
Lemma round_trip raw : finite_f32 raw -> Rabs (fval raw) <= bpow radix2 60 ->
  let r := reverse_calibrate fdiv fadd c (adjust fsub fmul c raw) in finite_f32 r /\ Rabs (fval r - fval raw) <= 27 * u * (Rabs (fval raw) + Rabs (fval ml) + Rabs (fval tl / S)) + bpow radix2 (-60).
Proof.
  intros Fr Br r. destruct (adjust_line raw Fr Br) as [Fv Ev]. cbn zeta in *. pose proof s_pos as SP. pose proof S_ne as SN. set (v := adjust fsub fmul c raw) in *. set (I := fval tl + (fval raw - fval ml) * S) in *.
  set (X := Rabs (fval raw)) in *. set (M := Rabs (fval ml)) in *. assert (PX : 0 <= X) by apply Rabs_pos. assert (PM : 0 <= M) by apply Rabs_pos.
  assert (IS : I / S = w + (fval raw - fval ml)) by (apply line_over; exact SN). assert (PW : 0 <= Rabs w) by apply Rabs_pos.
  assert (TLW : Rabs (fval tl) = Rabs S * Rabs w) by (rewrite <- Rabs_mult; f_equal; symmetry; apply mul_back; exact SN).
  assert (NI : Rabs (I / S) <= Rabs w + X + M). { rewrite IS. apply Rle_trans with (1 := Rabs_triang _ _). pose proof (abs_sub (fval raw) (fval ml)) as T. fold X M in T. lra. }
  assert (IB : Rabs I <= Rabs S * (Rabs w + X + M)). { rewrite <- (mul_back I S SN). rewrite Rabs_mult. apply Rmult_le_compat_l; lra. }
  pose proof (pow_le (-100) 0 ltac:(lia)). pose proof (pow_le 0 60 ltac:(lia)). pose proof (pow_le 60 90 ltac:(lia)). pose proof (near_abs _ _ _ Ev) as NV. pose proof w_bound as WB.
  assert (BV : Rabs (fval v) <= bpow radix2 93).
  { assert (S1 : Rabs S * (X + M) <= bpow radix2 30 * (2 * bpow radix2 60)) by (apply Rmult_le_compat; try lra). assert (S2 : bpow radix2 30 * bpow radix2 60 = bpow radix2 90) by (rewrite <- bpow_plus; reflexivity). change 93%Z with (90 + 1 + 1 + 1)%Z. rewrite !pow_step. rewrite <- S2 in *. rewrite TLW in *. lra. }
  destruct (reverse_line v Fv BV) as [F E]. cbn zeta in *. fold M in E. split; [exact F|].
  assert (DV : Rabs (fval v / S - I / S) <= 12 * u * (X + M + Rabs w) + bpow radix2 (-70)).
  { replace (fval v / S - I / S) with ((fval v - I) / S) by (unfold Rdiv; ring). unfold Rdiv at 1. rewrite Rabs_mult, Rabs_inv. apply Rmult_le_reg_r with (Rabs S); [exact SP|]. rewrite Rmult_assoc, Rinv_l, Rmult_1_r by lra. rewrite TLW in Ev.
    assert (bpow radix2 (-100) <= bpow radix2 (-70) * Rabs S). { change (-100)%Z with (-70 + -30)%Z. rewrite bpow_plus. apply Rmult_le_compat_l; [apply bpow_ge_0|apply HS]. } lra. }
  pose proof (near_abs _ _ _ DV) as NVS. 
  unfold r. replace (fval (reverse_calibrate fdiv fadd c v) - fval raw) with ((fval (reverse_calibrate fdiv fadd c v) - (fval ml + (fval v - fval tl) / S)) + (fval v / S - I / S)) by (rewrite IS; unfold Rdiv; ring).
  apply Rle_trans with (1 := Rabs_triang _ _). pose proof (pow_le (-100) (-70) ltac:(lia)). assert (4 * bpow radix2 (-70) <= bpow radix2 (-60)). { apply Rle_trans with (bpow radix2 (-68)); [|apply bpow_le; lia]. change (-68)%Z with (-70 + 1 + 1)%Z. rewrite !pow_step. lra. }
  pose proof (bpow_ge_0 radix2 (-70)). lra.
Qed.
End Cal.
