(* pow2 and setPitchMultiple. *)
From Coq Require Import Reals Lra Lia ZArith List Floats.SpecFloat.
From Flocq Require Import Core.
From Verif.Common Require Import Base Lemmas Lists F32 F32Order F32Real F32Arith.
From Verif.Model Require Import MathFloat Table MathTables MathLookup Audio.
From Verif.Proofs Require Import ExpLn MathFloat TableF MathTables SinTable ExpTable.
From Verif.Proofs Require Audio.
Import ListNotations.
Open Scope R_scope.

Lemma Rpower2 y : Rpower 2 y = exp (y * ln 2). Proof. reflexivity. Qed.
Lemma Rpower2_pos y : 0 < Rpower 2 y. Proof. apply exp_pos. Qed.
Lemma exp5_pow ph : finite_f32 ph -> 0 <= fval ph <= 1 ->
  exists r, Finterp exp5Table ph = Ok r /\ finite_f32 r /\ 1 <= fval r <= 32 /\ Rabs (fval r - Rpower 2 (5 * fval ph)) <= 15 / 10 ^ 7 * Rpower 2 (5 * fval ph).
Proof. exact (exp5_interp ph). Qed.
Lemma interp_negative_ub (data : list f32) ph : (2 <= zlen data <= 2 ^ 24)%Z -> finite_f32 ph -> fval ph * IZR (zlen data - 1) <= -1 -> Finterp data ph = UB BadCast.
Proof.
  intros HS [Vp Fp] HB. destruct (int_b (zlen data - 1) ltac:(lia)) as [[V1 F1] E1]. unfold Finterp, interp, interp_by_index.
  assert (EC : f32_to_uint 32 (fmul ph (f32_of_int (zlen data - 1))) = UB BadCast); [|rewrite EC; reflexivity].
  pose proof (fmul_rounds ph _ Vp V1 Fp F1) as HR. rewrite E1 in HR. unfold f32_to_uint. destruct HR as [(_ & EV & FV)|(_ & E)]; [|rewrite E; reflexivity].
  rewrite trunc_val by exact FV. rewrite EV. assert (HM : RN (fval ph * IZR (zlen data - 1)) <= -1). { pose proof (RN_le _ _ HB) as H. rewrite (RN_id (-1)) in H by (apply (in_int (-1)); lia). exact H. }
  rewrite Ztrunc_ceil by lra. assert (Zceil (RN (fval ph * IZR (zlen data - 1))) <= -1)%Z by (apply Zceil_glb; exact HM).
  destruct (Z.leb_spec 0 (Zceil (RN (fval ph * IZR (zlen data - 1))))); [lia|]. reflexivity.
Qed.
Lemma interp_nan_ub (data : list f32) : (2 <= zlen data <= 2 ^ 24)%Z -> Finterp data S754_nan = UB BadCast.
Proof. reflexivity. Qed.

(** setPitchMultiple *)
Lemma neg_b v : finite_f32 v -> finite_f32 (fmul v (f32_of_int (-1))) /\ fval (fmul v (f32_of_int (-1))) = - fval v.
Proof.
  intros Hv. destruct (int_b (-1) ltac:(lia)) as [FI EI]. pose proof (fval_in v (proj1 Hv)) as IN. assert (IO : in_f32 (fval v * -1)) by (replace (fval v * -1) with (- fval v) by ring; apply generic_format_opp; exact IN).
  destruct (fmul_val v (f32_of_int (-1)) (proj1 Hv) (proj1 FI) (proj2 Hv) (proj2 FI)) as [E F]; rewrite EI, RN_id in * by exact IO; [replace (fval v * -1) with (- fval v) by ring; rewrite Rabs_Ropp; apply fval_bound; apply Hv|].
  split; [split; [apply fmul_valid; [apply Hv|apply FI]|exact F]|]. rewrite E. ring.
Qed.
Lemma zero_one_b : finite_f32 f32_zero /\ fval f32_zero = 0 /\ finite_f32 f32_one /\ fval f32_one = 1.
Proof. destruct zero_b, one_b. auto. Qed.
Lemma clamp01 v : finite_f32 v -> finite_f32 (constrain_f v f32_zero f32_one) /\ fval (constrain_f v f32_zero f32_one) = Rmax 0 (Rmin 1 (fval v)).
Proof.
  intros Hv. destruct zero_one_b as (FZ & EZ & FO & EO). unfold constrain_f.
  destruct (SFltb v f32_zero) eqn:C1.
  - apply fltb_val in C1; try apply Hv; try apply FZ. rewrite EZ in C1. split; [exact FZ|]. rewrite EZ, Rmin_right, Rmax_left by lra. reflexivity.
  - assert (0 <= fval v). { apply Rnot_lt_le. intros H. apply Bool.not_true_iff_false in C1. apply C1. apply fltb_val; try apply Hv; try apply FZ. rewrite EZ. exact H. }
    destruct (SFltb f32_one v) eqn:C2.
    + apply fltb_val in C2; try apply Hv; try apply FO. rewrite EO in C2. split; [exact FO|]. rewrite EO, Rmin_left, Rmax_right by lra. reflexivity.
    + assert (fval v <= 1). { apply Rnot_lt_le. intros H1. apply Bool.not_true_iff_false in C2. apply C2. apply fltb_val; try apply Hv; try apply FO. rewrite EO. exact H1. }
      split; [exact Hv|]. rewrite Rmin_right, Rmax_right by lra. reflexivity.
Qed.
Lemma pitch_multiple v : finite_f32 v -> let target := Rpower 2 (5 * Rmax (-1) (Rmin 1 (fval v))) in
  exists r, setPitchMultiple v = Ok r /\ finite_f32 r /\ / 32 <= fval r <= 32 /\ (0 <= fval v -> 1 <= fval r) /\ (fval v <= 0 -> fval v < 0 -> fval r <= 1) /\ Rabs (fval r - target) <= 16 / 10 ^ 7 * target.
Proof.
  intros Hv target. destruct zero_one_b as (FZ & EZ & FO & EO). unfold setPitchMultiple. destruct (SFleb f32_zero v) eqn:C.
  - apply fleb_val in C; try apply Hv; try apply FZ. rewrite EZ in C. destruct (clamp01 v Hv) as [FC EC]. set (c := constrain_f v f32_zero f32_one) in *.
    assert (RC : 0 <= fval c <= 1) by (rewrite EC; split; [apply Rmax_l|apply Rmax_lub; [lra|apply Rmin_l]]).
    destruct (exp5_pow c FC RC) as (r & E & FR & BR & AR). exists r. split; [exact E|]. split; [exact FR|]. split; [lra|]. split; [lra|]. split; [lra|].
    assert (ET : target = Rpower 2 (5 * fval c)). { unfold target. do 2 f_equal. rewrite EC. unfold Rmax, Rmin. repeat destruct (Rle_dec _ _); lra. } rewrite ET. pose proof (Rpower2_pos (5 * fval c)). lra.
  - assert (H : fval v < 0). { apply Rnot_le_lt. intros H. apply Bool.not_true_iff_false in C. apply C. apply fleb_val; try apply Hv; try apply FZ. rewrite EZ. exact H. }
    destruct (neg_b v Hv) as [FN EN]. destruct (clamp01 _ FN) as [FC EC]. rewrite EN in EC. set (c := constrain_f (fmul v (f32_of_int (-1))) f32_zero f32_one) in *.
    assert (RC : 0 <= fval c <= 1) by (rewrite EC; split; [apply Rmax_l|apply Rmax_lub; [lra|apply Rmin_l]]).
    destruct (exp5_pow c FC RC) as (d & E & FD & BD & AD). rewrite E. cbn [bind]. exists (fdiv f32_one d). split; [reflexivity|].
    assert (I1 : / 32 <= / fval d <= 1) by (split; [apply Rinv_le; lra|rewrite <- Rinv_1; apply Rinv_le; lra]).
    destruct (fdiv_b f32_one d FO FD) as [FQ EQ]; [lra|rewrite EO; apply (small_le_127 0); [lia|]; change (IZR (2 ^ 0)) with 1; unfold Rdiv; rewrite Rmult_1_l; apply Rabs_le; lra|]. rewrite EO in EQ. unfold Rdiv in EQ. rewrite Rmult_1_l in EQ.
    assert (I2 : / 32 <= fval (fdiv f32_one d) <= 1). { rewrite EQ. split; [|rewrite <- (RN_id 1) by (apply (in_int 1); lia); apply RN_le; lra]. replace (/ 32) with (bpow radix2 (-5)) in * by reflexivity. rewrite <- (RN_id (bpow radix2 (-5))) by (apply in_pow; lia). apply RN_le. lra. }
    split; [exact FQ|]. split; [lra|]. split; [lra|]. split; [lra|].
    assert (ET : target = / Rpower 2 (5 * fval c)). { unfold target. rewrite <- Rpower_Ropp. f_equal. rewrite EC. unfold Rmax, Rmin. repeat destruct (Rle_dec _ _); lra. } rewrite ET, EQ.
    set (V := Rpower 2 (5 * fval c)) in *. assert (VP : 0 < V) by apply Rpower2_pos. set (D := fval d) in *. apply Rabs_le_inv in AD.
    assert (RR : Rabs (RN (/ D) - / D) <= / 16777216 * / D). { pose proof (RN_rel (/ D)) as R. rewrite (Rabs_right (/ D)) in R by lra. apply R. apply Rle_trans with (/ 32); [|lra]. change (/ 32) with (bpow radix2 (-5)). apply bpow_le. lia. }
    assert (DV : Rabs (/ D - / V) <= 1501 / 10 ^ 9 * / V).
    { replace (/ D - / V) with ((V - D) * / D * / V) by (field; lra). rewrite !Rabs_mult, (Rabs_right (/ V)) by (left; apply Rinv_0_lt_compat; lra). apply Rmult_le_compat_r; [left; apply Rinv_0_lt_compat; lra|]. rewrite (Rabs_right (/ D)) by lra.
      apply Rmult_le_reg_r with D; [lra|]. rewrite Rmult_assoc, Rinv_l by lra. rewrite Rmult_1_r. apply Rabs_le. lra. }
    apply Rabs_le_inv in RR, DV. assert (0 < / V) by (apply Rinv_0_lt_compat; lra). apply Rabs_le. lra.
Qed.
Lemma pitch_infinite : setPitchMultiple (S754_infinity false) = Ok (f32_of_int 32) /\ setPitchMultiple (S754_infinity true) = Ok (f32_of 1 (-5)) /\ setPitchMultiple S754_nan = UB BadCast.
Proof. repeat split; vm_compute; reflexivity. Qed.

(** pow2 *)
Lemma five_b : finite_f32 (f32_of_int 5) /\ fval (f32_of_int 5) = 5. Proof. apply (int_b 5). lia. Qed.
Lemma b32 : finite_f32 (f32_of_int 32) /\ fval (f32_of_int 32) = bpow radix2 5. Proof. change (bpow radix2 5) with (IZR 32). apply (int_b 32). lia. Qed.
Lemma sub_one x : finite_f32 x -> 1 <= fval x <= bpow radix2 24 -> finite_f32 (fsub x f32_one) /\ fval (fsub x f32_one) = fval x - 1.
Proof.
  intros Hx Hr. destruct one_b as [FO EO]. assert (IN : in_f32 (fval x - 1)).
  { destruct (Rle_lt_dec (fval x) 2) as [L|L].
    - change in_f32 with (generic_format radix2 (FLT_exp (-149) 24)). apply Sterbenz.sterbenz; try apply _; [apply fval_in, Hx|change in_f32 with (generic_format radix2 (FLT_exp (-149) 24)); apply (in_int 1); lia|lra].
    - (* x - 1 is a multiple of the spacing at x and not larger than x *)
      pose proof (fval_in x (proj1 Hx)) as HF. change in_f32 with (generic_format radix2 (FLT_exp (-149) 24)) in *. unfold generic_format in HF. set (e := cexp radix2 (FLT_exp (-149) 24) (fval x)) in *. set (m := Ztrunc _) in HF.
      assert (HM : (1 < mag radix2 (fval x) <= 25)%Z). { split; [apply mag_gt_bpow; rewrite Rabs_right by lra; change (bpow radix2 1) with 2; lra|]. apply mag_le_bpow; [lra|]. rewrite Rabs_right by lra. apply Rle_lt_trans with (1 := proj2 Hr). apply bpow_lt. lia. }
      assert (HE : (e = mag radix2 (fval x) - 24 /\ e <= 1)%Z) by (unfold e, cexp, FLT_exp; lia). 
      destruct (Z.eq_dec e 1) as [E1|E1].
      + assert (fval x = bpow radix2 24). { apply Rle_antisym; [lra|]. pose proof (bpow_mag_le radix2 (fval x) ltac:(lra)) as Hq. rewrite Rabs_right in Hq by lra. replace (mag radix2 (fval x) - 1)%Z with 24%Z in Hq by lia. lra. }
        rewrite H. change (bpow radix2 24) with (IZR (2 ^ 24)). rewrite <- minus_IZR. apply (in_int (2 ^ 24 - 1)). lia.
      + assert (EO' : 1 = IZR (2 ^ (- e)) * bpow radix2 e). { change 2%Z with (radix_val radix2). rewrite IZR_Zpower by lia. rewrite <- bpow_plus. replace (- e + e)%Z with 0%Z by lia. reflexivity. }
        apply generic_format_FLT. exists (Float radix2 (m - 2 ^ (- e)) e); cbn [Fnum Fexp].
        * rewrite HF at 1. unfold F2R. cbn [Fnum Fexp]. rewrite EO' at 1. rewrite minus_IZR. ring.
        * assert (HB : Rabs (IZR m) < bpow radix2 24). { apply Rmult_lt_reg_r with (bpow radix2 e); [apply bpow_gt_0|]. rewrite <- bpow_plus. rewrite <- (Rabs_right (bpow radix2 e)) at 1 by (apply Rle_ge, bpow_ge_0). rewrite <- Rabs_mult. unfold F2R in HF. cbn [Fnum Fexp] in HF. rewrite <- HF. replace (24 + e)%Z with (mag radix2 (fval x) : Z) by lia. apply bpow_mag_gt. }
          rewrite <- abs_IZR in HB. change (bpow radix2 24) with (IZR (2 ^ 24)) in HB. apply lt_IZR in HB. assert (M0 : (2 ^ (- e) <= m)%Z). { apply le_IZR. apply Rmult_le_reg_r with (bpow radix2 e); [apply bpow_gt_0|]. rewrite <- EO'. unfold F2R in HF. cbn [Fnum Fexp] in HF. rewrite <- HF. lra. }
          change (Zpower radix2 24) with (2 ^ 24)%Z. pose proof (Z.pow_nonneg 2 (- e) ltac:(lia)). lia.
        * lia. }
  destruct (fsub_b x f32_one Hx FO) as [FS ES]; [rewrite EO; apply (le_127 24); [lia|]; apply Rabs_le; lra|]. rewrite EO, RN_id in ES by exact IN. auto.
Qed.
Lemma lt_one x : finite_f32 x -> SFltb x f32_one = true <-> fval x < 1.
Proof. intros Hx. destruct one_b as [FO EO]. rewrite fltb_val by (try apply Hx; try apply FO). rewrite EO. tauto. Qed.
Lemma Rpower2_shift y : Rpower 2 (5 * y) = bpow radix2 5 * Rpower 2 (5 * (y - 1)).
Proof.
  replace (5 * y) with (5 + 5 * (y - 1)) by ring. rewrite Rpower_plus. f_equal. replace 5 with (INR 5) by (cbn; ring). rewrite Rpower_pow by lra. cbn. lra.
Qed.
Lemma pow2_loop_ok n : forall fuel x res j, (n <= fuel)%nat -> finite_f32 x -> IZR (Z.of_nat n) <= fval x < IZR (Z.of_nat n) + 1 -> (0 <= j)%Z -> finite_f32 res -> fval res = bpow radix2 (5 * j) -> 5 * (IZR j + fval x) <= 12701 / 100 ->
  exists r, pow2_loop fuel x res = Ok r /\ finite_f32 r /\ Rabs (fval r - bpow radix2 (5 * j) * Rpower 2 (5 * fval x)) <= 15 / 10 ^ 7 * (bpow radix2 (5 * j) * Rpower 2 (5 * fval x)).
Proof.
  induction n as [|n IH]; intros fuel x res j Hf Hx Hr Hj Fres Eres HB.
  - change (IZR (Z.of_nat 0)) with 0 in Hr. destruct (exp5_pow x Hx ltac:(lra)) as (d & E & FD & BD & AD). assert (L : SFltb x f32_one = true) by (apply lt_one; [exact Hx|lra]).
    assert (EL : pow2_loop fuel x res = Ok (fmul res d)) by (destruct fuel; cbn [pow2_loop]; rewrite L, E; reflexivity). exists (fmul res d). split; [exact EL|].
    set (b := bpow radix2 (5 * j)) in *. assert (B0 : 0 < b) by apply bpow_gt_0. set (V := Rpower 2 (5 * fval x)) in *. assert (V0 : 0 < V) by apply Rpower2_pos.
    assert (IN : in_f32 (b * fval d)) by (rewrite Rmult_comm; apply scale_in; [apply fval_in, FD|lia]).
    assert (BV : b * V <= bpow radix2 127 * (102 / 100)).
    { unfold b, V. replace (bpow radix2 (5 * j)) with (Rpower 2 (5 * IZR j)). 2: { replace (5 * IZR j) with (IZR (5 * j)) by (rewrite mult_IZR; reflexivity). rewrite <- (Z2Nat.id (5 * j)) by lia. rewrite <- INR_IZR_INZ. rewrite Rpower_pow by lra. rewrite bpow_powerRZ. rewrite <- INR_IZR_INZ || idtac. cbn [radix_val radix2]. rewrite <- pow_powerRZ. reflexivity. }
      rewrite <- Rpower_plus. apply Rle_trans with (Rpower 2 (127 + 1 / 100)); [apply Rle_Rpower; lra|]. rewrite Rpower_plus. replace (bpow radix2 127) with (Rpower 2 127). 2: { replace 127 with (INR 127) by (rewrite INR_IZR_INZ; reflexivity). rewrite Rpower_pow by lra. rewrite bpow_powerRZ. cbn [radix_val radix2]. change 127%Z with (Z.of_nat 127). rewrite <- pow_powerRZ. reflexivity. }
      apply Rmult_le_compat_l; [left; apply Rpower2_pos|]. unfold Rpower. pose proof ln2_bounds. pose proof (exp_t2 (1 / 100 * ln 2) ltac:(lra)) as G. assert ((1 / 100 * ln 2) ^ 2 <= (7 / 1000) ^ 2) by (apply pow_incr; lra). lra. }
    apply Rabs_le_inv in AD. assert (BD2 : b * fval d <= b * V * (1 + 15 / 10 ^ 7)) by (rewrite Rmult_assoc; apply Rmult_le_compat_l; lra).
    assert (SMALL : Rabs (b * fval d) < fmax). { rewrite Rabs_right by (apply Rle_ge, Rmult_le_pos; lra). unfold fmax. change 128%Z with (127 + 1)%Z. rewrite pow_step. pose proof (bpow_gt_0 radix2 127). nra. }
    destruct (fmul_val res d (proj1 Fres) (proj1 FD) (proj2 Fres) (proj2 FD)) as [EV FV]; rewrite Eres in *; rewrite RN_id in * by exact IN; [exact SMALL|]. split; [split; [apply fmul_valid; [apply Fres|apply FD]|exact FV]|]. rewrite EV.
    replace (b * fval d - b * V) with (b * (fval d - V)) by ring. rewrite Rabs_mult, (Rabs_right b) by lra. replace (15 / 10 ^ 7 * (b * V)) with (b * (15 / 10 ^ 7 * V)) by ring. apply Rmult_le_compat_l; [lra|]. apply Rabs_le. lra.
  - destruct fuel as [|fuel]; [lia|]. rewrite Nat2Z.inj_succ, succ_IZR in Hr. assert (N0 : 0 <= IZR (Z.of_nat n)) by (apply IZR_le; lia).
    assert (L : SFltb x f32_one = false). { apply Bool.not_true_iff_false. rewrite lt_one by exact Hx. lra. } cbn [pow2_loop]. rewrite L.
    assert (J0 : 0 <= IZR j) by (apply IZR_le; lia). assert (HBx : fval x <= bpow radix2 24) by (change (bpow radix2 24) with 16777216; lra). destruct (sub_one x Hx ltac:(lra)) as [FS ES]. destruct b32 as [F32 E32].
    assert (IN : fval res * bpow radix2 5 = bpow radix2 (5 * (j + 1))) by (rewrite Eres, <- bpow_plus; f_equal; lia).
    assert (JB : (5 * (j + 1) <= 127)%Z). { apply le_IZR. rewrite mult_IZR, plus_IZR. assert (H : 5 * (IZR j + 1) < 128) by lra. replace (5 * (IZR j + 1)) with (IZR (5 * (j + 1))) in H by (rewrite mult_IZR, plus_IZR; reflexivity). apply lt_IZR in H. rewrite <- plus_IZR, <- mult_IZR. apply IZR_le. lia. }
    destruct (fmul_b res (f32_of_int 32) Fres F32) as [FM EM]; [rewrite E32, IN; apply (le_127 (5 * (j + 1))); [lia|]; rewrite Rabs_right; [lra|apply Rle_ge, bpow_ge_0]|]. rewrite E32, IN, RN_id in EM by (apply in_pow; lia).
    destruct (IH fuel (fsub x f32_one) (fmul res (f32_of_int 32)) (j + 1)%Z ltac:(lia) FS ltac:(rewrite ES; lra) ltac:(lia) FM EM ltac:(rewrite ES, plus_IZR; lra)) as (r & E & FR & AR).
    exists r. split; [exact E|]. split; [exact FR|]. rewrite ES in AR. assert (ET : bpow radix2 (5 * (j + 1)) * Rpower 2 (5 * (fval x - 1)) = bpow radix2 (5 * j) * Rpower 2 (5 * fval x)). { rewrite (Rpower2_shift (fval x)). replace (5 * (j + 1))%Z with (5 * j + 5)%Z by lia. rewrite bpow_plus. ring. }
    rewrite ET in AR. exact AR.
Qed.
Lemma pow2_correct fuel x : finite_f32 x -> 0 <= fval x <= 127 -> fval x <= 5 * IZR (Z.of_nat fuel) ->
  exists r, pow2 fuel x = Ok r /\ finite_f32 r /\ Rabs (fval r - Rpower 2 (fval x)) <= (16 / 10 ^ 7 + 5 / 10 ^ 8 * fval x) * Rpower 2 (fval x).
Proof.
  intros Hx Hr Hf. destruct five_b as [F5 E5]. unfold pow2. set (X := fval x) in *.
  destruct (fdiv_b x (f32_of_int 5) Hx F5) as [FD ED]; [rewrite E5; lra|rewrite E5; apply (small_le_127 7); [lia|]; change (IZR (2 ^ 7)) with 128; fold X; apply Rabs_le; lra|]. rewrite E5 in ED. fold X in ED. set (y := fdiv x (f32_of_int 5)) in *.
  pose proof (RN_err_mixed (X / 5)) as RE. rewrite (Rabs_right (X / 5)) in RE by lra. rewrite <- ED in RE. change (bpow radix2 (-24)) with (/ 16777216) in RE. pose proof tiny150 as TT. pose proof (Rabs_le_inv _ _ RE) as RE'.
  assert (Y0 : 0 <= fval y) by (rewrite ED, <- RN_0; apply RN_le; lra). assert (YB : 5 * fval y <= 12701 / 100) by lra.
  set (n := Ztrunc (fval y)). assert (HN : IZR n <= fval y < IZR n + 1) by (unfold n; rewrite Ztrunc_floor by lra; split; [apply Zfloor_lb|apply Zfloor_ub]). assert (N0 : (0 <= n)%Z) by (unfold n; rewrite Ztrunc_floor by lra; apply Zfloor_lub; exact Y0).
  assert (NF : (n <= Z.of_nat fuel)%Z). { destruct (Z_le_gt_dec n (Z.of_nat fuel)) as [|G]; [assumption|exfalso]. assert (HG : IZR (Z.of_nat fuel + 1) <= IZR n) by (apply IZR_le; lia). rewrite plus_IZR in HG.
    assert (fval y <= IZR (Z.of_nat fuel)); [|lra]. rewrite ED. assert (FB : (Z.of_nat fuel < 2 ^ 24)%Z). { apply lt_IZR. change (IZR (2 ^ 24)) with 16777216. lra. } rewrite <- (RN_id (IZR (Z.of_nat fuel))) by (apply in_int; lia). apply RN_le. lra. }
  destruct one_b as [FO EO]. destruct (pow2_loop_ok (Z.to_nat n) fuel y f32_one 0 ltac:(lia) FD ltac:(rewrite Z2Nat.id by exact N0; exact HN) ltac:(lia) FO EO ltac:(lra)) as (r & E & FR & AR).
  exists r. split; [exact E|]. split; [exact FR|]. change (bpow radix2 (5 * 0)) with 1 in AR. rewrite !Rmult_1_l in AR. pose proof ln2_bounds as LB. set (u := (5 * fval y - X) * ln 2).
  assert (HU : Rabs u <= 42 / 10 ^ 9 * X + 1 / 10 ^ 20). { unfold u. rewrite Rabs_mult, (Rabs_right (ln 2)) by lra. replace (5 * fval y - X) with (5 * (fval y - X / 5)) by field. rewrite Rabs_mult, (Rabs_right 5) by lra. nra. }
  assert (EV : Rpower 2 (5 * fval y) = Rpower 2 X * exp u) by (unfold Rpower, u; rewrite <- exp_plus; f_equal; ring). rewrite EV in AR. set (V := Rpower 2 X) in *. assert (V0 : 0 < V) by apply Rpower2_pos.
  assert (EU : Rabs (exp u - 1) <= 43 / 10 ^ 9 * X + 2 / 10 ^ 20).
  { pose proof (Rabs_le_inv _ _ HU) as HU'. destruct (Rle_lt_dec 0 u) as [U0|U0].
    - pose proof (exp_t2 u ltac:(lra)) as G. assert (u ^ 2 <= (6 / 10 ^ 6) * u). { replace (u ^ 2) with (u * u) by ring. apply Rmult_le_compat_r; lra. } apply Rabs_le. lra.
    - assert (G1 : exp u < 1) by (rewrite <- exp_0; apply exp_increasing; exact U0). pose proof (exp_ineq1_le u) as G. apply Rabs_le. lra. }
  apply Rabs_le_inv in EU, AR. set (w := exp u) in *. assert (VW : V * w <= V * (1 + (43 / 10 ^ 9 * X + 2 / 10 ^ 20))) by (apply Rmult_le_compat_l; lra). assert (VW2 : V * (1 - (43 / 10 ^ 9 * X + 2 / 10 ^ 20)) <= V * w) by (apply Rmult_le_compat_l; lra).
  assert (VX : 0 <= V * X) by (apply Rmult_le_pos; lra). assert (VX2 : V * X <= V * 127) by (apply Rmult_le_compat_l; lra). apply Rabs_le. lra.
Qed.
Lemma pow2_negative_ub fuel x : finite_f32 x -> fval x <= - (2443 / 10 ^ 6) -> pow2 fuel x = UB BadCast.
Proof.
  intros Hx H. destruct five_b as [F5 E5]. unfold pow2. 
  assert (LT : forall y, ffinite y = true -> valid_f32 y -> fval y <= - (1 / 2047) -> pow2_loop fuel y f32_one = UB BadCast).
  { intros y Fy Vy Hy. assert (L : SFltb y f32_one = true) by (apply lt_one; [split; assumption|lra]). assert (EI : Finterp exp5Table y = UB BadCast) by (apply interp_negative_ub; [rewrite exp5_len; lia|split; assumption|rewrite exp5_len; change (IZR (2048 - 1)) with 2047; lra]). destruct fuel; cbn [pow2_loop]; rewrite L, EI; reflexivity. }
  destruct (fdiv_rounds x (f32_of_int 5) (proj1 Hx) (proj1 F5) (proj2 Hx)) as [(_ & E & F)|(_ & E)]; [rewrite E5; lra| |]; rewrite E5 in E.
  - apply LT; [exact F|apply fdiv_valid; [apply Hx|apply F5]|]. rewrite E. pose proof (RN_le (fval x / 5) (IZR (-8197) * bpow radix2 (- 24))) as R. change (bpow radix2 (- 24)) with (/ 16777216) in R. rewrite (RN_id (IZR (-8197) * / 16777216)) in R by (apply (in_grid (-8197) 24); lia). 
    assert (fval x / 5 <= IZR (-8197) * / 16777216 -> RN (fval x / 5) <= IZR (-8197) * / 16777216) by exact R. destruct (Rle_lt_dec (fval x / 5) (IZR (-8197) * / 16777216)) as [L|L]; [|lra]. specialize (R L). lra.
  - rewrite Rlt_bool_true in E by lra. rewrite E. assert (EI : Finterp exp5Table (S754_infinity true) = UB BadCast) by (vm_compute; reflexivity). destruct fuel; cbn [pow2_loop]; change (SFltb (S754_infinity true) f32_one) with true; cbv iota; rewrite EI; reflexivity.
Qed.
(** the loop does not end *)
Lemma loop_inf fuel : forall res, pow2_loop fuel (S754_infinity false) res = OutOfFuel.
Proof. induction fuel as [|f IH]; intros res; [reflexivity|]. exact (IH (fmul res (f32_of_int 32))). Qed.
Lemma loop_nan fuel : forall res, pow2_loop fuel S754_nan res = OutOfFuel.
Proof. induction fuel as [|f IH]; intros res; [reflexivity|]. exact (IH (fmul res (f32_of_int 32))). Qed.
Lemma pow2_special fuel : pow2 fuel (S754_infinity false) = OutOfFuel /\ pow2 fuel S754_nan = OutOfFuel.
Proof. split; [apply (loop_inf fuel f32_one)|apply (loop_nan fuel f32_one)]. Qed.
