(* pow2 from 127 on: overflow, and where the loop no longer ends. *)
From Coq Require Import Reals Lra Lia ZArith List Floats.SpecFloat.
From Flocq Require Import Core.
From Verif.Common Require Import Base Lemmas Lists F32 F32Order F32Real F32Arith.
From Verif.Model Require Import MathFloat Table MathTables MathLookup Audio.
From Verif.Proofs Require Import ExpLn MathFloat TableF MathTables SinTable ExpTable Pow2.
Import ListNotations.
Open Scope R_scope.

Definition inf : f32 := S754_infinity false.
Lemma bpow_Rpower n : (0 <= n)%Z -> bpow radix2 n = Rpower 2 (IZR n).
Proof. intros H. rewrite <- (Z2Nat.id n) by exact H. rewrite <- INR_IZR_INZ, Rpower_pow by lra. rewrite bpow_powerRZ. cbn [radix_val radix2]. rewrite <- pow_powerRZ. reflexivity. Qed.
Lemma inf_times d : finite_f32 d -> 0 < fval d -> fmul inf d = inf.
Proof.
  intros [V F] H. destruct d as [s|s| |s m e]; try discriminate F.
  - unfold fval in H. cbn in H. lra.
  - destruct s; [|reflexivity]. exfalso. change (fval (S754_finite true m e)) with (F2R (Float radix2 (Zneg m) e)) in H. pose proof (F2R_lt_0 radix2 (Float radix2 (Zneg m) e) ltac:(reflexivity)). lra.
Qed.

Lemma big_loop_false x : finite_f32 x -> 1 <= fval x -> SFltb x f32_one = false.
Proof. intros Hx H. apply Bool.not_true_iff_false. rewrite lt_one by exact Hx. lra. Qed.
(* from an infinite product on *)
Lemma loop_inf_res n : forall fuel x, (n <= fuel)%nat -> finite_f32 x -> IZR (Z.of_nat n) <= fval x < IZR (Z.of_nat n) + 1 -> fval x <= bpow radix2 24 -> pow2_loop fuel x inf = Ok inf.
Proof.
  induction n as [|n IH]; intros fuel x Hf Hx Hr HB.
  - change (IZR (Z.of_nat 0)) with 0 in Hr. destruct (exp5_pow x Hx ltac:(lra)) as (d & E & FD & BD & _). assert (L : SFltb x f32_one = true) by (apply lt_one; [exact Hx|lra]).
    assert (EL : pow2_loop fuel x inf = Ok (fmul inf d)) by (destruct fuel; cbn [pow2_loop]; rewrite L, E; reflexivity). rewrite EL, inf_times by (try exact FD; lra). reflexivity.
  - destruct fuel as [|fuel]; [lia|]. rewrite Nat2Z.inj_succ, succ_IZR in Hr. assert (N0 : 0 <= IZR (Z.of_nat n)) by (apply IZR_le; lia).
    cbn [pow2_loop]. rewrite big_loop_false by (try exact Hx; lra). destruct (sub_one x Hx ltac:(lra)) as [FS ES]. change (fmul inf (f32_of_int 32)) with inf. apply IH; [lia|exact FS|rewrite ES; lra|rewrite ES; lra].
Qed.
(* the product stays finite up to 2^125 *)
Lemma loop_gen n : forall fuel x res j, (n <= fuel)%nat -> finite_f32 x -> IZR (Z.of_nat n) <= fval x < IZR (Z.of_nat n) + 1 -> fval x <= bpow radix2 24 -> (0 <= j <= 25)%Z -> finite_f32 res -> fval res = bpow radix2 (5 * j) ->
  exists r, pow2_loop fuel x res = Ok r /\ let V := bpow radix2 (5 * j) * Rpower 2 (5 * fval x) in
    (finite_f32 r /\ Rabs (fval r - V) <= 15 / 10 ^ 7 * V) \/ (r = inf /\ fmax <= V * (1 + 15 / 10 ^ 7)).
Proof.
  induction n as [|n IH]; intros fuel x res j Hf Hx Hr HX Hj Fres Eres.
  - change (IZR (Z.of_nat 0)) with 0 in Hr. destruct (exp5_pow x Hx ltac:(lra)) as (d & E & FD & BD & AD). assert (L : SFltb x f32_one = true) by (apply lt_one; [exact Hx|lra]).
    assert (EL : pow2_loop fuel x res = Ok (fmul res d)) by (destruct fuel; cbn [pow2_loop]; rewrite L, E; reflexivity). exists (fmul res d). split; [exact EL|]. cbn zeta.
    set (b := bpow radix2 (5 * j)) in *. assert (B0 : 0 < b) by apply bpow_gt_0. set (V := Rpower 2 (5 * fval x)) in *. assert (V0 : 0 < V) by apply Rpower2_pos.
    assert (IN : in_f32 (b * fval d)) by (rewrite Rmult_comm; apply scale_in; [apply fval_in, FD|lia]).
    assert (BP : 0 < b * fval d) by (apply Rmult_lt_0_compat; lra). apply Rabs_le_inv in AD.
    pose proof (fmul_rounds res d (proj1 Fres) (proj1 FD) (proj2 Fres) (proj2 FD)) as HR. unfold frounds in HR. rewrite Eres, RN_id in HR by exact IN. destruct HR as [(_ & EV & FV)|(G & EV)].
    + left. split; [split; [apply fmul_valid; [apply Fres|apply FD]|exact FV]|]. rewrite EV. replace (b * fval d - b * V) with (b * (fval d - V)) by ring. rewrite Rabs_mult, (Rabs_right b) by lra. replace (15 / 10 ^ 7 * (b * V)) with (b * (15 / 10 ^ 7 * V)) by ring. apply Rmult_le_compat_l; [lra|]. apply Rabs_le. lra.
    + right. rewrite Rlt_bool_false in EV by lra. split; [exact EV|]. rewrite Rabs_right in G by lra. apply Rle_trans with (1 := G). rewrite Rmult_assoc. apply Rmult_le_compat_l; lra.
  - destruct fuel as [|fuel]; [lia|]. rewrite Nat2Z.inj_succ, succ_IZR in Hr. assert (N0 : 0 <= IZR (Z.of_nat n)) by (apply IZR_le; lia).
    cbn [pow2_loop]. rewrite big_loop_false by (try exact Hx; lra). destruct (sub_one x Hx ltac:(lra)) as [FS ES]. destruct b32 as [F32 E32].
    assert (IN : fval res * bpow radix2 5 = bpow radix2 (5 * (j + 1))) by (rewrite Eres, <- bpow_plus; f_equal; lia).
    assert (ET : bpow radix2 (5 * (j + 1)) * Rpower 2 (5 * (fval x - 1)) = bpow radix2 (5 * j) * Rpower 2 (5 * fval x)). { rewrite (Rpower2_shift (fval x)). replace (5 * (j + 1))%Z with (5 * j + 5)%Z by lia. rewrite bpow_plus. ring. }
    destruct (Z.eq_dec j 25) as [->|NJ].
    + assert (EI : fmul res (f32_of_int 32) = inf).
      { pose proof (fmul_rounds res _ (proj1 Fres) (proj1 F32) (proj2 Fres) (proj2 F32)) as HR. unfold frounds in HR. rewrite E32, IN in HR. change (5 * (25 + 1))%Z with 130%Z in HR. rewrite RN_id in HR by (change in_f32 with (generic_format radix2 (FLT_exp (-149) 24)); apply generic_format_bpow; unfold FLT_exp; lia).
        assert (FP : fmax <= bpow radix2 130) by (apply bpow_le; lia). pose proof (bpow_gt_0 radix2 130). destruct HR as [(G & _)|(_ & EV)]; [rewrite Rabs_right in G by lra; lra|]. rewrite Rlt_bool_false in EV by lra. exact EV. }
      rewrite EI. exists inf. split; [apply (loop_inf_res n); [lia|exact FS|rewrite ES; lra|rewrite ES; lra]|]. cbn zeta. right. split; [reflexivity|]. rewrite <- ET. change (5 * (25 + 1))%Z with 130%Z.
      assert (P1 : 1 <= Rpower 2 (5 * (fval x - 1))). { apply Rle_trans with (Rpower 2 0); [rewrite Rpower_O; lra|apply Rle_Rpower; lra]. } assert (FP : fmax <= bpow radix2 130) by (apply bpow_le; lia). pose proof (bpow_gt_0 radix2 130) as P0. set (B := bpow radix2 130) in *. set (W := Rpower 2 (5 * (fval x - 1))) in *. nra.
    + destruct (fmul_b res (f32_of_int 32) Fres F32) as [FM EM]; [rewrite E32, IN; apply (le_127 (5 * (j + 1))); [lia|]; rewrite Rabs_right; [lra|apply Rle_ge, bpow_ge_0]|]. rewrite E32, IN, RN_id in EM by (apply in_pow; lia).
      destruct (IH fuel (fsub x f32_one) (fmul res (f32_of_int 32)) (j + 1)%Z ltac:(lia) FS ltac:(rewrite ES; lra) ltac:(rewrite ES; lra) ltac:(lia) FM EM) as (r & E & R). exists r. split; [exact E|]. cbn zeta in R |- *. rewrite ES, ET in R. exact R.
Qed.
Lemma big_inf r V : Rpower 2 (128 + 1 / 10000) <= V -> (finite_f32 r /\ Rabs (fval r - V) <= 15 / 10 ^ 7 * V) \/ (r = inf /\ fmax <= V * (1 + 15 / 10 ^ 7)) -> r = inf.
Proof.
  intros HV [[F A]|[E _]]; [exfalso|exact E]. pose proof (fval_bound r (proj1 F)) as B. apply Rabs_le_inv in A.
  assert (P : Rpower 2 (128 + 1 / 10000) = fmax * Rpower 2 (1 / 10000)). { rewrite Rpower_plus. unfold fmax. rewrite bpow_Rpower by lia. reflexivity. }
  assert (Q : 1 + 6 / 100000 <= Rpower 2 (1 / 10000)). { unfold Rpower. pose proof ln2_bounds. pose proof (exp_ineq1_le (1 / 10000 * ln 2)). lra. }
  pose proof fmax_pos as FP. assert (fmax * (1 + 6 / 100000) <= V) by (rewrite P in HV; apply Rle_trans with (2 := HV); apply Rmult_le_compat_l; lra).
  apply Rabs_lt_inv in B. lra.
Qed.

Lemma fifth x : finite_f32 x -> 0 <= fval x -> finite_f32 (fdiv x (f32_of_int 5)) /\ fval (fdiv x (f32_of_int 5)) = RN (fval x / 5).
Proof.
  intros Hx H. destruct five_b as [F5 E5]. destruct (fdiv_val x (f32_of_int 5) (proj1 Hx) (proj1 F5) (proj2 Hx)) as [E F]; rewrite ?E5 in *; [lra| |split; [split; [apply fdiv_valid; [apply Hx|apply F5]|exact F]|exact E]].
  apply Rle_lt_trans with (Rabs (fval x)); [|apply fval_bound, Hx]. rewrite RN_abs. rewrite <- (RN_id (Rabs (fval x))) by (apply generic_format_abs; apply fval_in, Hx). apply RN_le. rewrite !Rabs_right by lra. lra.
Qed.
Lemma floor_nat y : 0 <= y -> exists n, IZR (Z.of_nat n) <= y < IZR (Z.of_nat n) + 1.
Proof. intros H. exists (Z.to_nat (Zfloor y)). rewrite Z2Nat.id by (apply Zfloor_lub; exact H). split; [apply Zfloor_lb|apply Zfloor_ub]. Qed.
(* the accuracy of the result follows from that for 5 * fl(x / 5) *)
Lemma transfer X y R : 0 <= X <= 129 -> Rabs (y - X / 5) <= / 16777216 * (X / 5) + / bpow radix2 150 -> Rabs (R - Rpower 2 (5 * y)) <= 15 / 10 ^ 7 * Rpower 2 (5 * y) ->
  Rabs (R - Rpower 2 X) <= (16 / 10 ^ 7 + 5 / 10 ^ 8 * X) * Rpower 2 X.
Proof.
  intros HX RE AR. pose proof ln2_bounds as LB. set (u := (5 * y - X) * ln 2). assert (T : / bpow radix2 150 <= / 10 ^ 21). { change (bpow radix2 150) with (IZR (2 ^ 150)). apply Rinv_le; [lra|]. change (10 ^ 21) with (IZR 10 ^ 21). rewrite pow_IZR. apply IZR_le. vm_compute. discriminate. }
  assert (HU : Rabs u <= 42 / 10 ^ 9 * X + 1 / 10 ^ 20). { unfold u. rewrite Rabs_mult, (Rabs_right (ln 2)) by lra. replace (5 * y - X) with (5 * (y - X / 5)) by field. rewrite Rabs_mult, (Rabs_right 5) by lra. set (q := Rabs (y - X / 5)) in *. assert (0 <= q) by apply Rabs_pos. nra. }
  assert (EV : Rpower 2 (5 * y) = Rpower 2 X * exp u) by (unfold Rpower, u; rewrite <- exp_plus; f_equal; ring). rewrite EV in AR. set (V := Rpower 2 X) in *. assert (V0 : 0 < V) by apply Rpower2_pos.
  assert (EU : Rabs (exp u - 1) <= 43 / 10 ^ 9 * X + 2 / 10 ^ 20).
  { pose proof (Rabs_le_inv _ _ HU) as HU'. destruct (Rle_lt_dec 0 u) as [U0|U0].
    - pose proof (exp_t2 u ltac:(lra)) as G. assert (u ^ 2 <= (6 / 10 ^ 6) * u). { replace (u ^ 2) with (u * u) by ring. apply Rmult_le_compat_r; lra. } apply Rabs_le. lra.
    - assert (G1 : exp u < 1) by (rewrite <- exp_0; apply exp_increasing; exact U0). pose proof (exp_ineq1_le u) as G. apply Rabs_le. lra. }
  apply Rabs_le_inv in EU, AR. set (w := exp u) in *. assert (VW : V * w <= V * (1 + (43 / 10 ^ 9 * X + 2 / 10 ^ 20))) by (apply Rmult_le_compat_l; lra). assert (VW2 : V * (1 - (43 / 10 ^ 9 * X + 2 / 10 ^ 20)) <= V * w) by (apply Rmult_le_compat_l; lra).
  assert (VX : 0 <= V * X) by (apply Rmult_le_pos; lra). assert (VX2 : V * X <= V * 129) by (apply Rmult_le_compat_l; lra). apply Rabs_le. lra.
Qed.
Lemma RN_int_comp n m : (Z.abs n <= 2 ^ 30)%Z -> fval (f32_of n 0) = m -> RN (IZR n) = m.
Proof.
  intros Hn <-. destruct (f32_of_val n 0) as [A _]; change (bpow radix2 0) with 1 in *; rewrite Rmult_1_r in *; [|symmetry; exact A]. apply RN_pow_bound. apply (small_le_127 30); [lia|]. rewrite <- abs_IZR. apply IZR_le. exact Hn.
Qed.
Lemma fifth_of n x v : finite_f32 x -> fval x = IZR n -> (0 <= n)%Z -> fval (fdiv x (f32_of_int 5)) = v -> RN (IZR n / 5) = v.
Proof. intros Hx E Hn <-. assert (0 <= IZR n) by (apply IZR_le; exact Hn). destruct (fifth x Hx ltac:(lra)) as [_ ED]. rewrite ED, E. reflexivity. Qed.
Lemma fifth_top : RN (83886088 / 5) = 16777218.
Proof.
  apply (fifth_of 83886088 (f32_of_int 83886088)); [split; vm_compute; reflexivity|change (fval (f32_of_int 83886088)) with (IZR 10485761 * 8); lra|lia|].
  replace (fdiv (f32_of_int 83886088) (f32_of_int 5)) with (S754_finite false 8388609 1) by (vm_compute; reflexivity). change (fval (S754_finite false 8388609 1)) with (IZR 8388609 * 2). lra.
Qed.
Lemma fifth_stuck : RN (83886096 / 5) = 16777220.
Proof.
  apply (fifth_of 83886096 (f32_of_int 83886096)); [split; vm_compute; reflexivity|change (fval (f32_of_int 83886096)) with (IZR 10485762 * 8); lra|lia|].
  replace (fdiv (f32_of_int 83886096) (f32_of_int 5)) with (S754_finite false 8388610 1) by (vm_compute; reflexivity). change (fval (S754_finite false 8388610 1)) with (IZR 8388610 * 2). lra.
Qed.
Lemma pow2_overflow fuel x : finite_f32 x -> 127 <= fval x <= 83886088 -> fval x <= 5 * IZR (Z.of_nat fuel) ->
  exists r, pow2 fuel x = Ok r /\ (1280002 / 10000 <= fval x -> r = S754_infinity false) /\
    (fval x <= 1280002 / 10000 -> r = S754_infinity false \/ (finite_f32 r /\ Rabs (fval r - Rpower 2 (fval x)) <= (16 / 10 ^ 7 + 5 / 10 ^ 8 * fval x) * Rpower 2 (fval x))).
Proof.
  intros Hx Hr Hf. destruct (fifth x Hx ltac:(lra)) as [FD ED]. unfold pow2. set (X := fval x) in *. set (y := fdiv x (f32_of_int 5)) in *.
  destruct one_b as [FO EO]. assert (EO0 : fval f32_one = bpow radix2 (5 * 0)) by exact EO.
  pose proof (RN_err_mixed (X / 5)) as RE. rewrite (Rabs_right (X / 5)) in RE by lra. rewrite <- ED in RE. change (bpow radix2 (-24)) with (/ 16777216) in RE. pose proof tiny150 as TT. pose proof (Rabs_le_inv _ _ RE) as RE'.
  assert (P24 : bpow radix2 24 = 16777216) by reflexivity.
  destruct (Rle_lt_dec (fval y) 16777216) as [SM|LG].
  - assert (Y0 : 0 <= fval y) by (rewrite ED, <- RN_0; apply RN_le; lra). destruct (floor_nat (fval y) Y0) as [n HN].
    assert (NF : (n <= fuel)%nat). { destruct (le_lt_dec n fuel) as [|G]; [assumption|exfalso]. assert (HG : IZR (Z.of_nat fuel + 1) <= IZR (Z.of_nat n)) by (apply IZR_le; lia). rewrite plus_IZR in HG.
      assert (fval y <= IZR (Z.of_nat fuel)); [|lra]. rewrite ED. assert (FB : (Z.of_nat fuel < 2 ^ 24)%Z). { apply lt_IZR. change (IZR (2 ^ 24)) with 16777216. lra. } rewrite <- (RN_id (IZR (Z.of_nat fuel))) by (apply in_int; lia). apply RN_le. lra. }
    destruct (loop_gen n fuel y f32_one 0 NF FD HN ltac:(lra) ltac:(lia) FO EO0) as (r & E & R). exists r. split; [exact E|]. cbn zeta in R. change (bpow radix2 (5 * 0)) with 1 in R. rewrite Rmult_1_l in R. split.
    + intros HB. apply (big_inf r _) with (2 := R). apply Rle_Rpower; lra.
    + intros HB. destruct R as [[FR AR]|[ER _]]; [right|left; exact ER]. split; [exact FR|]. apply (transfer X (fval y)); [lra| |exact AR]. exact RE.
  - assert (YU : fval y <= 16777218). { rewrite ED, <- fifth_top. apply RN_le. lra. }
    assert (XL : 16777216 < X / 5). { apply Rnot_le_lt. intros G. pose proof (RN_le _ _ G) as G2. rewrite (RN_id 16777216) in G2 by (apply (in_int 16777216); lia). rewrite <- ED in G2. lra. }
    destruct fuel as [|fuel]; [change (IZR (Z.of_nat 0)) with 0 in Hf; lra|]. cbn [pow2_loop]. rewrite big_loop_false by (try exact FD; lra).
    destruct one_b as [FO' EO']. destruct (fsub_b y f32_one FD FO') as [FS ES]; [rewrite EO'; apply (le_127 25); [lia|]; change (bpow radix2 25) with 33554432; apply Rabs_le; lra|]. rewrite EO' in ES.
    assert (S1 : fval (fsub y f32_one) <= 16777216). { rewrite ES. rewrite <- (RN_int_comp 16777217 16777216) by (try lia; change (fval (f32_of 16777217 0)) with (IZR 8388608 * 2); lra). apply RN_le. lra. }
    assert (S2 : 16777215 <= fval (fsub y f32_one)). { rewrite ES. rewrite <- (RN_id 16777215) by (apply (in_int 16777215); lia). apply RN_le. lra. }
    destruct b32 as [F32 E32]. destruct (fmul_b f32_one (f32_of_int 32) FO' F32) as [FM EM]; [rewrite EO', E32, Rmult_1_l; apply (le_127 5); [lia|]; rewrite Rabs_right; [lra|apply Rle_ge, bpow_ge_0]|]. rewrite EO', E32, Rmult_1_l, RN_id in EM by (apply in_pow; lia).
    destruct (floor_nat (fval (fsub y f32_one)) ltac:(lra)) as [n HN].
    assert (NF : (n <= fuel)%nat). { destruct (le_lt_dec n fuel) as [|G]; [assumption|exfalso]. assert (HG : IZR (Z.of_nat (S fuel)) <= IZR (Z.of_nat n)) by (apply IZR_le; lia). lra. }
    destruct (loop_gen n fuel _ _ 1 NF FS HN ltac:(lra) ltac:(lia) FM EM) as (r & E & R). exists r. split; [exact E|]. cbn zeta in R.
    assert (RI : r = inf); [|split; [intros _; exact RI|intros _; left; exact RI]].
    apply (big_inf r _) with (2 := R). rewrite bpow_Rpower by lia. rewrite <- Rpower_plus. apply Rle_Rpower; [lra|]. change (IZR (5 * 1)) with 5. lra.
Qed.

(* from here on x - 1 rounds back to at least 2^24 + 4 *)
Lemma stuck fuel : forall x res, finite_f32 x -> 16777220 <= fval x -> pow2_loop fuel x res = OutOfFuel.
Proof.
  induction fuel as [|fuel IH]; intros x res Hx H; cbn [pow2_loop]; rewrite big_loop_false by (try exact Hx; lra); [reflexivity|].
  destruct one_b as [FO EO]. destruct (fsub_val x f32_one (proj1 Hx) (proj1 FO) (proj2 Hx) (proj2 FO)) as [ES FS].
  - rewrite EO. apply Rle_lt_trans with (Rabs (fval x)); [|apply fval_bound, Hx]. rewrite RN_abs. rewrite <- (RN_id (Rabs (fval x))) by (apply generic_format_abs; apply fval_in, Hx). apply RN_le. rewrite !Rabs_right by lra. lra.
  - apply IH; [split; [apply fsub_valid; [apply Hx|apply FO]|exact FS]|]. rewrite ES, EO. rewrite <- (RN_int_comp 16777219 16777220) by (try lia; change (fval (f32_of 16777219 0)) with (IZR 8388610 * 2); lra). apply RN_le. lra.
Qed.
Lemma pow2_stuck fuel x : finite_f32 x -> 83886096 <= fval x -> pow2 fuel x = OutOfFuel.
Proof. intros Hx H. destruct (fifth x Hx ltac:(lra)) as [FD ED]. unfold pow2. apply stuck; [exact FD|]. rewrite ED, <- fifth_stuck. apply RN_le. lra. Qed.
