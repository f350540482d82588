(* pow2 just below 0: the first interval of the table is extended to the left. *)
From Coq Require Import Reals Lra Lia ZArith Floats.SpecFloat.
From Flocq Require Import Core.
From Verif.Common Require Import Base Lemmas F32 F32Order F32Real F32Arith.
From Verif.Model Require Import Table MathTables MathLookup.
From Verif.Proofs Require Import ExpLn MathTables SinTable ExpTable Pow2.
From Verif.Proofs Require Audio.
Open Scope R_scope.

Lemma exp_below u : 0 <= u <= 1 / 100 -> 1 - u <= exp (- u) <= 1 - u + u ^ 2.
Proof.
  intros H. pose proof (exp_ineq1_le (- u)) as L. pose proof (exp_ineq1_le u) as U. pose proof (exp_pos u) as P. split; [lra|].
  rewrite exp_Ropp. apply Rmult_le_reg_r with (exp u); [exact P|]. rewrite Rinv_l by lra. nra.
Qed.
Lemma exp_above u : 0 <= u <= 1 / 100 -> 1 + u <= exp u <= 1 + u + 2 * u ^ 2.
Proof.
  intros H. pose proof (exp_ineq1_le u) as U. split; [exact U|]. destruct (exp_below u H) as [L _]. rewrite exp_Ropp in L. pose proof (exp_pos u) as P.
  apply Rmult_le_reg_r with (1 - u); [lra|]. apply Rle_trans with 1; [|nra]. apply Rmult_le_compat_l with (r := exp u) in L; [|lra]. rewrite Rinv_r in L by lra. exact L.
Qed.
Lemma close_arith e w t d : 0 <= e <= 17 / 10 ^ 4 -> 0 <= w <= 1 -> -1 < t <= 0 -> - (4 / 10 ^ 7) <= t + w <= 4 / 10 ^ 7 -> - (4 / 10 ^ 6) <= d - 1 - e <= 7 / 10 ^ 6 ->
  0 <= w * e <= 1 / 100 /\ 0 <= (w * e) ^ 2 <= 29 / 10 ^ 7 /\ - (72 / 10 ^ 7) <= d * t + (1 - t) - (1 - w * e) <= 41 / 10 ^ 7.
Proof.
  intros E W T TW D. assert (A : 0 <= w * e <= 17 / 10 ^ 4) by (split; [apply Rmult_le_pos; lra|]; apply Rle_trans with (1 * e); [apply Rmult_le_compat_r; lra|lra]).
  split; [lra|]. split.
  - split; [apply pow2_ge_0|]. apply Rle_trans with ((17 / 10 ^ 4) ^ 2); [apply pow_incr; exact A|lra].
  - replace (d * t + (1 - t) - (1 - w * e)) with ((t + w) * e - (- t) * (d - 1 - e)) by ring. 
    assert (B : - (7 / 10 ^ 10) <= (t + w) * e <= 7 / 10 ^ 10). { apply Rabs_le_inv. rewrite Rabs_mult. apply Rle_trans with (4 / 10 ^ 7 * (17 / 10 ^ 4)); [|lra]. apply Rmult_le_compat; try apply Rabs_pos; apply Rabs_le; lra. }
    assert (C : - (4 / 10 ^ 6) <= (- t) * (d - 1 - e) <= 7 / 10 ^ 6). { destruct (Rle_dec 0 (d - 1 - e)); split; nra. }
    lra.
Qed.
Lemma pow2_below fuel x : finite_f32 x -> - (24425 / 10 ^ 7) <= fval x <= 0 -> exists r, pow2 fuel x = Ok r /\ finite_f32 r /\ Rabs (fval r - Rpower 2 (fval x)) <= 11 / 10 ^ 6.
Proof.
  intros Hx Hr. destruct five_b as [F5 E5]. destruct one_b as [FO EO]. destruct (int_b 2047 ltac:(lia)) as [FL EL]. destruct (int_b 0 ltac:(lia)) as [FZ EZ].
  pose proof tiny150 as TT. set (X := fval x) in *.
  assert (B5 : Rabs (X / 5) <= 1 / 1000) by (apply Rabs_le; lra).
  destruct (fdiv_b x (f32_of_int 5) Hx F5) as [FP EP]; [rewrite E5; lra|rewrite E5; fold X; apply (small_le_127 0); [lia|]; change (IZR (2 ^ 0)) with 1; lra|].
  rewrite E5 in EP. fold X in EP. set (ph := fdiv x (f32_of_int 5)) in *. pose proof (RN_err_mixed (X / 5)) as R1. rewrite <- EP in R1. change (bpow radix2 (-24)) with (/ 16777216) in R1.
  rewrite (Rabs_left1 (X / 5)) in R1 by lra. apply Rabs_le_inv in R1.
  assert (N1 : fval ph <= 0) by (rewrite EP, <- RN_0; apply RN_le; lra).
  destruct (fmul_b ph (f32_of_int 2047) FP FL) as [FY EY]; [rewrite EL; apply (small_le_127 1); [lia|]; change (IZR (2 ^ 1)) with 2; apply Rabs_le; lra|].
  rewrite EL in EY. set (y := fmul ph (f32_of_int 2047)) in *. pose proof (RN_err_mixed (fval ph * 2047)) as R2. rewrite <- EY in R2. change (bpow radix2 (-24)) with (/ 16777216) in R2.
  rewrite (Rabs_left1 (fval ph * 2047)) in R2 by lra. apply Rabs_le_inv in R2.
  assert (N2 : fval y <= 0) by (rewrite EY, <- RN_0; apply RN_le; lra).
  assert (L2 : -1 < fval y) by lra.
  assert (HT : Ztrunc (fval y) = 0%Z). { rewrite Ztrunc_ceil by lra. apply Zceil_imp. cbn. lra. }
  assert (EU : f32_to_uint 32 y = Ok 0%Z) by (apply Audio.cast_u; [apply FY|exact HT|lia]).
  destruct (fsub_b y (f32_of_int 0) FY FZ) as [FQ EQ]; [rewrite EZ; apply (small_le_127 0); [lia|]; change (IZR (2 ^ 0)) with 1; apply Rabs_le; lra|].
  rewrite EZ, Rminus_0_r, RN_id in EQ by (apply fval_in, FY). set (p := fsub y (f32_of_int 0)) in *.
  assert (N0 : znth exp5Table 0 = Some f32_one) by (vm_compute; reflexivity).
  destruct (exp5_entry 1 ltac:(lia)) as (d1 & ND & FD & BD & AD). rewrite Rmult_1_l in AD.
  pose proof eh_bounds as EB. destruct (exp_above eh ltac:(lra)) as [X1 X2].
  assert (HD : - (4 / 10 ^ 6) <= fval d1 - 1 - eh <= 7 / 10 ^ 6) by (apply Rabs_le_inv in AD; nra).
  set (t := fval p) in *. assert (T : -1 < t <= 0) by (rewrite EQ; lra).
  destruct (fmul_b d1 p FD FQ) as [FA EA]; [apply (small_le_127 1); [lia|]; change (IZR (2 ^ 1)) with 2; fold t; apply Rabs_le; nra|]. fold t in EA.
  destruct (fsub_b f32_one p FO FQ) as [FB EB']; [rewrite EO; fold t; apply (small_le_127 1); [lia|]; change (IZR (2 ^ 1)) with 2; apply Rabs_le; lra|]. rewrite EO in EB'. fold t in EB'.
  assert (HA : Rabs (fval d1 * t) <= bpow radix2 1) by (change (bpow radix2 1) with 2; apply Rabs_le; nra). pose proof (RN_err 1 _ ltac:(lia) HA) as RA. rewrite <- EA in RA. change (bpow radix2 (1 - 25)) with (/ 16777216) in RA. apply Rabs_le_inv in RA.
  assert (HB : Rabs (1 - t) <= bpow radix2 1) by (change (bpow radix2 1) with 2; apply Rabs_le; lra). pose proof (RN_err 1 _ ltac:(lia) HB) as RB. rewrite <- EB' in RB. change (bpow radix2 (1 - 25)) with (/ 16777216) in RB. apply Rabs_le_inv in RB.
  destruct (fmul_b f32_one (fsub f32_one p) FO FB) as [FC EC]; [rewrite EO, Rmult_1_l; apply (small_le_127 2); [lia|]; change (IZR (2 ^ 2)) with 4; apply Rabs_le; lra|].
  rewrite EO, Rmult_1_l, RN_id in EC by (apply fval_in, FB).
  assert (HV : 1 - 1 / 100 <= fval d1 * t + (1 - t) <= 1) by nra.
  assert (HS : Rabs (fval (fmul d1 p) + fval (fmul f32_one (fsub f32_one p))) <= bpow radix2 1) by (rewrite EC; change (bpow radix2 1) with 2; apply Rabs_le; lra).
  destruct (fadd_b (fmul d1 p) (fmul f32_one (fsub f32_one p)) FA FC) as [FS ES]; [eapply Rle_trans; [exact HS|apply bpow_le; lia]|].
  pose proof (RN_err 1 _ ltac:(lia) HS) as RS. rewrite <- ES, EC in RS. change (bpow radix2 (1 - 25)) with (/ 16777216) in RS. apply Rabs_le_inv in RS.
  set (s := fadd (fmul d1 p) (fmul f32_one (fsub f32_one p))) in *.
  destruct (fmul_b f32_one s FO FS) as [FR ER]; [rewrite EO, Rmult_1_l; apply (small_le_127 1); [lia|]; change (IZR (2 ^ 1)) with 2; apply Rabs_le; lra|].
  rewrite EO, Rmult_1_l, RN_id in ER by (apply fval_in, FS).
  exists (fmul f32_one s). split; [|split; [exact FR|]].
  - assert (L : SFltb ph f32_one = true) by (apply lt_one; [exact FP|lra]). assert (EI : Finterp exp5Table ph = Ok s).
    { unfold Finterp, interp, interp_by_index. rewrite exp5_len. change (2048 - 1)%Z with 2047%Z. fold y. rewrite EU. cbn [bind]. unfold blend. rewrite exp5_len. change (0 =? 2048 - 1)%Z with false. cbn iota. change (word 32 (0 + 1)) with 1%Z. rewrite (rd_ok _ _ _ ND), (rd_ok _ _ _ N0). cbn [bind]. reflexivity. }
    unfold pow2. fold ph. destruct fuel; cbn [pow2_loop]; rewrite L, EI; reflexivity.
  - rewrite ER. assert (EX : Rpower 2 X = exp (- (- (X * (2047 / 5)) * eh))) by (rewrite Rpower2; f_equal; unfold eh; field). rewrite EX.
    set (w := - (X * (2047 / 5))). assert (Hw : 0 <= w <= 1) by (unfold w; lra). assert (Ht : - (4 / 10 ^ 7) <= t + w <= 4 / 10 ^ 7) by (unfold w; rewrite EQ; lra).
    destruct (close_arith eh w t (fval d1) ltac:(lra) Hw T Ht HD) as (W1 & W2 & W3). destruct (exp_below (w * eh) W1) as [Y1 Y2].
    apply Rabs_le. lra.
Qed.
