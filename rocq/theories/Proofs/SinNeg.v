(* sin, sin01 and cos just below their ranges: the cast truncates towards zero, so that the first
   interval of the table is extended to the left. *)
From Coq Require Import Reals Lra Lia ZArith Floats.SpecFloat.
From Flocq Require Import Core.
From Verif.Common Require Import Base Lemmas F32 F32Order F32Real F32Arith.
From Verif.Model Require Import Table MathTables MathLookup.
From Verif.Proofs Require Import Trig ExpLn MathTables SinTable.
From Verif.Proofs Require Audio.
Open Scope R_scope.

Lemma first_entries : znth sinTable 0 = Some f32_zero /\ exists d1, znth sinTable 1 = Some d1 /\ finite_f32 d1 /\ Rabs (fval d1) <= 1 /\ Rabs (fval d1 - sin (PI / 1024)) <= 80 / 10 ^ 8.
Proof.
  split; [vm_compute; reflexivity|]. destruct (sin_entry 1 ltac:(lia)) as (d1 & A & B & C & D). exists d1. rewrite Rmult_1_l in D. auto.
Qed.
Lemma sin_near u : 0 <= u <= 1 -> Rabs (sin u - u) <= u ^ 3 / 6.
Proof. intros H. pose proof (sin_small u ltac:(lra)). assert (0 <= u ^ 3) by (apply pow_le; lra). apply Rabs_le. lra. Qed.
Lemma below fuel ph : finite_f32 ph -> - / 2048 < fval ph <= 0 ->
  exists r, Finterp_wrap fuel sinTable ph = Ok r /\ Fclosest_wrap fuel sinTable ph = Ok f32_zero /\ finite_f32 r /\ Rabs (fval r - sin (2 * PI * fval ph)) <= 9 / 10 ^ 7.
Proof.
  intros Hp Hr. destruct (int_b 2048 ltac:(lia)) as [FL EL]. destruct (int_b 0 ltac:(lia)) as [FZ EZ]. destruct one_b as [FO EO].
  destruct (fmul_b ph (f32_of_int 2048) Hp FL) as [FX EX]; [rewrite EL; apply (small_le_127 0); [lia|]; change (IZR (2 ^ 0)) with 1; apply Rabs_le; lra|].
  rewrite EL in EX. assert (IX : in_f32 (fval ph * 2048)) by (change 2048 with (bpow radix2 11); apply scale_in; [apply fval_in, Hp|lia]). rewrite RN_id in EX by exact IX.
  set (x := fmul ph (f32_of_int 2048)) in *. assert (HT : Ztrunc (fval x) = 0%Z). { rewrite EX, Ztrunc_ceil by lra. apply Zceil_imp. cbn. lra. }
  assert (EU : f32_to_uint 32 x = Ok 0%Z) by (apply Audio.cast_u; [apply FX|exact HT|lia]).
  destruct (fsub_b x (f32_of_int 0) FX FZ) as [FP EP]; [rewrite EZ, EX; apply (small_le_127 0); [lia|]; change (IZR (2 ^ 0)) with 1; apply Rabs_le; lra|].
  rewrite EZ, Rminus_0_r, EX, RN_id in EP by exact IX. set (p := fsub x (f32_of_int 0)) in *.
  destruct first_entries as [N0 (d1 & N1 & F1 & B1 & A1)]. assert (HW : wrap_loop fuel 2048 0 = Ok 0%Z) by (destruct fuel; reflexivity).
  assert (T : -1 < fval p <= 0) by lra.
  destruct (fmul_b d1 p F1 FP) as [FM EM]; [apply (small_le_127 0); [lia|]; change (IZR (2 ^ 0)) with 1; rewrite Rabs_mult; assert (Rabs (fval p) <= 1) by (apply Rabs_le; lra); pose proof (Rabs_pos (fval d1)); pose proof (Rabs_pos (fval p)); nra|].
  destruct (fsub_b f32_one p FO FP) as [FQ EQ]; [rewrite EO; apply (small_le_127 1); [lia|]; change (IZR (2 ^ 1)) with 2; apply Rabs_le; lra|].
  destruct zero_b as [F0 E0]. destruct (fmul_b f32_zero (fsub f32_one p) F0 FQ) as [FM0 EM0]; [rewrite E0, Rmult_0_l, Rabs_R0; apply bpow_ge_0|]. rewrite E0, Rmult_0_l, RN_0 in EM0.
  destruct (fadd_b (fmul d1 p) (fmul f32_zero (fsub f32_one p)) FM FM0) as [FR ER].
  { rewrite EM0, Rplus_0_r. apply (small_le_127 0); [lia|]. change (IZR (2 ^ 0)) with 1. rewrite EM. apply Rabs_le. assert (HB : -1 <= fval d1 * fval p <= 1) by (apply Rabs_le_inv in B1; nra). apply RN_between; [apply (in_int (-1)); lia|apply (in_int 1); lia|exact HB]. }
  rewrite EM0, Rplus_0_r, RN_id in ER by (apply fval_in, FM). rewrite EM in ER.
  eexists. split; [|split; [|split; [exact FR|]]].
  - unfold Finterp_wrap, interp_wrap, interp_by_index_wrap. rewrite sin_len. fold x. rewrite EU. cbn [bind]. rewrite HW. cbn [bind]. unfold blend. rewrite sin_len. change (0 =? 2048 - 1)%Z with false. cbn iota. change (word 32 (0 + 1)) with 1%Z.
    rewrite (rd_ok _ _ _ N1), (rd_ok _ _ _ N0). cbn [bind]. reflexivity.
  - unfold Fclosest_wrap, closest_wrap. rewrite sin_len. fold x. rewrite EU. cbn [bind]. rewrite HW. cbn [bind]. rewrite (rd_ok _ _ _ N0). reflexivity.
  - rewrite ER. set (t := fval p) in *. pose proof PI_bounds as PB. set (h := PI / 1024) in *. assert (Hh : 0 <= h <= 30680 / 10 ^ 7) by (unfold h; lra).
    replace (2 * PI * fval ph) with (- (- t * h)) by (rewrite EP; unfold h; field). rewrite sin_neg.
    assert (Bu : 0 <= - t * h <= h) by nra. pose proof (sin_near (- t * h) ltac:(lra)) as S1. pose proof (sin_near h ltac:(lra)) as S2.
    assert (C1 : (- t * h) ^ 3 <= h ^ 3) by (apply pow_incr; lra). assert (C2 : h ^ 3 <= (30680 / 10 ^ 7) ^ 3) by (apply pow_incr; lra).
    pose proof (RN_err_mixed (fval d1 * t)) as RE. pose proof tiny150 as TT. change (bpow radix2 (-24)) with (/ 16777216) in RE.
    apply Rabs_le_inv in S1, S2, A1. assert (Hd : - (4 / 1000) <= fval d1 <= 4 / 1000) by lra. assert (HM : Rabs (fval d1 * t) <= 4 / 1000) by (apply Rabs_le; nra).
    apply Rabs_le_inv in RE. assert (HE : - (81 / 10 ^ 8) <= (fval d1 - h) * t <= 81 / 10 ^ 8) by nra. apply Rabs_le. lra.
Qed.
Lemma sin01_below fuel x : finite_f32 x -> - / 2048 < fval x <= 0 -> exists r, sin01 fuel x = Ok r /\ finite_f32 r /\ Rabs (fval r - sin (2 * PI * fval x)) <= 9 / 10 ^ 7.
Proof. intros Hx Hr. destruct (below fuel x Hx Hr) as (r & E & _ & F & A). exists r. auto. Qed.
Lemma sin_below fuel x : finite_f32 x -> - (30679 / 10 ^ 7) <= fval x <= 0 -> exists r, tsin fuel x = Ok r /\ finite_f32 r /\ Rabs (fval r - sin (fval x)) <= 10 / 10 ^ 7.
Proof.
  intros Hx Hr. pose proof PI_bounds as PB. destruct (to_phase x Hx) as (FP & A1 & A2 & _); [change (bpow radix2 23) with 8388608; apply Rabs_le; lra|].
  rewrite (Rabs_left1 (fval x)) in A1, A2 by lra. assert (N0 : fval (fdiv x two_pi) <= 0).
  { destruct two_pi_b as [FT ET]. pose proof TP_bounds. destruct (fdiv_b x two_pi Hx FT) as [_ ED]; [rewrite ET; lra|rewrite ET; apply (small_le_127 0); [lia|]; change (IZR (2 ^ 0)) with 1; apply Rabs_le; split; apply Rmult_le_reg_r with TP; try lra; unfold Rdiv; rewrite Rmult_assoc, Rinv_l by lra; lra|].
    rewrite ED, <- RN_0. apply RN_le. rewrite ET. apply Rmult_le_reg_r with TP; [lra|]. unfold Rdiv. rewrite Rmult_assoc, Rinv_l by lra. lra. }
  destruct (below fuel (fdiv x two_pi) FP) as (r & E & _ & F & A). { apply Rabs_le_inv in A1. split; [nra|exact N0]. }
  exists r. split; [exact E|]. split; [exact F|]. pose proof (sin_close_angle _ _ _ _ _ A A1). lra.
Qed.
Lemma cos_below fuel x : finite_f32 x -> - (15738 / 10 ^ 4) <= fval x <= - (157 / 100) -> exists r c, tcos fuel x = Ok r /\ cos_close fuel x = Ok c /\ finite_f32 r /\ finite_f32 c /\
  Rabs (fval r - cos (fval x)) <= 26 / 10 ^ 7 /\ Rabs (fval c - cos (fval x)) <= 32 / 10 ^ 4.
Proof.
  intros Hx Hr. pose proof PI_bounds as PB. destruct (to_phase x Hx) as (FP & A1 & A2 & _); [change (bpow radix2 23) with 8388608; apply Rabs_le; lra|].
  set (ph := fdiv x two_pi) in *. destruct quarter_b as [FQ EQ]. rewrite (Rabs_left1 (fval x)) in A1, A2 by lra.
  pose proof (Rabs_le_inv _ _ A1) as A1'. assert (P0 : - (250485 / 10 ^ 6) <= fval ph <= - (249 / 1000)) by (split; nra).
  destruct (fadd_b ph quarter FP FQ) as [FA EA]; [rewrite EQ; apply (small_le_127 0); [lia|]; change (IZR (2 ^ 0)) with 1; apply Rabs_le; lra|]. rewrite EQ in EA.
  pose proof (RN_err_mixed (fval ph + / 4)) as RE. rewrite <- EA in RE. pose proof tiny150 as TT. change (bpow radix2 (-24)) with (/ 16777216) in RE.
  assert (HS : Rabs (fval ph + / 4) <= 1 / 1000) by (apply Rabs_le; lra). assert (RE2 : Rabs (fval (fadd ph quarter) - (fval ph + / 4)) <= 1 / 10 ^ 10) by lra. pose proof (Rabs_le_inv _ _ RE2) as RE'.
  assert (AN : Rabs (2 * PI * fval (fadd ph quarter) - (fval x + PI / 2)) <= 144 / 10 ^ 9).
  { replace (2 * PI * fval (fadd ph quarter) - (fval x + PI / 2)) with ((2 * PI * fval ph - fval x) + 2 * PI * (fval (fadd ph quarter) - (fval ph + / 4))) by field.
    apply Rabs_le. nra. }
  assert (EC : cos (fval x) = sin (fval x + PI / 2)) by (rewrite cos_sin; f_equal; ring). rewrite EC.
  destruct (Rle_lt_dec 0 (fval (fadd ph quarter))) as [G|G].
  - destruct (sin_wrap fuel (fadd ph quarter) FA) as (r & c & E & E' & FR & FC & B & B' & AC & AC'); [change (IZR (2 ^ 21)) with 2097152; lra|rewrite plus_IZR; assert (0 <= IZR (Z.of_nat fuel)) by (apply IZR_le; lia); lra|].
    exists r, c. split; [exact E|]. split; [exact E'|]. split; [exact FR|]. split; [exact FC|]. pose proof (sin_close_angle _ _ _ _ _ AC AN). pose proof (sin_close_angle _ _ _ _ _ AC' AN). split; lra.
  - destruct (below fuel (fadd ph quarter) FA ltac:(lra)) as (r & E & E' & FR & AC). exists r, f32_zero. split; [exact E|]. split; [exact E'|]. split; [exact FR|]. split; [apply zero_b|].
    pose proof (sin_close_angle _ _ _ _ _ AC AN). split; [lra|]. destruct zero_b as [_ E0]. rewrite E0. pose proof (sin_abs_le (fval x + PI / 2)) as SA. assert (Rabs (fval x + PI / 2) <= 31 / 10 ^ 4) by (apply Rabs_le; lra).
    rewrite Rminus_0_l, Rabs_Ropp. lra.
Qed.
