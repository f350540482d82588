(* tan just below 0: the first interval of the table is extended to the left. *)
From Coq Require Import Reals Lra Lia ZArith Floats.SpecFloat.
From Flocq Require Import Core.
From Verif.Common Require Import Base Lemmas F32 F32Order F32Real F32Arith.
From Verif.Model Require Import Table MathTables MathLookup.
From Verif.Proofs Require Import Trig ExpLn MathTables SinTable TanTable.
From Verif.Proofs Require Audio.
Open Scope R_scope.

Lemma phase_below x : finite_f32 x -> - (15339 / 10 ^ 7) <= fval x <= 0 ->
  let ph := fdiv x M_PIF in finite_f32 ph /\ - / 2048 < fval ph <= 0 /\ Rabs (PI * fval ph - fval x) <= 1 / 10 ^ 9.
Proof.
  intros Hx Hr ph. destruct pi_f as [FT ET]. pose proof PF_bounds as TB. pose proof PI_bounds as PB.
  set (q := fval x / PF). assert (EX : fval x = q * PF) by (unfold q; field; lra). assert (Q : - (488258 / 10 ^ 9) <= q <= 0).
  { split; apply Rmult_le_reg_r with PF; lra. }
  destruct (fdiv_b x M_PIF Hx FT) as [FP EP]; [rewrite ET; lra|rewrite ET; fold q; apply (small_le_127 0); [lia|]; change (IZR (2 ^ 0)) with 1; apply Rabs_le; lra|].
  rewrite ET in EP. fold q ph in EP. fold ph in FP. pose proof (RN_err_mixed q) as RE. rewrite <- EP in RE. pose proof tiny150 as TT. change (bpow radix2 (-24)) with (/ 16777216) in RE. rewrite (Rabs_left1 q) in RE by lra. apply Rabs_le_inv in RE.
  split; [exact FP|]. split; [split; [lra|]; rewrite EP, <- RN_0; apply RN_le; lra|].
  rewrite EX. replace (PI * fval ph - q * PF) with (PI * (fval ph - q) - q * (PF - PI)) by ring. 
  assert (E1 : - (4 / 10 ^ 11) <= fval ph - q <= 4 / 10 ^ 11) by lra. assert (0 <= - q * (PF - PI) <= 1 / 10 ^ 10) by nra. apply Rabs_le. nra.
Qed.
Lemma tan_below fuel x : finite_f32 x -> - (15339 / 10 ^ 7) <= fval x <= 0 ->
  exists r, ttan fuel x = Ok r /\ tan_close fuel x = Ok f32_zero /\ finite_f32 r /\ Rabs (fval r - tan (fval x)) <= 12 / 10 ^ 6.
Proof.
  intros Hx Hx0. destruct (phase_below x Hx Hx0) as (Hp & Hr & HA). cbn zeta in *. unfold ttan, tan_close. set (ph := fdiv x M_PIF) in *.
  destruct (int_b 2048 ltac:(lia)) as [FL EL]. destruct (int_b 0 ltac:(lia)) as [FZ EZ]. destruct one_b as [FO EO].
  destruct (fmul_b ph (f32_of_int 2048) Hp FL) as [FX EX]; [rewrite EL; apply (small_le_127 0); [lia|]; change (IZR (2 ^ 0)) with 1; apply Rabs_le; lra|].
  rewrite EL in EX. assert (IX : in_f32 (fval ph * 2048)) by (change 2048 with (bpow radix2 11); apply scale_in; [apply fval_in, Hp|lia]). rewrite RN_id in EX by exact IX.
  set (y := fmul ph (f32_of_int 2048)) in *. assert (HT : Ztrunc (fval y) = 0%Z). { rewrite EX, Ztrunc_ceil by lra. apply Zceil_imp. cbn. lra. }
  assert (EU : f32_to_uint 32 y = Ok 0%Z) by (apply Audio.cast_u; [apply FX|exact HT|lia]).
  destruct (fsub_b y (f32_of_int 0) FX FZ) as [FP EP]; [rewrite EZ, EX; apply (small_le_127 0); [lia|]; change (IZR (2 ^ 0)) with 1; apply Rabs_le; lra|].
  rewrite EZ, Rminus_0_r, EX, RN_id in EP by exact IX. set (p := fsub y (f32_of_int 0)) in *.
  assert (N0 : znth tanTable 0 = Some f32_zero) by (unfold tanTable; rewrite znth_map; vm_compute; reflexivity).
  destruct (tan_entry 1 ltac:(lia)) as (d1 & N1 & F1 & B1 & A1). rewrite Rmult_1_l in A1. assert (HW : wrap_loop fuel 2048 0 = Ok 0%Z) by (destruct fuel; reflexivity).
  assert (T : -1 < fval p <= 0) by lra.
  pose proof th_bounds as TB. pose proof (tan_lip 0 th ltac:(lra) ltac:(lra)) as LT. rewrite tan_0, !Rminus_0_r, (Rabs_right th) in LT by lra. apply Rabs_le_inv in A1, LT. assert (D1 : 0 <= fval d1 <= 6 / 1000) by lra.
  assert (DM : - (6 / 1000) <= fval d1 * fval p <= 0) by nra.
  destruct (fmul_b d1 p F1 FP) as [FM EM]; [apply (small_le_127 0); [lia|]; change (IZR (2 ^ 0)) with 1; apply Rabs_le; lra|].
  destruct (fsub_b f32_one p FO FP) as [FQ EQ]; [rewrite EO; apply (small_le_127 1); [lia|]; change (IZR (2 ^ 1)) with 2; apply Rabs_le; lra|].
  destruct zero_b as [F0 E0]. destruct (fmul_b f32_zero (fsub f32_one p) F0 FQ) as [FM0 EM0]; [rewrite E0, Rmult_0_l, Rabs_R0; apply bpow_ge_0|]. rewrite E0, Rmult_0_l, RN_0 in EM0.
  destruct (fadd_b (fmul d1 p) (fmul f32_zero (fsub f32_one p)) FM FM0) as [FR ER].
  { rewrite EM0, Rplus_0_r. apply (small_le_127 0); [lia|]. change (IZR (2 ^ 0)) with 1. rewrite EM. apply Rabs_le. apply RN_between; [apply (in_int (-1)); lia|apply (in_int 1); lia|lra]. }
  rewrite EM0, Rplus_0_r, RN_id in ER by (apply fval_in, FM). rewrite EM in ER.
  eexists. split; [|split; [|split; [exact FR|]]].
  - unfold Finterp_wrap, interp_wrap, interp_by_index_wrap. rewrite tan_len. fold y. rewrite EU. cbn [bind]. rewrite HW. cbn [bind]. unfold blend. rewrite tan_len. change (0 =? 2048 - 1)%Z with false. cbn iota. change (word 32 (0 + 1)) with 1%Z.
    rewrite (rd_ok _ _ _ N1), (rd_ok _ _ _ N0). cbn [bind]. reflexivity.
  - unfold Fclosest_wrap, closest_wrap. rewrite tan_len. fold y. rewrite EU. cbn [bind]. rewrite HW. cbn [bind]. rewrite (rd_ok _ _ _ N0). reflexivity.
  - rewrite ER. pose proof (RN_err_mixed (fval d1 * fval p)) as RE. pose proof tiny150 as TT. change (bpow radix2 (-24)) with (/ 16777216) in RE. rewrite (Rabs_left1 (fval d1 * fval p)) in RE by lra. apply Rabs_le_inv in RE.
    set (s := - fval p). assert (Hs : 0 <= s <= 1) by (unfold s; lra). replace (fval d1 * fval p) with (- (s * fval d1)) in * by (unfold s; ring).
    assert (EA : PI * fval ph = - (s * th)) by (unfold s; rewrite EP; unfold th; field). rewrite EA in HA. apply Rabs_le_inv in HA.
    pose proof (tan_curve 0 th s ltac:(lra) ltac:(lra) ltac:(lra) Hs) as CV. rewrite tan_0, Rmult_0_r, !Rplus_0_l in CV.
    assert (CB : 166 / 100 * (th * th) + 4 * th ^ 3 <= 393 / 10 ^ 8). { assert (th * th <= 1534 / 10 ^ 6 * (1534 / 10 ^ 6)) by (apply Rmult_le_compat; lra). assert (th ^ 3 <= (1534 / 10 ^ 6) ^ 3) by (apply pow_incr; lra). lra. }
    assert (SH : 0 <= s * th <= th) by (split; [apply Rmult_le_pos; lra|rewrite <- (Rmult_1_l th) at 2; apply Rmult_le_compat_r; lra]).
    pose proof (tan_lip (s * th) (- fval x) ltac:(lra) ltac:(lra)) as TL. rewrite tan_neg in TL. assert (TD : Rabs (- fval x - s * th) <= 1 / 10 ^ 9) by (apply Rabs_le; lra).
    assert (TL2 : Rabs (- tan (fval x) - tan (s * th)) <= 4 / 10 ^ 9) by lra. apply Rabs_le_inv in TL2, CV.
    assert (G : - (6 / 10 ^ 6) <= s * (fval d1 - tan th) <= 6 / 10 ^ 6).
    { apply Rabs_le_inv. rewrite Rabs_mult, (Rabs_right s) by lra. apply Rle_trans with (1 * (6 / 10 ^ 6)); [|lra]. apply Rmult_le_compat; [lra|apply Rabs_pos|lra|apply Rabs_le; lra]. }
    apply Rabs_le. lra.
Qed.
