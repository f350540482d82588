(* The float outputs of the oscillators. *)
From Coq Require Import Reals Lra Lia ZArith List Floats.SpecFloat.
From Flocq Require Import Core.
From Verif.Common Require Import Base Lemmas Lists F32 F32Order F32Real F32Arith.
From Verif.Model Require Import MathFloat Table MathTables MathLookup Audio Oscs.
From Verif.Proofs Require Import Trig MathFloat TableF MathTables SinTable.
From Verif.Proofs Require Table Audio Oscs.
Import ListNotations.
Open Scope R_scope.

Lemma p32 : bpow radix2 32 = 4294967296. Proof. reflexivity. Qed.
Lemma m32 : bpow radix2 (-32) = / 4294967296. Proof. reflexivity. Qed.
Lemma u32_b n : (0 <= n < 2 ^ 32)%Z -> finite_f32 (f32_of_int n) /\ fval (f32_of_int n) = RN (IZR n) /\ 0 <= fval (f32_of_int n) <= 4294967296 /\ Rabs (fval (f32_of_int n) - IZR n) <= 128.
Proof.
  intros Hn. assert (B : 0 <= IZR n <= 4294967296) by (split; apply IZR_le; lia).
  assert (R : 0 <= RN (IZR n) <= 4294967296). { split; [rewrite <- RN_0; apply RN_le; lra|]. rewrite <- p32, <- (RN_id (bpow radix2 32)) by (apply in_pow; lia). apply RN_le. rewrite p32. lra. }
  destruct (f32_of_val n 0) as [A F]; change (bpow radix2 0) with 1 in *; rewrite Rmult_1_r in *; [rewrite Rabs_right by lra; apply Rle_lt_trans with (1 := proj2 R); rewrite <- p32; apply bpow_lt; lia|].
  split; [split; [apply f32_of_int_valid|exact F]|]. change (f32_of n 0) with (f32_of_int n) in A. split; [exact A|]. rewrite A. split; [exact R|].
  pose proof (RN_err 32 (IZR n) ltac:(lia) ltac:(rewrite p32; apply Rabs_le; lra)) as E. change (bpow radix2 (32 - 25)) with 128 in E. exact E.
Qed.
Lemma scaled32 n : (0 <= n < 2 ^ 32)%Z -> in_f32 (fval (f32_of_int n) * / 4294967296).
Proof. intros Hn. destruct (u32_b n Hn) as (F & E & R & _). destruct (Req_dec (fval (f32_of_int n)) 0) as [Z0|NZ]; [rewrite Z0, Rmult_0_l; change in_f32 with (generic_format radix2 (FLT_exp (-149) 24)); apply generic_format_0|].
  (* an integer divided by a power of two *)
  rewrite <- m32. pose proof (fval_in _ (proj1 F)) as HF. change in_f32 with (generic_format radix2 (FLT_exp (-149) 24)) in *.
  assert (N1 : 1 <= IZR n). { apply IZR_le. destruct (Z.eq_dec n 0) as [->|]; [exfalso; apply NZ; reflexivity|lia]. } assert (R1 : 1 <= fval (f32_of_int n)). { rewrite E. rewrite <- (RN_id 1) by (apply (in_int 1); lia). apply RN_le. exact N1. }
  apply (generic_format_FLT). unfold generic_format in HF. set (x := fval (f32_of_int n)) in *. set (e := cexp radix2 (FLT_exp (-149) 24) x) in *. set (m := Ztrunc _) in HF.
  assert (EM : (mag radix2 x = e + 24 :> Z)%Z /\ (-23 <= e)%Z). { assert (0 < mag radix2 x)%Z by (apply mag_gt_bpow; rewrite Rabs_right by lra; exact R1). unfold e, cexp, FLT_exp. lia. }
  exists (Float radix2 m (e - 32)); cbn [Fnum Fexp].
  - rewrite HF at 1. unfold F2R. cbn [Fnum Fexp]. rewrite Rmult_assoc, <- bpow_plus. reflexivity.
  - apply lt_IZR. rewrite abs_IZR. change (IZR (Zpower radix2 24)) with (bpow radix2 24). apply Rmult_lt_reg_r with (bpow radix2 e); [apply bpow_gt_0|]. rewrite <- bpow_plus. rewrite <- (Rabs_right (bpow radix2 e)) at 1 by (apply Rle_ge, bpow_ge_0). rewrite <- Rabs_mult. unfold F2R in HF. cbn [Fnum Fexp] in HF. rewrite <- HF. replace (24 + e)%Z with (mag radix2 x : Z) by lia. apply bpow_mag_gt.
  - lia.
Qed.
Lemma max_float : f32_of_int 4294967295 = f32_of 1 32. Proof. vm_compute. reflexivity. Qed.
Lemma conv_float : fdiv f32_one (f32_of_int 4294967295) = f32_of 1 (-32). Proof. vm_compute. reflexivity. Qed.
Lemma p32_b : finite_f32 (f32_of 1 32) /\ fval (f32_of 1 32) = 4294967296.
Proof. split; [split; vm_compute; reflexivity|]. change (fval (f32_of 1 32)) with (IZR 8388608 * bpow radix2 9). change (bpow radix2 9) with 512. lra. Qed.
Lemma m32_b : finite_f32 (f32_of 1 (-32)) /\ fval (f32_of 1 (-32)) = / 4294967296.
Proof. split; [split; vm_compute; reflexivity|]. change (fval (f32_of 1 (-32))) with (IZR 8388608 * bpow radix2 (-55)). change (bpow radix2 (-55)) with (/ 36028797018963968). lra. Qed.

(* PhaseAccum::process_float *)
Lemma phase_float p : (0 <= p < 2 ^ 32)%Z -> let r := phase_to_float p in finite_f32 r /\ 0 <= fval r <= 1 /\ Rabs (fval r - IZR p / IZR (2 ^ 32)) <= / 33554432 /\ (fval r = 1 <-> (2 ^ 32 - 128 <= p)%Z).
Proof.
  intros Hp r. unfold phase_to_float in r. destruct (u32_b p Hp) as (F & E & R & A). destruct m32_b as [FM EM]. unfold r. rewrite conv_float.
  destruct (fmul_b (f32_of_int p) (f32_of 1 (-32)) F FM) as [FR ER]; [rewrite EM; apply (small_le_127 0); [lia|]; change (IZR (2 ^ 0)) with 1; apply Rabs_le; lra|]. rewrite EM, RN_id in ER by (apply scaled32; exact Hp).
  split; [exact FR|]. rewrite ER. split; [lra|]. change (IZR (2 ^ 32)) with 4294967296. apply Rabs_le_inv in A. split; [apply Rabs_le; lra|]. split.
  - intros H. assert (HV : fval (f32_of_int p) = 4294967296) by lra. destruct (Z_le_gt_dec (2 ^ 32 - 128) p) as [|G]; [assumption|exfalso]. assert (L : RN (IZR p) <= RN (IZR (2 ^ 32 - 129))) by (apply RN_le, IZR_le; lia).
    rewrite <- E, HV in L. destruct (f32_of_val (2 ^ 32 - 129) 0) as [B _]; change (bpow radix2 0) with 1 in *; rewrite Rmult_1_r in *; [apply RN_pow_bound; apply (small_le_127 32); [lia|]; rewrite <- abs_IZR; apply IZR_le; lia|]. rewrite <- B in L.
    change (fval (f32_of (2 ^ 32 - 129) 0)) with (IZR 16777215 * bpow radix2 8) in L. change (bpow radix2 8) with 256 in L. lra.
  - intros H. assert (L : RN (IZR (2 ^ 32 - 128)) <= RN (IZR p)) by (apply RN_le, IZR_le; lia). destruct (f32_of_val (2 ^ 32 - 128) 0) as [B _]; change (bpow radix2 0) with 1 in *; rewrite Rmult_1_r in *; [apply RN_pow_bound; apply (small_le_127 32); [lia|]; rewrite <- abs_IZR; apply IZR_le; lia|]. rewrite <- B in L.
    change (fval (f32_of (2 ^ 32 - 128) 0)) with (IZR 8388608 * bpow radix2 9) in L. change (bpow radix2 9) with 512 in L. rewrite <- E in L. lra.
Qed.
(* TriangleOscillator::process_float *)
Lemma triangle_float t : (0 <= t < 2 ^ 32)%Z -> let r := fdiv (f32_of_int t) (f32_of_int 4294967295) in finite_f32 r /\ 0 <= fval r <= 1 /\ Rabs (fval r - IZR t / IZR (2 ^ 32)) <= / 33554432.
Proof.
  intros Ht r. destruct (u32_b t Ht) as (F & E & R & A). destruct p32_b as [FP EP]. unfold r. rewrite max_float.
  destruct (fdiv_b (f32_of_int t) (f32_of 1 32) F FP) as [FR ER]; [rewrite EP; lra|rewrite EP; apply (small_le_127 0); [lia|]; change (IZR (2 ^ 0)) with 1; apply Rabs_le; lra|]. unfold Rdiv in ER. rewrite EP, RN_id in ER by (apply scaled32; exact Ht).
  split; [exact FR|]. rewrite ER. split; [lra|]. change (IZR (2 ^ 32)) with 4294967296. apply Rabs_le_inv in A. apply Rabs_le. lra.
Qed.
(* SineOscillator *)
Lemma half_sum r : finite_f32 r -> Rabs (fval r) <= 1 -> let u := fadd (fmul r (f32_of 1 (-1))) (f32_of 1 (-1)) in finite_f32 u /\ 0 <= fval u <= 1 /\ Rabs (fval u - (/ 2 + fval r / 2)) <= 4 / 10 ^ 8.
Proof.
  intros Fr B u. destruct half_b as [FH EH]. pose proof (Rabs_le_inv _ _ B) as B'. destruct (fmul_b r _ Fr FH) as [FM EM]; [rewrite EH; apply (small_le_127 0); [lia|]; change (IZR (2 ^ 0)) with 1; apply Rabs_le; lra|]. rewrite EH in EM.
  pose proof (RN_err_mixed (fval r * / 2)) as R1. change (bpow radix2 (-24)) with (/ 16777216) in R1. pose proof tiny150 as TT. set (m := fmul r (f32_of 1 (-1))) in *. rewrite <- EM in R1.
  assert (HM : - / 2 <= fval m <= / 2). { rewrite EM. split; [replace (- / 2) with (IZR (-1) * bpow radix2 (Z.opp 1)) by (change (bpow radix2 (Z.opp 1)) with (/ 2); lra)|replace (/ 2) with (IZR 1 * bpow radix2 (Z.opp 1)) by (change (bpow radix2 (Z.opp 1)) with (/ 2); lra)].
    - rewrite <- (RN_id (IZR (-1) * bpow radix2 (Z.opp 1))) by (apply in_grid; lia). apply RN_le. change (bpow radix2 (Z.opp 1)) with (/ 2). lra.
    - rewrite <- (RN_id (IZR 1 * bpow radix2 (Z.opp 1))) at 2 by (apply in_grid; lia). apply RN_le. change (bpow radix2 (Z.opp 1)) with (/ 2). lra. }
  destruct (fadd_b m _ FM FH) as [FU EU]; [rewrite EH; apply (small_le_127 0); [lia|]; change (IZR (2 ^ 0)) with 1; apply Rabs_le; lra|]. rewrite EH in EU. fold u in FU, EU. split; [exact FU|]. 
  split. { rewrite EU. split; [rewrite <- RN_0; apply RN_le; lra|rewrite <- (RN_id 1) by (apply (in_int 1); lia); apply RN_le; lra]. }
  pose proof (RN_err 0 (fval m + / 2) ltac:(lia) ltac:(change (bpow radix2 0) with 1; apply Rabs_le; lra)) as R2. change (bpow radix2 (0 - 25)) with (/ 33554432) in R2. rewrite <- EU in R2.
  (* the product by one half *)
  assert (R3 : Rabs (fval m - fval r * / 2) <= 1 / 10 ^ 30). { destruct (Req_dec (fval m) (fval r * / 2)) as [->|NE]; [rewrite Rminus_diag_eq by reflexivity; rewrite Rabs_R0; lra|].
    destruct (Rle_lt_dec (bpow radix2 (-125)) (Rabs (fval r))) as [L|L].
    - exfalso. apply NE. rewrite EM. apply RN_id. pose proof (fval_in r (proj1 Fr)) as HF. change in_f32 with (generic_format radix2 (FLT_exp (-149) 24)) in *. unfold generic_format in HF. set (e := cexp radix2 (FLT_exp (-149) 24) (fval r)) in *. set (mm := Ztrunc _) in HF.
      assert (EE : (mag radix2 (fval r) = e + 24 :> Z)%Z /\ (-148 <= e)%Z). { assert (-125 < mag radix2 (fval r))%Z by (apply mag_gt_bpow; exact L). unfold e, cexp, FLT_exp. lia. }
      apply generic_format_FLT. exists (Float radix2 mm (e - 1)); cbn [Fnum Fexp]; [|apply lt_IZR; rewrite abs_IZR; change (IZR (Zpower radix2 24)) with (bpow radix2 24); apply Rmult_lt_reg_r with (bpow radix2 e); [apply bpow_gt_0|]; rewrite <- bpow_plus; rewrite <- (Rabs_right (bpow radix2 e)) at 1 by (apply Rle_ge, bpow_ge_0); rewrite <- Rabs_mult; unfold F2R in HF; cbn [Fnum Fexp] in HF; rewrite <- HF; replace (24 + e)%Z with (mag radix2 (fval r) : Z) by lia; apply bpow_mag_gt|lia].
      rewrite HF at 1. unfold F2R. cbn [Fnum Fexp]. change (/ 2) with (bpow radix2 (-1)). rewrite Rmult_assoc, <- bpow_plus. reflexivity.
    - rewrite Rabs_mult, (Rabs_right (/ 2)) in R1 by lra. assert (bpow radix2 (-125) <= 1 / 10 ^ 30) by (apply Rle_trans with (bpow radix2 (-100)); [apply bpow_le; lia|]; change (bpow radix2 (-100)) with (/ 1267650600228229401496703205376); lra).
      assert (T2 : bpow radix2 (-150) <= 1 / 10 ^ 40). { apply Rle_trans with (bpow radix2 (-140)); [apply bpow_le; lia|]. change (bpow radix2 (-140)) with (/ 1393796574908163946345982392040522594123776). lra. } apply Rle_trans with (1 := R1). lra. }
  apply Rabs_le_inv in R2, R3. apply Rabs_le. lra.
Qed.
Definition next_phase (s : osc) : Z := ((phase s + increment s) mod 2 ^ 32)%Z.
Lemma next_range s : (0 <= next_phase s < 2 ^ 32)%Z. Proof. apply Z.mod_pos_bound. lia. Qed.
Lemma sine_out fuel s : (1 <= fuel)%nat -> let w := sin (2 * PI * (IZR (next_phase s) / IZR (2 ^ 32))) in
  exists r u n, sine_process_bipolar fuel s = Ok (osc_update s, r) /\ sine_process_unipolar fuel s = Ok (osc_update s, u) /\ sine_process fuel s = Ok (osc_update s, n) /\
  finite_f32 r /\ Rabs (fval r) <= 1 /\ Rabs (fval r - w) <= 24 / 10 ^ 7 /\
  finite_f32 u /\ 0 <= fval u <= 1 /\ Rabs (fval u - (/ 2 + w / 2)) <= 13 / 10 ^ 7 /\
  (0 <= n <= 4294967040)%Z /\ Rabs (IZR n - IZR (2 ^ 32) * (/ 2 + w / 2)) <= 6200.
Proof.
  intros Hf w. assert (EPh : phase (osc_update s) = next_phase s) by reflexivity. destruct (phase_float (next_phase s) (next_range s)) as (FP & RP & AP & _). cbn zeta in FP, RP, AP. set (p := phase_to_float (next_phase s)) in *.
  assert (F2 : 2 <= IZR (Z.of_nat fuel + 1)) by (apply IZR_le; lia).
  destruct (sin01_correct fuel p FP ltac:(change (IZR (2 ^ 21)) with 2097152; lra) ltac:(lra)) as (r & E & FR & BR & AR).
  assert (AW : Rabs (fval r - w) <= 24 / 10 ^ 7). { apply Rle_trans with (22 / 10 ^ 7 + 19 / 10 ^ 8); [|lra]. unfold w. apply (sin_close_angle _ (fval p)); [exact AR|]. rewrite <- Rmult_minus_distr_l, Rabs_mult. pose proof PI_bounds as PB. rewrite (Rabs_right (2 * PI)) by lra. apply Rle_trans with (2 * PI * / 33554432); [apply Rmult_le_compat_l; lra|lra]. }
  destruct (half_sum r FR BR) as (FU & RU & AU). cbn zeta in FU, RU, AU. set (u := fadd (fmul r (f32_of 1 (-1))) (f32_of 1 (-1))) in *.
  assert (E1 : sine_process_bipolar fuel s = Ok (osc_update s, r)). { unfold sine_process_bipolar, phase_process_float. rewrite EPh. fold p. cbn zeta. unfold sin01 in E. rewrite E. reflexivity. }
  assert (E2 : sine_process_unipolar fuel s = Ok (osc_update s, u)) by (unfold sine_process_unipolar; rewrite E1; reflexivity).
  assert (KB : finite_f32 (f32_of_int 4294967040) /\ fval (f32_of_int 4294967040) = 4294967040). { split; [split; vm_compute; reflexivity|]. change (fval (f32_of_int 4294967040)) with (IZR 16777215 * bpow radix2 8). change (bpow radix2 8) with 256. lra. } destruct KB as [FK EK].
  destruct (fmul_b u _ FU FK) as [FM EM]; [rewrite EK; apply (small_le_127 32); [lia|]; change (IZR (2 ^ 32)) with 4294967296; apply Rabs_le; lra|]. rewrite EK in EM. set (y := fmul u (f32_of_int 4294967040)) in *.
  assert (IK : in_f32 4294967040) by (rewrite <- EK; apply fval_in, FK). assert (RY : 0 <= fval y <= 4294967040). { rewrite EM. split; [rewrite <- RN_0; apply RN_le; lra|]. pose proof (RN_le (fval u * 4294967040) 4294967040 ltac:(lra)) as Q. rewrite (RN_id 4294967040) in Q by exact IK. exact Q. }
  pose proof (RN_err 32 (fval u * 4294967040) ltac:(lia) ltac:(rewrite p32; apply Rabs_le; lra)) as RE. rewrite <- EM in RE. change (bpow radix2 (32 - 25)) with 128 in RE.
  set (n := Ztrunc (fval y)). assert (HN : IZR n <= fval y < IZR n + 1) by (unfold n; rewrite Ztrunc_floor by lra; split; [apply Zfloor_lb|apply Zfloor_ub]).
  assert (NR : (0 <= n <= 4294967040)%Z). { unfold n. rewrite Ztrunc_floor by lra. split; [apply Zfloor_lub; lra|]. apply le_IZR. pose proof (Zfloor_lb (fval y)). lra. }
  exists r, u, n. split; [exact E1|]. split; [exact E2|]. split. { unfold sine_process. rewrite E2. cbn [bind]. fold y. rewrite (cast_val y n (proj2 FM) eq_refl ltac:(lia)). reflexivity. }
  split; [exact FR|]. split; [exact BR|]. split; [exact AW|]. split; [exact FU|]. split; [exact RU|]. apply Rabs_le_inv in AW, AU, RE. assert (AUW : Rabs (fval u - (/ 2 + w / 2)) <= 13 / 10 ^ 7) by (apply Rabs_le; lra).
  split; [exact AUW|]. split; [exact NR|]. apply Rabs_le_inv in AUW. change (IZR (2 ^ 32)) with 4294967296. pose proof (SIN_bound (2 * PI * (IZR (next_phase s) / IZR (2 ^ 32)))) as SB. fold w in SB. apply Rabs_le. lra.
Qed.
(* conversions to an increment *)
Lemma to_inc y : finite_f32 y -> 0 <= fval y < 4294967296 -> exists n, f32_to_uint 32 y = Ok n /\ (0 <= n < 2 ^ 32)%Z /\ IZR n <= fval y < IZR n + 1.
Proof.
  intros Fy R. set (n := Ztrunc (fval y)). assert (HN : IZR n <= fval y < IZR n + 1) by (unfold n; rewrite Ztrunc_floor by lra; split; [apply Zfloor_lb|apply Zfloor_ub]). assert (NR : (0 <= n < 2 ^ 32)%Z) by (unfold n; apply trunc_range; [lra|change (IZR (2 ^ 32)) with 4294967296; lra|lia]).
  exists n. split; [apply cast_val; [apply Fy|reflexivity|exact NR]|]. auto.
Qed.
Lemma too_big y : ffinite y = true -> 4294967296 <= fval y -> f32_to_uint 32 y = UB BadCast.
Proof.
  intros Fy R. unfold f32_to_uint. rewrite trunc_val by exact Fy. assert (2 ^ 32 <= Ztrunc (fval y))%Z. { rewrite Ztrunc_floor by lra. apply Zfloor_lub. change (IZR (2 ^ 32)) with 4294967296. exact R. }
  destruct (Z.leb_spec 0 (Ztrunc (fval y))); [|lia]. destruct (Z.ltb_spec (Ztrunc (fval y)) (2 ^ 32)); [lia|]. reflexivity.
Qed.
Lemma too_small y : ffinite y = true -> fval y <= -1 -> f32_to_uint 32 y = UB BadCast.
Proof.
  intros Fy R. unfold f32_to_uint. rewrite trunc_val by exact Fy. assert (Ztrunc (fval y) <= -1)%Z by (rewrite Ztrunc_ceil by lra; apply Zceil_glb; exact R). destruct (Z.leb_spec 0 (Ztrunc (fval y))); [lia|]. reflexivity.
Qed.
Lemma units_range rate : (1 <= rate < 2 ^ 31)%Z -> (2 <= freq_units rate < 2 ^ 32)%Z.
Proof. intros Hr. unfold freq_units, max_. split; [apply Z.div_le_lower_bound; lia|apply Z.div_lt_upper_bound; lia]. Qed.
Lemma units_float rate : (1 <= rate < 2 ^ 31)%Z -> let u := f32_of_int (freq_units rate) in finite_f32 u /\ 2 <= fval u <= 4294967296 /\ Rabs (fval u - IZR (freq_units rate)) <= / 16777216 * IZR (freq_units rate).
Proof.
  intros Hr u. pose proof (units_range rate Hr) as UR. destruct (u32_b (freq_units rate) ltac:(lia)) as (F & E & R & _). split; [exact F|]. assert (U2 : 2 <= IZR (freq_units rate)) by (apply IZR_le; lia). unfold u.
  split. { split; [|lra]. rewrite E. rewrite <- (RN_id 2) by (apply (in_int 2); lia). apply RN_le. exact U2. }
  rewrite E. pose proof (RN_rel (IZR (freq_units rate))) as RR. rewrite (Rabs_right (IZR (freq_units rate))) in RR by lra. apply RR. apply Rle_trans with 1; [|lra]. change 1 with (bpow radix2 0). apply bpow_le. lia.
Qed.
Lemma triangle_freq rate s freq : (1 <= rate < 2 ^ 31)%Z -> finite_f32 freq -> let want := fval freq * IZR (freq_units rate) in
  (0 <= want <= IZR (2 ^ 32 - 1024) -> exists n, triangle_set_frequency_f rate s freq = Ok (Osc (phase s) n) /\ (0 <= n < 2 ^ 32)%Z /\ Rabs (IZR n - want) <= 1 + 2 / 10 ^ 7 * want) /\
  (IZR (2 ^ 32 + 1024) <= want -> triangle_set_frequency_f rate s freq = UB BadCast) /\
  (want <= -2 -> triangle_set_frequency_f rate s freq = UB BadCast).
Proof.
  intros Hr Hf want. destruct (units_float rate Hr) as (FU & RU & AU). cbn zeta in *. set (uf := f32_of_int (freq_units rate)) in *. set (U := IZR (freq_units rate)) in *. set (f := fval freq) in *.
  assert (U2 : 2 <= U) by (apply IZR_le; pose proof (units_range rate Hr); lia).
  assert (AP : Rabs (f * fval uf - want) <= / 16777216 * Rabs want). { unfold want. rewrite <- Rmult_minus_distr_l, !Rabs_mult. rewrite (Rabs_right U) by lra. replace (/ 16777216 * (Rabs f * U)) with (Rabs f * (/ 16777216 * U)) by ring. apply Rmult_le_compat_l; [apply Rabs_pos|exact AU]. }
  unfold triangle_set_frequency_f. fold uf. change (IZR (2 ^ 32 - 1024)) with 4294966272. change (IZR (2 ^ 32 + 1024)) with 4294968320.
  pose proof (fmul_rounds freq uf (proj1 Hf) (proj1 FU) (proj2 Hf) (proj2 FU)) as HR. fold f in HR. set (y := fmul freq uf) in *.
  assert (VY : valid_f32 y) by (apply fmul_valid; [apply Hf|apply FU]).
  split; [|split].
  - intros W. rewrite (Rabs_right want) in AP by lra. apply Rabs_le_inv in AP. set (pr := f * fval uf) in *. assert (PR : 0 <= pr). { unfold pr. apply Rmult_le_pos; [|lra]. destruct (Rle_lt_dec 0 f); [assumption|exfalso]. assert (f * U < 0) by (clear - r U2; nra). unfold want in W. lra. }
    assert (PB : pr <= 4294966784) by lra. assert (IB : in_f32 4294966784). { replace 4294966784 with (IZR 16777214 * bpow radix2 8) by (change (bpow radix2 8) with 256; lra). apply scale_in; [apply in_int; lia|lia]. }
    assert (YR : 0 <= RN pr <= 4294966784) by (split; [rewrite <- RN_0; apply RN_le; exact PR|rewrite <- (RN_id 4294966784) by exact IB; apply RN_le; exact PB]).
    destruct (fmul_val freq uf (proj1 Hf) (proj1 FU) (proj2 Hf) (proj2 FU)) as [EY FY]; [fold f pr; rewrite Rabs_right by lra; apply Rle_lt_trans with (bpow radix2 32); [rewrite p32; lra|apply bpow_lt; lia]|]. fold f y pr in EY, FY.
    destruct (to_inc y (conj VY FY) ltac:(rewrite EY; lra)) as (n & EN & RNn & AN). exists n. rewrite EN. split; [reflexivity|]. split; [exact RNn|]. rewrite EY in AN.
    pose proof (RN_err_mixed pr) as RE. rewrite (Rabs_right pr) in RE by lra. change (bpow radix2 (-24)) with (/ 16777216) in RE. pose proof tiny150 as TT. apply Rabs_le_inv in RE.
    assert (NU : IZR n <= RN pr < IZR n + 1) by exact AN. 
    apply Rabs_le. destruct (Req_dec want 0) as [Z0|NZ]; [|]. 
    + assert (pr = 0) by lra. subst pr. rewrite H, RN_0 in AN. split; [|lra]. lra.
    + assert (WP : 1 / 10 ^ 20 <= want \/ want < 1 / 10 ^ 20) by lra. destruct WP as [WP|WP]; [lra|]. assert (NL : IZR n < 1) by lra. apply lt_IZR in NL. assert (n = 0%Z) by lia. subst n. lra.
  - intros W. rewrite (Rabs_right want) in AP by lra. apply Rabs_le_inv in AP. destruct HR as [(HB & EY & FY)|(_ & EY)]; [|rewrite EY; destruct (xorb _ _) || idtac; reflexivity].
    rewrite too_big; [reflexivity|exact FY|]. rewrite EY. rewrite <- p32, <- (RN_id (bpow radix2 32)) by (apply in_pow; lia). apply RN_le. rewrite p32. lra.
  - intros W. rewrite (Rabs_left want) in AP by lra. apply Rabs_le_inv in AP. destruct HR as [(HB & EY & FY)|(_ & EY)]; [|rewrite EY; reflexivity].
    rewrite too_small; [reflexivity|exact FY|]. rewrite EY. rewrite <- (RN_id (-1)) by (apply (in_int (-1)); lia). apply RN_le. lra.
Qed.
(* DownCounter::set_period_ms *)
Lemma period_float ms : (0 < ms < 2 ^ 32)%Z -> let t := fdiv (f32_of_int ms) (f32_of_int 1000) in finite_f32 t /\ 0 < fval t <= 4294968 /\ Rabs (fval t - IZR ms / 1000) <= 12 / 10 ^ 8 * (IZR ms / 1000).
Proof.
  intros Hm t. destruct (u32_b ms ltac:(lia)) as (F & E & R & _). destruct (int_b 1000 ltac:(lia)) as [FK EK]. assert (M1 : 1 <= IZR ms) by (apply IZR_le; lia).
  assert (R1 : Rabs (fval (f32_of_int ms) - IZR ms) <= / 16777216 * IZR ms). { rewrite E. pose proof (RN_rel (IZR ms)) as RR. rewrite (Rabs_right (IZR ms)) in RR by lra. apply RR. apply Rle_trans with 1; [|lra]. change 1 with (bpow radix2 0). apply bpow_le. lia. } apply Rabs_le_inv in R1.
  destruct (fdiv_b _ _ F FK) as [FT ET]; [rewrite EK; lra|rewrite EK; apply (small_le_127 32); [lia|]; change (IZR (2 ^ 32)) with 4294967296; apply Rabs_le; lra|]. rewrite EK in ET. fold t in FT, ET. set (v := fval (f32_of_int ms)) in *.
  assert (V1 : 99 / 100 <= v) by lra. assert (R2 : Rabs (RN (v / 1000) - v / 1000) <= / 16777216 * (v / 1000)). { pose proof (RN_rel (v / 1000)) as RR. rewrite (Rabs_right (v / 1000)) in RR by lra. apply RR. apply Rle_trans with (bpow radix2 (-20)); [apply bpow_le; lia|]. change (bpow radix2 (-20)) with (/ 1048576). lra. }
  rewrite <- ET in R2. apply Rabs_le_inv in R2. split; [exact FT|]. assert (IZR ms <= 4294967295) by (apply IZR_le; lia). split; [lra|]. apply Rabs_le. lra.
Qed.
Lemma down_period rate s ms : (1 <= rate < 2 ^ 31)%Z -> (0 < ms < 2 ^ 32)%Z -> let want := IZR (freq_units rate) * 1000 / IZR ms in
  (want <= IZR (2 ^ 32 - 4096) -> exists n, down_set_period_ms rate s ms = Ok (Osc (phase s) n) /\ (0 <= n < 2 ^ 32)%Z /\ Rabs (IZR n - want) <= 1 + 3 / 10 ^ 7 * want) /\
  (want <= 9999 / 10000 -> down_set_period_ms rate s ms = Ok (Osc (phase s) 0)) /\
  (IZR (2 ^ 32 + 4096) <= want -> down_set_period_ms rate s ms = UB BadCast).
Proof.
  intros Hr Hm want. destruct (units_float rate Hr) as (FU & RU & AU). destruct (period_float ms Hm) as (FT & RT & AT). cbn zeta in *. set (uf := f32_of_int (freq_units rate)) in *. set (t := fdiv (f32_of_int ms) (f32_of_int 1000)) in *. set (U := IZR (freq_units rate)) in *. set (T := IZR ms / 1000) in *.
  assert (U2 : 2 <= U) by (apply IZR_le; pose proof (units_range rate Hr); lia). assert (M1 : 1 <= IZR ms) by (apply IZR_le; lia). assert (T0 : / 1000 <= T) by (unfold T; lra). assert (EW : want = U / T) by (unfold want, T; field; lra).
  assert (WP : 0 < want) by (rewrite EW; apply Rdiv_lt_0_compat; lra). assert (UW : U = want * T) by (rewrite EW; field; lra). set (q := fval uf / fval t). assert (UQ : fval uf = q * fval t) by (unfold q; field; lra).
  apply Rabs_le_inv in AU, AT. assert (QP : 0 < q) by (apply Rdiv_lt_0_compat; lra).
  assert (QW : Rabs (q - want) <= 19 / 10 ^ 8 * want).
  { assert (Q1 : q * (T * (1 - 12 / 10 ^ 8)) <= want * T * (1 + / 16777216)) by (apply Rle_trans with (q * fval t); [apply Rmult_le_compat_l; lra|lra]). assert (Q2 : want * T * (1 - / 16777216) <= q * (T * (1 + 12 / 10 ^ 8))) by (apply Rle_trans with (q * fval t); [lra|apply Rmult_le_compat_l; lra]).
    assert (G1 : q * (1 - 12 / 10 ^ 8) <= want * (1 + / 16777216)) by (apply Rmult_le_reg_r with T; lra). assert (G2 : want * (1 - / 16777216) <= q * (1 + 12 / 10 ^ 8)) by (apply Rmult_le_reg_r with T; lra). apply Rabs_le. lra. }
  apply Rabs_le_inv in QW. unfold down_set_period_ms. fold uf t. change (IZR (2 ^ 32 - 4096)) with 4294963200. change (IZR (2 ^ 32 + 4096)) with 4294971392.
  assert (OKC : want <= 4294963200 -> finite_f32 (fdiv uf t) /\ fval (fdiv uf t) = RN q /\ 0 <= RN q <= 4294966784).
  { intros W. assert (IB : in_f32 4294966784). { replace 4294966784 with (IZR 16777214 * bpow radix2 8) by (change (bpow radix2 8) with 256; lra). apply scale_in; [apply in_int; lia|lia]. }
    assert (YR : 0 <= RN q <= 4294966784) by (split; [rewrite <- RN_0; apply RN_le; lra|rewrite <- (RN_id 4294966784) by exact IB; apply RN_le; lra]).
    destruct (fdiv_val uf t (proj1 FU) (proj1 FT) (proj2 FU)) as [EY FY]; [lra|fold q; rewrite Rabs_right by lra; apply Rle_lt_trans with (bpow radix2 32); [rewrite p32; lra|apply bpow_lt; lia]|]. fold q in EY. split; [split; [apply fdiv_valid; [apply FU|apply FT]|exact FY]|]. auto. }
  split; [|split].
  - intros W. destruct (OKC W) as (FY & EY & YR). destruct (to_inc (fdiv uf t) FY ltac:(rewrite EY; lra)) as (n & EN & RNn & AN). exists n. rewrite EN. split; [reflexivity|]. split; [exact RNn|]. rewrite EY in AN.
    pose proof (RN_err_mixed q) as RE. rewrite (Rabs_right q) in RE by lra. change (bpow radix2 (-24)) with (/ 16777216) in RE. pose proof tiny150 as TT. apply Rabs_le_inv in RE. assert (WL : 1 / 10 ^ 12 <= want) by (rewrite EW; apply Rmult_le_reg_r with T; [lra|]; unfold Rdiv at 2; rewrite Rmult_assoc, Rinv_l by lra; assert (T <= 4294968) by (unfold T; assert (IZR ms <= 4294967295) by (apply IZR_le; lia); lra); lra). apply Rabs_le. lra.
  - intros W. destruct (OKC ltac:(lra)) as (FY & EY & YR). destruct (to_inc (fdiv uf t) FY ltac:(rewrite EY; lra)) as (n & EN & RNn & AN). rewrite EN. cbn [bind]. rewrite EY in AN.
    pose proof (RN_err_mixed q) as RE. rewrite (Rabs_right q) in RE by lra. change (bpow radix2 (-24)) with (/ 16777216) in RE. pose proof tiny150 as TT. apply Rabs_le_inv in RE. assert (IZR n < 1) by lra. assert (n < 1)%Z by (apply lt_IZR; exact H). replace n with 0%Z by lia. reflexivity.
  - intros W. destruct (fdiv_rounds uf t (proj1 FU) (proj1 FT) (proj2 FU)) as [(_ & EY & FY)|(_ & EY)]; [lra| |rewrite EY; reflexivity]. fold q in EY.
    rewrite too_big; [reflexivity|exact FY|]. rewrite EY. rewrite <- p32, <- (RN_id (bpow radix2 32)) by (apply in_pow; lia). apply RN_le. rewrite p32. lra.
Qed.
Lemma down_zero rate s : (1 <= rate < 2 ^ 31)%Z -> down_set_period_ms rate s 0 = UB BadCast.
Proof.
  intros Hr. unfold down_set_period_ms. destruct (units_float rate Hr) as (FU & RU & _). cbn zeta in *. change (fdiv (f32_of_int 0) (f32_of_int 1000)) with (S754_zero false). destruct (f32_of_int (freq_units rate)) as [sg| | |sg m e]; destruct FU as [_ FU]; try discriminate FU; [|reflexivity].
  exfalso. change (fval (S754_zero sg)) with 0 in RU. lra.
Qed.
Lemma triangle_out s : let p := ((phase s + increment s) mod 2 ^ 32)%Z in
  exists r, triangle_process_float s = (Osc p (increment s), r) /\ finite_f32 r /\ 0 <= fval r <= 1 /\
    Rabs (fval r - (if (p <? 2 ^ 31)%Z then 2 * (IZR p / IZR (2 ^ 32)) else 2 - 2 * (IZR p / IZR (2 ^ 32)))) <= 4 / 10 ^ 8.
Proof.
  intros p. assert (Hp : (0 <= p < 2 ^ 32)%Z) by (apply Z.mod_pos_bound; lia). 
  assert (HT : (0 <= triangle_val p < 2 ^ 32)%Z /\ triangle_val p = (if p <? 2 ^ 31 then 2 * p else 2 ^ 33 - 1 - 2 * p)%Z).
  { unfold triangle_val, max_, word. change (4294967295 / 2)%Z with 2147483647%Z. destruct (Z.gtb_spec p 2147483647) as [G|G].
    - destruct (Z.ltb_spec p (2 ^ 31)); [lia|]. assert (EM : (p * 2 mod 2 ^ 32 = p * 2 - 2 ^ 32)%Z) by (symmetry; apply (Z.mod_unique_pos _ _ 1); lia). rewrite EM. rewrite Z.mod_small by lia. lia.
    - destruct (Z.ltb_spec p (2 ^ 31)); [|lia]. rewrite Z.mod_small by lia. lia. }
  destruct HT as [HT ET]. destruct (triangle_float _ HT) as (A & B & C). cbn zeta in *. exists (fdiv (f32_of_int (triangle_val p)) (f32_of_int 4294967295)). split; [reflexivity|]. split; [exact A|]. split; [exact B|]. apply Rabs_le_inv in C. rewrite ET in C at 2 4. change (IZR (2 ^ 32)) with 4294967296 in *.
  destruct (p <? 2 ^ 31)%Z; [rewrite mult_IZR in C|rewrite !minus_IZR, mult_IZR in C; change (IZR (2 ^ 33)) with 8589934592 in C]; apply Rabs_le; lra.
Qed.
Lemma down_short rate s ms : (1 <= rate < 2 ^ 31)%Z -> (ms = 0 \/ 0 < ms < 2 ^ 32 /\ ms * rate <= 999 /\ rate <= 10 ^ 6)%Z -> down_set_period_ms rate s ms = UB BadCast.
Proof.
  intros Hr [-> | (Hm & HP & HR)]; [apply down_zero; exact Hr|]. apply (down_period rate s ms Hr Hm). change (IZR (2 ^ 32 + 4096)) with 4294971392.
  assert (M1 : 1 <= IZR ms) by (apply IZR_le; lia). apply Rmult_le_reg_r with (IZR ms); [lra|]. unfold Rdiv. rewrite Rmult_assoc, Rinv_l, Rmult_1_r by lra. rewrite <- !mult_IZR. apply IZR_le.
  unfold freq_units, max_. pose proof (Z.div_mod 4294967295 rate ltac:(lia)) as E. pose proof (Z.mod_pos_bound 4294967295 rate ltac:(lia)) as M. set (u := (4294967295 / rate)%Z) in *. 
  assert (H1 : (4294967296 - rate <= rate * u)%Z) by lia. assert (rate <= 999)%Z by nia. assert (H2 : (4294971392 * (ms * rate) <= 4294971392 * 999)%Z) by lia. nia.
Qed.
