(* tanTable, tan and tan_close; pow9Table. *)
From Coq Require Import Reals Lra Lia ZArith List Floats.SpecFloat.
From Flocq Require Import Core.
From Verif.Common Require Import Base Lemmas Lists F32 F32Order F32Real F32Arith.
From Verif.Model Require Import MathFloat Table MathTables MathLookup Audio.
From Verif.Proofs Require Import Trig MathFloat TableF MathTables SinTable.
Import ListNotations.
Open Scope R_scope.

Lemma sin_micro i : (0 <= i < 2048)%Z -> exists n, znth sinTable_micros i = Some n /\ Rabs (IZR n / 1000000 - sin (IZR i * (PI / 1024))) <= 77 / 10 ^ 8.
Proof.
  intros Hi. destruct (znth_some sinTable_micros i) as [n Hn]; [change (zlen sinTable_micros) with 2048%Z; lia|]. exists n. split; [exact Hn|].
  pose proof (all_ok_nth _ _ _ _ _ sin_checked Hn) as C. rewrite Z.add_0_l in C. unfold entry_ok in C. pose proof (fold_arg_ok i Hi) as FA. destruct (fold_arg i) as [s j]. destruct FA as (Hj & Hs & ->). pose proof (close_ok j _ Hj C) as HC. rewrite mult_IZR in HC.
  apply Rabs_le_inv in HC. apply Rabs_le. destruct Hs as [-> | ->]; lra.
Qed.
(** the entries up to an angle of 1: tan a = sin (2 a) / (1 + cos (2 a)), and both are in the sine table *)
Fixpoint tan_ok (s c t : list Z) : bool := match s, c, t with
  | x :: s, y :: c, z :: t => ((Z.abs (z * (1000000 + y) - x * 1000000) <=? 1400000) && (0 <=? z) && (z <=? 1570000) && tan_ok s c t)%Z
  | _, _, [] => true | _, _, _ => false end.
Lemma tan_ok_nth s : forall c t i x y z, tan_ok s c t = true -> znth s i = Some x -> znth c i = Some y -> znth t i = Some z -> (Z.abs (z * (1000000 + y) - x * 1000000) <= 1400000 /\ 0 <= z <= 1570000)%Z.
Proof.
  induction s as [|a s IH]; intros c t i x y z H E1 E2 E3; [rewrite znth_nil in E1; discriminate|]. destruct c as [|b c]; [rewrite znth_nil in E2; discriminate|]. destruct t as [|d t]; [rewrite znth_nil in E3; discriminate|].
  cbn [tan_ok] in H. apply andb_prop in H. destruct H as [H H4]. pose proof (znth_some_range _ _ _ E1) as R. destruct (Z.eq_dec i 0) as [->|Hi].
  - rewrite znth_cons_0 in E1, E2, E3. injection E1 as <-. injection E2 as <-. injection E3 as <-. lia.
  - rewrite znth_cons_pos in E1, E2, E3 by lia. apply (IH c t (i - 1)%Z x y z); assumption.
Qed.
Lemma tan_checked : tan_ok sinTable_micros (skipn 512 sinTable_micros) (firstn 654 tanTable_micros) = true. Proof. vm_compute. reflexivity. Qed.
Lemma tan_len : zlen tanTable = 2048%Z.
Proof. unfold tanTable. rewrite zlen_map. vm_compute. reflexivity. Qed.
Definition th : R := PI / 2048.
Lemma th_bounds : 15339 / 10 ^ 7 <= th <= 15340 / 10 ^ 7. Proof. pose proof PI_bounds. unfold th. lra. Qed.
Lemma cos_low u : 0 <= u <= 10035 / 10000 -> 536 / 1000 <= cos u <= 1.
Proof.
  intros Hu. pose proof PI_bounds. split; [|apply COS_bound]. destruct (cos_bound (10035 / 10000) 1) as [L _]; try lra. unfold cos_approx, cos_term in L. cbn in L.
  apply Rle_trans with (cos (10035 / 10000)); [lra|]. apply cos_decr_1; lra.
Qed.
Lemma tan_entry i : (0 <= i < 654)%Z -> exists d, znth tanTable i = Some d /\ finite_f32 d /\ 0 <= fval d <= 158 / 100 /\ Rabs (fval d - tan (IZR i * th)) <= 6 / 10 ^ 6.
Proof.
  intros Hi. destruct (sin_micro i ltac:(lia)) as (s & Es & As). destruct (sin_micro (i + 512) ltac:(lia)) as (c & Ec & Ac). destruct (znth_some tanTable_micros i) as [t Et]; [change (zlen tanTable_micros) with 2048%Z; lia|].
  assert (C : (Z.abs (t * (1000000 + c) - s * 1000000) <= 1400000 /\ 0 <= t <= 1570000)%Z).
  { apply (tan_ok_nth _ _ _ i s c t tan_checked Es).
    - change 512%nat with (Z.to_nat 512). rewrite znth_skipn by lia. rewrite Z.add_comm. exact Ec.
    - change 654%nat with (Z.to_nat 654). rewrite znth_firstn by lia. exact Et. }
  destruct C as [C0 C1]. destruct (micro_b t ltac:(lia)) as [FM EM]. exists (micro t). split; [unfold tanTable; rewrite znth_map, Et; reflexivity|]. split; [exact FM|]. rewrite EM.
  assert (T0 : 0 <= IZR t / 1000000 <= 157 / 100) by (destruct C1 as [c1 c2]; apply IZR_le in c1, c2; lra). set (t' := IZR t / 1000000) in *.
  pose proof (RN_err 1 t' ltac:(lia) ltac:(change (bpow radix2 1) with 2; apply Rabs_le; lra)) as RE. change (bpow radix2 (1 - 25)) with (/ 16777216) in RE. apply Rabs_le_inv in RE.
  split. { split; [rewrite <- RN_0; apply RN_le; lra|lra]. }
  pose proof PI_bounds as PB. pose proof th_bounds as TB. assert (I0 : 0 <= IZR i <= 653) by (split; apply IZR_le; lia). set (a := IZR i * th) in *. assert (A0 : 0 <= a <= 10018 / 10000) by (unfold a; nra).
  pose proof (cos_low a ltac:(lra)) as CL. replace (IZR i * (PI / 1024)) with (2 * a) in As by (unfold a, th; field). replace (IZR (i + 512) * (PI / 1024)) with (PI / 2 + 2 * a) in Ac by (rewrite plus_IZR; unfold a, th; field).
  rewrite <- cos_sin in Ac. rewrite sin_2a in As. rewrite cos_2a_cos in Ac. set (S := sin a) in *. set (K := cos a) in *. unfold tan. fold S K.
  set (s' := IZR s / 1000000) in *. set (c' := IZR c / 1000000) in *.
  assert (E : Rabs (t' * (1 + c') - s') <= 14 / 10 ^ 7). { apply Z.abs_le in C0. destruct C0 as [g1 g2]. apply IZR_le in g1, g2. rewrite minus_IZR, !mult_IZR, plus_IZR in g1, g2. unfold t', s', c'. apply Rabs_le. rewrite opp_IZR in g1. lra. }
  apply Rabs_le_inv in As, Ac, E. assert (TC : - (157 / 100 * (77 / 10 ^ 8)) <= t' * (c' - (2 * K * K - 1)) <= 157 / 100 * (77 / 10 ^ 8)).
  { split; [apply Rle_trans with (t' * (- (77 / 10 ^ 8))); [|apply Rmult_le_compat_l; lra]|apply Rle_trans with (t' * (77 / 10 ^ 8)); [apply Rmult_le_compat_l; lra|]]; lra. }
  assert (D : Rabs ((t' - S / K) * (2 * K * K)) <= 338 / 10 ^ 8). { replace ((t' - S / K) * (2 * K * K)) with (t' * (2 * K * K) - 2 * S * K) by (field; lra). apply Rabs_le. lra. }
  assert (K2 : 574 / 1000 <= 2 * K * K) by (assert (536 / 1000 * (536 / 1000) <= K * K) by (apply Rmult_le_compat; lra); lra).
  assert (F : Rabs (t' - S / K) <= 59 / 10 ^ 7). { rewrite Rabs_mult, (Rabs_right (2 * K * K)) in D by lra. pose proof (Rabs_pos (t' - S / K)) as AP. apply Rmult_le_reg_r with (2 * K * K); [lra|]. apply Rle_trans with (1 := D). lra. }
  apply Rabs_le_inv in F. apply Rabs_le. lra.
Qed.

(** linear interpolation of the tangent *)
Lemma tan_diff a b : cos a <> 0 -> cos b <> 0 -> tan b - tan a = sin (b - a) / (cos a * cos b).
Proof. intros Ha Hb. unfold tan. rewrite sin_minus. field. split; assumption. Qed.
Lemma inv_pair c1 c2 : 536 / 1000 <= c1 -> 536 / 1000 <= c2 -> 0 < / (c1 * c2) <= 3481 / 1000.
Proof.
  intros H1 H2. assert (P : 536 / 1000 * (536 / 1000) <= c1 * c2) by (apply Rmult_le_compat; lra). split; [apply Rinv_0_lt_compat; lra|]. apply Rle_trans with (/ (536 / 1000 * (536 / 1000))); [apply Rinv_le; lra|lra].
Qed.
Lemma tan_lip a b : 0 <= a <= 10035 / 10000 -> 0 <= b <= 10035 / 10000 -> Rabs (tan b - tan a) <= 3481 / 1000 * Rabs (b - a).
Proof.
  intros Ha Hb. pose proof (cos_low a Ha). pose proof (cos_low b Hb). rewrite tan_diff by lra. unfold Rdiv. rewrite Rabs_mult, Rmult_comm. pose proof (inv_pair (cos a) (cos b) ltac:(lra) ltac:(lra)) as I. rewrite (Rabs_right (/ _)) by lra. apply Rmult_le_compat; [lra|apply Rabs_pos|lra|apply sin_abs_le].
Qed.
Lemma tan_curve a h t : 0 <= a -> 0 <= h <= 16 / 10000 -> a + h <= 10035 / 10000 -> 0 <= t <= 1 -> Rabs ((1 - t) * tan a + t * tan (a + h) - tan (a + t * h)) <= 166 / 100 * (h * h) + 4 * h ^ 3.
Proof.
  intros Ha Hh Hb Ht. set (u := a + t * h). set (b := a + h). assert (TH : 0 <= t * h <= h) by (apply part_le; lra). pose proof (cos_low a ltac:(lra)) as Ca. pose proof (cos_low u ltac:(unfold u; lra)) as Cu. pose proof (cos_low b ltac:(unfold b; lra)) as Cb.
  replace ((1 - t) * tan a + t * tan b - tan u) with (t * (tan b - tan u) - (1 - t) * (tan u - tan a)) by ring. rewrite !tan_diff by lra. replace (b - u) with ((1 - t) * h) by (unfold b, u; ring). replace (u - a) with (t * h) by (unfold u; ring).
  assert (T2 : 0 <= (1 - t) * h <= h) by (apply part_le; lra). pose proof (sin_small ((1 - t) * h) ltac:(lra)) as S1. pose proof (sin_small (t * h) ltac:(lra)) as S2.
  assert (H3 : 0 <= h ^ 3) by (apply pow_le; lra). assert (Q1 : 0 <= ((1 - t) * h) ^ 3 <= h ^ 3) by (split; [apply pow_le; lra|apply pow_incr; lra]). assert (Q2 : 0 <= (t * h) ^ 3 <= h ^ 3) by (split; [apply pow_le; lra|apply pow_incr; lra]).
  set (s1 := sin ((1 - t) * h)) in *. set (s2 := sin (t * h)) in *. set (ca := cos a) in *. set (cu := cos u) in *. set (cb := cos b) in *.
  pose proof (inv_pair cu cb ltac:(lra) ltac:(lra)) as I1. pose proof (inv_pair ca cu ltac:(lra) ltac:(lra)) as I2. pose proof (inv_pair ca cb ltac:(lra) ltac:(lra)) as I3. set (i1 := / (cu * cb)) in *. set (i2 := / (ca * cu)) in *. set (i3 := / (ca * cb)) in *.
  assert (CD : Rabs (ca - cb) <= h). { unfold ca, cb, b. rewrite !cos_sin. pose proof (sin_lip (PI / 2 + a) (PI / 2 + (a + h))) as SL. replace (PI / 2 + a - (PI / 2 + (a + h))) with (- h) in SL by ring. rewrite Rabs_Ropp, (Rabs_right h) in SL by lra. exact SL. }
  assert (ID : i1 - i2 = (ca - cb) * (i3 * / cu)) by (unfold i1, i2, i3; field; lra). assert (IU : 0 < / cu <= 1866 / 1000) by (split; [apply Rinv_0_lt_compat; lra|apply Rle_trans with (/ (536 / 1000)); [apply Rinv_le; lra|lra]]).
  assert (I3U : 0 <= i3 * / cu <= 65 / 10) by (split; [apply Rmult_le_pos; lra|apply Rle_trans with (3481 / 1000 * (1866 / 1000)); [apply Rmult_le_compat; lra|lra]]).
  assert (DD : Rabs (i1 - i2) <= h * (65 / 10)). { rewrite ID, Rabs_mult, (Rabs_right (i3 * / cu)) by lra. apply Rmult_le_compat; [apply Rabs_pos|lra|exact CD|lra]. }
  unfold Rdiv. fold i1 i2.
  replace (t * (s1 * i1) - (1 - t) * (s2 * i2)) with (t * (1 - t) * h * (i1 - i2) - t * ((1 - t) * h - s1) * i1 + (1 - t) * (t * h - s2) * i2) by ring.
  assert (Hq : 0 <= t * (1 - t) <= / 4) by (split; [apply Rmult_le_pos; lra|]; replace (t * (1 - t)) with (/ 4 - Rsqr (t - / 2)) by (unfold Rsqr; field); pose proof (Rle_0_sqr (t - / 2)); lra).
  assert (M1 : Rabs (t * (1 - t) * h * (i1 - i2)) <= 166 / 100 * (h * h)). { rewrite Rabs_mult, (Rabs_right (t * (1 - t) * h)) by (apply Rle_ge, Rmult_le_pos; lra). apply Rle_trans with (/ 4 * h * (h * (65 / 10))); [apply Rmult_le_compat; [apply Rmult_le_pos; lra|apply Rabs_pos|apply Rmult_le_compat_r; lra|exact DD]|]. assert (0 <= h * h) by (apply Rmult_le_pos; lra). lra. }
  assert (E1 : 0 <= t * ((1 - t) * h - s1) <= h ^ 3 / 6). { split; [apply Rmult_le_pos; lra|]. rewrite <- (Rmult_1_l (h ^ 3 / 6)). apply Rmult_le_compat; lra. }
  assert (E2 : 0 <= (1 - t) * (t * h - s2) <= h ^ 3 / 6). { split; [apply Rmult_le_pos; lra|]. rewrite <- (Rmult_1_l (h ^ 3 / 6)). apply Rmult_le_compat; lra. }
  assert (M2 : 0 <= t * ((1 - t) * h - s1) * i1 <= h ^ 3 / 6 * (3481 / 1000)) by (split; [apply Rmult_le_pos; lra|apply Rmult_le_compat; lra]). assert (M3 : 0 <= (1 - t) * (t * h - s2) * i2 <= h ^ 3 / 6 * (3481 / 1000)) by (split; [apply Rmult_le_pos; lra|apply Rmult_le_compat; lra]).
  apply Rabs_le_inv in M1. apply Rabs_le. lra.
Qed.

Definition PF : R := 13176795 / 4194304.
Lemma pi_f : finite_f32 M_PIF /\ fval M_PIF = PF.
Proof. split; [split; vm_compute; reflexivity|]. change (fval M_PIF) with (IZR 13176795 * bpow radix2 (-22)). unfold PF. change (bpow radix2 (-22)) with (/ 4194304). lra. Qed.
Lemma PF_bounds : 8 / 10 ^ 8 <= PF - PI <= 9 / 10 ^ 8. Proof. unfold PF. pose proof PI_bounds. lra. Qed.
Lemma tan_phase x : finite_f32 x -> 0 <= fval x <= 2 -> let ph := fdiv x M_PIF in finite_f32 ph /\ 0 <= fval ph < 1 /\ Rabs (PI * fval ph - fval x) <= 2 / 10 ^ 7.
Proof.
  intros Hx Hr ph. destruct pi_f as [FP EP]. pose proof PF_bounds as PB. pose proof PI_bounds as PI3.
  assert (DB : 0 <= fval x / PF <= 2 / 3). { split; [apply Rmult_le_pos; [lra|left; apply Rinv_0_lt_compat; lra]|]. apply Rmult_le_reg_r with PF; [lra|]. unfold Rdiv at 1. rewrite Rmult_assoc, Rinv_l by lra. lra. }
  destruct (fdiv_b x M_PIF Hx FP) as [FD ED]; [rewrite EP; lra|rewrite EP; apply (small_le_127 0); [lia|]; change (IZR (2 ^ 0)) with 1; apply Rabs_le; lra|]. rewrite EP in ED. fold ph in FD, ED. split; [exact FD|].
  pose proof (RN_err 0 (fval x / PF) ltac:(lia) ltac:(change (bpow radix2 0) with 1; apply Rabs_le; lra)) as RE. change (bpow radix2 (0 - 25)) with (/ 33554432) in RE. rewrite <- ED in RE. apply Rabs_le_inv in RE.
  split. { split; [rewrite ED, <- RN_0; apply RN_le; lra|lra]. }
  set (q := fval x / PF) in *. assert (EX : fval x = q * PF) by (unfold q; field; lra). rewrite EX. replace (PI * fval ph - q * PF) with (PI * (fval ph - q) - q * (PF - PI)) by ring.
  assert (A : PI * (- / 33554432) <= PI * (fval ph - q) <= PI * / 33554432) by (split; apply Rmult_le_compat_l; lra). assert (B : 0 <= q * (PF - PI) <= 2 / 3 * (9 / 10 ^ 8)) by (split; [apply Rmult_le_pos; lra|apply Rmult_le_compat; lra]). apply Rabs_le. lra.
Qed.
Lemma tan_correct fuel x : finite_f32 x -> 0 <= fval x <= 1 ->
  exists r c, ttan fuel x = Ok r /\ tan_close fuel x = Ok c /\ finite_f32 r /\ finite_f32 c /\ Rabs (fval r - tan (fval x)) <= 12 / 10 ^ 6 /\ Rabs (fval c - tan (fval x)) <= 54 / 10 ^ 4.
Proof.
  intros Hx Hr. destruct (tan_phase x Hx ltac:(lra)) as (FP & RP & AP). cbn zeta in *. unfold ttan, tan_close. set (ph := fdiv x M_PIF) in *. set (i := Ztrunc (fval ph * IZR (zlen tanTable))).
  assert (Hr' : 0 <= fval ph < bpow radix2 (32 - 11)) by (change (bpow radix2 (32 - 11)) with 2097152; lra). assert (HF : fval ph < IZR (Z.of_nat fuel + 1)) by (apply Rlt_le_trans with 1; [lra|apply IZR_le; lia]).
  destruct (wrap_index tanTable ph 11 tan_len ltac:(lia) FP Hr') as (_ & _ & _ & HI & HB). fold i in HI, HB. rewrite tan_len in HB. pose proof PI_bounds as PB. pose proof th_bounds as TB. apply Rabs_le_inv in AP.
  assert (PH : fval ph <= 3184 / 10000) by (apply Rmult_le_reg_l with PI; lra). assert (I652 : (i < 653)%Z) by (apply lt_IZR; lra).
  destruct (tan_entry i ltac:(lia)) as (d0 & N0 & F0 & B0 & A0). destruct (tan_entry (i + 1) ltac:(lia)) as (d1 & N1 & F1 & B1 & A1).
  destruct (interp_wrap_val fuel tanTable ph 11 i tan_len ltac:(lia) FP Hr' HF eq_refl d0 d1) as (p & Fp & EP & Rp & ER & EC); [change (2 ^ 11)%Z with 2048%Z; rewrite Z.mod_small by lia; exact N0|change (2 ^ 11)%Z with 2048%Z; rewrite Z.mod_small by lia; exact N1|]. rewrite tan_len in EP.
  exists (finterpolate d0 d1 p), d0. split; [exact ER|]. split; [exact EC|]. set (t := fval p) in *.
  assert (P0 : Rabs (fval d0) <= bpow radix2 1) by (change (bpow radix2 1) with 2; apply Rabs_le; lra). assert (P1 : Rabs (fval d1) <= bpow radix2 1) by (change (bpow radix2 1) with 2; apply Rabs_le; lra).
  destruct (interp_val 1 d0 d1 p ltac:(lia) F0 F1 Fp P0 P1 ltac:(fold t; lra)) as (FR & _ & _). split; [exact FR|]. split; [exact F0|].
  pose proof (interp_accurate 1 d0 d1 p ltac:(lia) F0 F1 Fp P0 P1 ltac:(fold t; lra)) as AC. fold t in AC. change (bpow radix2 (1 - 25)) with (/ 16777216) in AC.
  assert (I0 : 0 <= IZR i <= 652) by (split; apply IZR_le; lia). rewrite plus_IZR in A1. set (a := IZR i * th) in *. replace ((IZR i + 1) * th) with (a + th) in A1 by (unfold a; ring).
  assert (A0' : 0 <= a) by (unfold a; apply Rmult_le_pos; lra). assert (AB : a + th <= 10035 / 10000) by (replace (a + th) with ((IZR i + 1) * th) by (unfold a; ring); apply Rle_trans with (653 * th); [apply Rmult_le_compat_r; lra|lra]).
  assert (EPh : PI * fval ph = a + t * th) by (unfold a, th; rewrite EP; field). rewrite EPh in AP. assert (TT : 0 <= t * th <= th) by (apply part_le; lra).
  pose proof (tan_curve a th t A0' ltac:(lra) AB ltac:(lra)) as CV. assert (CB : 166 / 100 * (th * th) + 4 * th ^ 3 <= 393 / 10 ^ 8). { assert (th * th <= 1534 / 10 ^ 6 * (1534 / 10 ^ 6)) by (apply Rmult_le_compat; lra). assert (th ^ 3 <= (1534 / 10 ^ 6) ^ 3) by (apply pow_incr; lra). lra. }
  pose proof (tan_lip (a + t * th) (fval x) ltac:(lra) ltac:(lra)) as TL. assert (TD : Rabs (fval x - (a + t * th)) <= 2 / 10 ^ 7) by (apply Rabs_le; lra).
  assert (TL2 : Rabs (tan (fval x) - tan (a + t * th)) <= 7 / 10 ^ 7) by lra. apply Rabs_le_inv in TL2, CV, AC, A0, A1. split.
  - assert (G0 : (1 - t) * (- (6 / 10 ^ 6)) <= (1 - t) * (fval d0 - tan a) <= (1 - t) * (6 / 10 ^ 6)) by (split; apply Rmult_le_compat_l; lra). assert (G1 : t * (- (6 / 10 ^ 6)) <= t * (fval d1 - tan (a + th)) <= t * (6 / 10 ^ 6)) by (split; apply Rmult_le_compat_l; lra). apply Rabs_le. lra.
  - pose proof (tan_lip (a + t * th) a ltac:(lra) ltac:(lra)) as L. replace (a - (a + t * th)) with (- (t * th)) in L by ring. rewrite Rabs_Ropp, (Rabs_right (t * th)) in L by lra. apply Rabs_le_inv in L. apply Rabs_le. lra.
Qed.
(** just below a right angle the result has the wrong sign *)
Lemma entry_1023 : znth tanTable 1023 = Some (micro 651914856) /\ znth tanTable 1024 = Some (micro (-22877334000000)).
Proof. split; unfold tanTable; rewrite znth_map; vm_compute; reflexivity. Qed.
Lemma tan_wrong_sign fuel x : finite_f32 x -> 15695 / 10000 <= fval x <= 15707 / 10000 -> 0 < tan (fval x) /\ exists r, ttan fuel x = Ok r /\ finite_f32 r /\ fval r <= - (10 ^ 6).
Proof.
  intros Hx Hr. pose proof PI_bounds as PB. split; [apply tan_gt_0; lra|]. destruct (tan_phase x Hx ltac:(lra)) as (FP & RP & AP). cbn zeta in *. unfold ttan. set (ph := fdiv x M_PIF) in *. apply Rabs_le_inv in AP.
  assert (PH : 49958 / 100000 <= fval ph <= 49998 / 100000) by (split; apply Rmult_le_reg_l with PI; lra).
  assert (EI : Ztrunc (fval ph * IZR (zlen tanTable)) = 1023%Z) by (rewrite tan_len, Ztrunc_floor by lra; apply Zfloor_imp; change (IZR (1023 + 1)) with 1024; lra).
  assert (Hr' : 0 <= fval ph < bpow radix2 (32 - 11)) by (change (bpow radix2 (32 - 11)) with 2097152; lra). assert (HF : fval ph < IZR (Z.of_nat fuel + 1)) by (apply Rlt_le_trans with 1; [lra|apply IZR_le; lia]).
  destruct entry_1023 as [N0 N1]. destruct (micro_b 651914856 ltac:(lia)) as [F0 E0]. destruct (micro_b (-22877334000000) ltac:(lia)) as [F1 E1]. set (d0 := micro 651914856) in *. set (d1 := micro (-22877334000000)) in *.
  destruct (interp_wrap_val fuel tanTable ph 11 1023 tan_len ltac:(lia) FP Hr' HF ltac:(symmetry; exact EI) d0 d1 N0 N1) as (p & Fp & EP & Rp & ER & _). rewrite tan_len in EP. exists (finterpolate d0 d1 p). split; [exact ER|].
  pose proof (RN_err 10 (IZR 651914856 / 1000000) ltac:(lia) ltac:(change (bpow radix2 10) with 1024; apply Rabs_le; lra)) as R0. change (bpow radix2 (10 - 25)) with (/ 32768) in R0. rewrite <- E0 in R0.
  pose proof (RN_err 25 (IZR (-22877334000000) / 1000000) ltac:(lia) ltac:(change (bpow radix2 25) with 33554432; apply Rabs_le; lra)) as R1. change (bpow radix2 (25 - 25)) with 1 in R1. rewrite <- E1 in R1. apply Rabs_le_inv in R0, R1.
  assert (P0 : Rabs (fval d0) <= bpow radix2 25) by (change (bpow radix2 25) with 33554432; apply Rabs_le; lra). assert (P1 : Rabs (fval d1) <= bpow radix2 25) by (change (bpow radix2 25) with 33554432; apply Rabs_le; lra).
  destruct (interp_val 25 d0 d1 p ltac:(lia) F0 F1 Fp P0 P1 ltac:(lra)) as (FR & _ & _). split; [exact FR|]. pose proof (interp_accurate 25 d0 d1 p ltac:(lia) F0 F1 Fp P0 P1 ltac:(lra)) as AC. change (bpow radix2 (25 - 25)) with 1 in AC. apply Rabs_le_inv in AC. set (t := fval p) in *.
  assert (T0 : 13 / 100 <= t) by lra. assert (TD : t * (fval d1 - fval d0) <= 13 / 100 * (fval d1 - fval d0)) by (clear - T0 R0 R1; nra). lra.
Qed.
Lemma tan_neg_ub fuel x : finite_f32 x -> fval x <= - (1534 / 10 ^ 6) -> ttan fuel x = UB BadCast /\ tan_close fuel x = UB BadCast.
Proof.
  intros Hx H. destruct pi_f as [[VT FT] ET]. pose proof PF_bounds as TB. pose proof PI_bounds as PB. unfold ttan, tan_close.
  destruct (fdiv_rounds x M_PIF (proj1 Hx) VT (proj2 Hx)) as [(_ & E & F)|(_ & E)]; [rewrite ET; lra| |]; rewrite ET in E.
  - apply wrap_negative_ub; [rewrite tan_len; lia|split; [apply fdiv_valid; [apply Hx|exact VT]|exact F]|]. rewrite tan_len, E.
    assert (RN (fval x / PF) <= IZR (-1) * bpow radix2 (- 11)). { apply (RN_half_le _ (-1) 11); try lia. change (bpow radix2 (Z.opp 11)) with (/ 2048). apply Rmult_le_reg_r with PF; [lra|]. unfold Rdiv. rewrite Rmult_assoc, Rinv_l by lra. lra. }
    change (bpow radix2 (- 11)) with (/ 2048) in *. lra.
  - rewrite E. apply wrap_not_finite_ub; [rewrite tan_len; lia|reflexivity].
Qed.

(** pow9Table: the entries are powers 8.8, not 9; v = x^8.8 when v^5 = x^44 *)
Definition K44 : Z := Eval vm_compute in (2047 ^ 44)%Z.
Definition K40 : Z := Eval vm_compute in (10 ^ 40)%Z.
Definition K44s : Z := Eval vm_compute in (2047 ^ 44 / 2 ^ 360)%Z.
Definition p5 (z : Z) : Z := (let s := z * z in s * s * z)%Z.
Definition p44 (z : Z) : Z := (let a := z * z in let b := a * a in let c := b * b in let d := c * c in d * d * c * b)%Z.
Definition pow_ok (i n : Z) : bool :=
  let q := Z.shiftr (p44 i) 360 in
  ((p5 (Z.max 0 (100 * n - 58)) * (K44s + 1) <=? K40 * q) && (K40 * (q + 1) <=? p5 (100 * n + 58) * K44s) && (0 <=? n) && (n <=? 1000000))%Z.
Lemma pow_checked : all_ok pow_ok 0 pow9Table_micros = true. Proof. vm_compute. reflexivity. Qed.
Lemma scaled_le a b k ks k4 p q : forall m, (0 < m)%Z -> (0 <= a)%Z -> (0 <= b)%Z -> (0 <= k4)%Z -> (ks * m <= k)%Z -> (k <= (ks + 1) * m)%Z -> (q * m <= p)%Z -> (p <= (q + 1) * m)%Z ->
  (a * (ks + 1) <= k4 * q)%Z -> (k4 * (q + 1) <= b * ks)%Z -> (a * k <= k4 * p /\ k4 * p <= b * k)%Z.
Proof.
  intros m S PA PB K0 K1 K2 M1 M2 C1 C2. split.
  - apply Z.le_trans with (a * ((ks + 1) * m))%Z; [apply Z.mul_le_mono_nonneg_l; lia|]. apply Z.le_trans with (k4 * (q * m))%Z; [|apply Z.mul_le_mono_nonneg_l; lia]. rewrite !Z.mul_assoc. apply Z.mul_le_mono_nonneg_r; lia.
  - apply Z.le_trans with (k4 * ((q + 1) * m))%Z; [apply Z.mul_le_mono_nonneg_l; lia|]. apply Z.le_trans with (b * (ks * m))%Z; [|apply Z.mul_le_mono_nonneg_l; lia]. rewrite !Z.mul_assoc. apply Z.mul_le_mono_nonneg_r; lia.
Qed.
Lemma pow_ok_exact i n : pow_ok i n = true -> (p5 (Z.max 0 (100 * n - 58)) * K44 <= K40 * p44 i /\ K40 * p44 i <= p5 (100 * n + 58) * K44 /\ 0 <= n <= 1000000)%Z.
Proof.
  unfold pow_ok. cbv zeta. rewrite Z.shiftr_div_pow2 by lia. intros C. apply andb_prop in C. destruct C as [C C4]. apply andb_prop in C. destruct C as [C C3]. apply andb_prop in C. destruct C as [C1 C2]. apply Z.leb_le in C1, C2, C3, C4.
  assert (S : (0 < 2 ^ 360)%Z) by reflexivity. assert (K1 : (K44s * 2 ^ 360 <= K44)%Z) by (vm_compute; discriminate). assert (K2 : (K44 <= (K44s + 1) * 2 ^ 360)%Z) by (vm_compute; discriminate). assert (K0 : (0 <= K40)%Z) by (vm_compute; discriminate).
  pose proof (Z.div_mod (p44 i) (2 ^ 360) ltac:(discriminate)) as DM. pose proof (Z.mod_pos_bound (p44 i) (2 ^ 360) S) as MB.
  assert (P5 : forall z, (0 <= z -> 0 <= p5 z)%Z) by (intros z Hz; unfold p5; nia). pose proof (P5 (Z.max 0 (100 * n - 58)) ltac:(lia)) as PA. pose proof (P5 (100 * n + 58)%Z ltac:(lia)) as PB.
  assert (M1 : (p44 i / 2 ^ 360 * 2 ^ 360 <= p44 i)%Z) by (rewrite Z.mul_comm; apply Z.mul_div_le; reflexivity). assert (M2 : (p44 i <= (p44 i / 2 ^ 360 + 1) * 2 ^ 360)%Z) by (rewrite Z.mul_add_distr_r, Z.mul_comm; rewrite DM at 1; lia).
  destruct (scaled_le _ _ _ _ _ _ _ _ S PA PB K0 K1 K2 M1 M2 C1 C2) as [R1 R2]. split; [exact R1|]. split; [exact R2|lia].
Qed.
Lemma K44_eq : K44 = (2047 ^ 44)%Z. Proof. vm_compute. reflexivity. Qed.
Lemma K40_eq : K40 = (100000000 ^ 5)%Z. Proof. vm_compute. reflexivity. Qed.
Lemma p5_R z : IZR (p5 z) = IZR z ^ 5. Proof. unfold p5. rewrite !mult_IZR. ring. Qed.
Lemma p44_R z : IZR (p44 z) = IZR z ^ 44. Proof. unfold p44. rewrite !mult_IZR. ring. Qed.
Lemma pow_lt_inv n x y : (0 < n)%nat -> 0 <= x -> 0 <= y -> x ^ n <= y ^ n -> x <= y.
Proof. intros Hn Hx Hy H. destruct (Rle_lt_dec x y) as [|L]; [assumption|exfalso]. assert (y ^ n < x ^ n); [|lra]. clear H. induction n as [|n IH]; [lia|]. destruct n as [|n]; [rewrite !pow_1; exact L|]. cbn [pow] in *. specialize (IH ltac:(lia)). apply Rle_lt_trans with (y * (x * x ^ n)); [apply Rmult_le_compat_l; lra|]. apply Rmult_lt_compat_r; [|exact L]. apply Rle_lt_trans with (2 := IH). apply Rmult_le_pos; [lra|apply pow_le; lra]. Qed.
(* x to the power 8.8 *)
Lemma pow88 x : 0 < x -> Rpower x (88 / 10) ^ 5 = x ^ 44.
Proof. intros Hx. rewrite <- Rpower_pow by (apply exp_pos). rewrite Rpower_mult. replace (88 / 10 * INR 5) with (INR 44) by (rewrite !INR_IZR_INZ; cbn [Z.of_nat Pos.of_succ_nat Pos.succ]; lra). apply Rpower_pow. exact Hx. Qed.
Lemma pow_len : zlen pow9Table = 2048%Z.
Proof. unfold pow9Table. rewrite zlen_map. vm_compute. reflexivity. Qed.
Lemma pow_entry i : (0 < i < 2048)%Z -> exists d, znth pow9Table i = Some d /\ finite_f32 d /\ 0 <= fval d <= 1 /\ Rabs (fval d - Rpower (IZR i / 2047) (88 / 10)) <= 62 / 10 ^ 8.
Proof.
  intros Hi. destruct (znth_some pow9Table_micros i) as [n Hn]; [change (zlen pow9Table_micros) with 2048%Z; lia|]. pose proof (all_ok_nth _ _ _ _ _ pow_checked Hn) as C. rewrite Z.add_0_l in C. destruct (pow_ok_exact _ _ C) as (C1 & C2 & C3 & C4). clear C.
  apply IZR_le in C1, C2. rewrite !mult_IZR, !p5_R, p44_R, K44_eq, K40_eq in C1, C2.
  change (100000000 ^ 5)%Z with (100000000 ^ Z.of_nat 5)%Z in C1, C2. change (2047 ^ 44)%Z with (2047 ^ Z.of_nat 44)%Z in C1, C2. rewrite <- !pow_IZR in C1, C2.
  destruct (micro_b n ltac:(lia)) as [FM EM]. exists (micro n). split; [unfold pow9Table; rewrite znth_map, Hn; reflexivity|]. split; [exact FM|]. rewrite EM.
  assert (V0 : 0 <= IZR n / 1000000 <= 1) by (apply IZR_le in C3, C4; lra). set (v := IZR n / 1000000) in *.
  split. { split; [rewrite <- RN_0; apply RN_le; lra|rewrite <- (RN_id 1) by (apply (in_int 1); lia); apply RN_le; lra]. }
  assert (X0 : 0 < IZR i / 2047) by (assert (1 <= IZR i) by (apply IZR_le; lia); lra). set (x := IZR i / 2047) in *. pose proof (pow88 x X0) as E. set (y := Rpower x (88 / 10)) in *. assert (Y0 : 0 < y) by apply exp_pos.
  assert (EI : IZR i = x * 2047) by (unfold x; field). rewrite EI, Rpow_mult_distr in C1, C2. set (k := 2047 ^ 44) in *. assert (KP : 0 < k) by (apply pow_lt; lra).
  assert (L : v - 58 / 10 ^ 8 <= y). { apply Rle_trans with (IZR (Z.max 0 (100 * n - 58)) / 100000000). { assert (H : IZR (100 * n - 58) <= IZR (Z.max 0 (100 * n - 58))) by (apply IZR_le; lia). rewrite minus_IZR, mult_IZR in H. unfold v. lra. }
    assert (M0 : 0 <= IZR (Z.max 0 (100 * n - 58))) by (apply IZR_le; lia). set (z := IZR (Z.max 0 (100 * n - 58))) in *. apply Rmult_le_reg_r with 100000000; [lra|]. replace (z / 100000000 * 100000000) with z by field. apply (pow_lt_inv 5); [lia|lra|lra|]. rewrite Rpow_mult_distr, E. apply Rmult_le_reg_r with k; [exact KP|]. apply Rle_trans with (1 := C1). lra. }
  assert (U : y <= v + 58 / 10 ^ 8). { apply Rle_trans with (IZR (100 * n + 58) / 100000000); [|rewrite plus_IZR, mult_IZR; unfold v; lra].
    assert (M0 : 0 <= IZR (100 * n + 58)) by (apply IZR_le; lia). set (z := IZR (100 * n + 58)) in *. apply Rmult_le_reg_r with 100000000; [lra|]. replace (z / 100000000 * 100000000) with z by field. apply (pow_lt_inv 5); [lia|lra|lra|]. rewrite Rpow_mult_distr, E. apply Rmult_le_reg_r with k; [exact KP|]. apply Rle_trans with (2 := C2). lra. }
  pose proof (RN_err 0 v ltac:(lia) ltac:(change (bpow radix2 0) with 1; apply Rabs_le; lra)) as RE. change (bpow radix2 (0 - 25)) with (/ 33554432) in RE. apply Rabs_le_inv in RE. apply Rabs_le. lra.
Qed.
Lemma pow_entry_0 : znth pow9Table 0 = Some f32_zero. Proof. unfold pow9Table. rewrite znth_map. vm_compute. reflexivity. Qed.
(* half way along the table the ninth power is about .00196, the entry about .00225 *)
Lemma pow_not_nine : exists d, znth pow9Table 1024 = Some d /\ finite_f32 d /\ fval d >= (1024 / 2047) ^ 9 + 28 / 10 ^ 5.
Proof.
  exists (micro 2253). split; [unfold pow9Table; rewrite znth_map; vm_compute; reflexivity|]. destruct (micro_b 2253 ltac:(lia)) as [F E]. split; [exact F|]. rewrite E.
  pose proof (RN_err 0 (IZR 2253 / 1000000) ltac:(lia) ltac:(change (bpow radix2 0) with 1; apply Rabs_le; lra)) as RE. change (bpow radix2 (0 - 25)) with (/ 33554432) in RE. apply Rabs_le_inv in RE. assert ((1024 / 2047) ^ 9 <= 1962 / 10 ^ 6) by lra. lra.
Qed.
