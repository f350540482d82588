(* tan and tan_close up to an angle of 1.4; the same steps as in TanTable.v with coarser bounds. *)
From Coq Require Import Reals Lra Lia ZArith List Floats.SpecFloat.
From Flocq Require Import Core.
From Verif.Common Require Import Base Lemmas Lists F32 F32Order F32Real F32Arith.
From Verif.Model Require Import MathFloat Table MathTables MathLookup Audio.
From Verif.Proofs Require Import Trig MathFloat TableF MathTables SinTable TanTable.
Import ListNotations.
Open Scope R_scope.

Fixpoint tan_ok_hi (s c t : list Z) : bool := match s, c, t with
  | x :: s, y :: c, z :: t => ((Z.abs (z * (1000000 + y) - x * 1000000) <=? 3100000) && (0 <=? z) && (z <=? 5900000) && tan_ok_hi s c t)%Z
  | _, _, [] => true | _, _, _ => false end.
Lemma hi_nth s : forall c t i x y z, tan_ok_hi s c t = true -> znth s i = Some x -> znth c i = Some y -> znth t i = Some z -> (Z.abs (z * (1000000 + y) - x * 1000000) <= 3100000 /\ 0 <= z <= 5900000)%Z.
Proof.
  induction s as [|a s IH]; intros c t i x y z H E1 E2 E3; [rewrite znth_nil in E1; discriminate|]. destruct c as [|b c]; [rewrite znth_nil in E2; discriminate|]. destruct t as [|d t]; [rewrite znth_nil in E3; discriminate|].
  cbn [tan_ok_hi] in H. apply andb_prop in H. destruct H as [H H4]. pose proof (znth_some_range _ _ _ E1) as R. destruct (Z.eq_dec i 0) as [->|Hi].
  - rewrite znth_cons_0 in E1, E2, E3. injection E1 as <-. injection E2 as <-. injection E3 as <-. lia.
  - rewrite znth_cons_pos in E1, E2, E3 by lia. apply (IH c t (i - 1)%Z x y z); assumption.
Qed.
Lemma hi_checked : tan_ok_hi sinTable_micros (skipn 512 sinTable_micros) (firstn 915 tanTable_micros) = true. Proof. vm_compute. reflexivity. Qed.
Lemma hi_cos_low u : 0 <= u <= 14035 / 10000 -> 166 / 1000 <= cos u <= 1.
Proof.
  intros Hu. pose proof PI_bounds. split; [|apply COS_bound]. destruct (cos_bound (14035 / 10000) 1) as [L _]; try lra. unfold cos_approx, cos_term in L. cbn in L.
  apply Rle_trans with (cos (14035 / 10000)); [lra|]. apply cos_decr_1; lra.
Qed.
Lemma hi_tan_entry i : (0 <= i < 915)%Z -> exists d, znth tanTable i = Some d /\ finite_f32 d /\ 0 <= fval d <= 591 / 100 /\ Rabs (fval d - tan (IZR i * th)) <= 154 / 10 ^ 6.
Proof.
  intros Hi. destruct (sin_micro i ltac:(lia)) as (s & Es & As). destruct (sin_micro (i + 512) ltac:(lia)) as (c & Ec & Ac). destruct (znth_some tanTable_micros i) as [t Et]; [change (zlen tanTable_micros) with 2048%Z; lia|].
  assert (C : (Z.abs (t * (1000000 + c) - s * 1000000) <= 3100000 /\ 0 <= t <= 5900000)%Z).
  { apply (hi_nth _ _ _ i s c t hi_checked Es).
    - change 512%nat with (Z.to_nat 512). rewrite znth_skipn by lia. rewrite Z.add_comm. exact Ec.
    - change 915%nat with (Z.to_nat 915). rewrite znth_firstn by lia. exact Et. }
  destruct C as [C0 C1]. destruct (micro_b t ltac:(lia)) as [FM EM]. exists (micro t). split; [unfold tanTable; rewrite znth_map, Et; reflexivity|]. split; [exact FM|]. rewrite EM.
  assert (T0 : 0 <= IZR t / 1000000 <= 59 / 10) by (destruct C1 as [c1 c2]; apply IZR_le in c1, c2; lra). set (t' := IZR t / 1000000) in *.
  pose proof (RN_err 3 t' ltac:(lia) ltac:(change (bpow radix2 3) with 8; apply Rabs_le; lra)) as RE. change (bpow radix2 (3 - 25)) with (/ 4194304) in RE. apply Rabs_le_inv in RE.
  split. { split; [rewrite <- RN_0; apply RN_le; lra|lra]. }
  pose proof PI_bounds as PB. pose proof th_bounds as TB. assert (I0 : 0 <= IZR i <= 914) by (split; apply IZR_le; lia). set (a := IZR i * th) in *. assert (A0 : 0 <= a <= 14024 / 10000) by (unfold a; nra).
  pose proof (hi_cos_low a ltac:(lra)) as CL. replace (IZR i * (PI / 1024)) with (2 * a) in As by (unfold a, th; field). replace (IZR (i + 512) * (PI / 1024)) with (PI / 2 + 2 * a) in Ac by (rewrite plus_IZR; unfold a, th; field).
  rewrite <- cos_sin in Ac. rewrite sin_2a in As. rewrite cos_2a_cos in Ac. set (S := sin a) in *. set (K := cos a) in *. unfold tan. fold S K.
  set (s' := IZR s / 1000000) in *. set (c' := IZR c / 1000000) in *.
  assert (E : Rabs (t' * (1 + c') - s') <= 31 / 10 ^ 7). { apply Z.abs_le in C0. destruct C0 as [g1 g2]. apply IZR_le in g1, g2. rewrite minus_IZR, !mult_IZR, plus_IZR in g1, g2. unfold t', s', c'. apply Rabs_le. rewrite opp_IZR in g1. lra. }
  apply Rabs_le_inv in As, Ac, E. assert (TC : - (59 / 10 * (77 / 10 ^ 8)) <= t' * (c' - (2 * K * K - 1)) <= 59 / 10 * (77 / 10 ^ 8)).
  { split; [apply Rle_trans with (t' * (- (77 / 10 ^ 8))); [|apply Rmult_le_compat_l; lra]|apply Rle_trans with (t' * (77 / 10 ^ 8)); [apply Rmult_le_compat_l; lra|]]; lra. }
  assert (D : Rabs ((t' - S / K) * (2 * K * K)) <= 842 / 10 ^ 8). { replace ((t' - S / K) * (2 * K * K)) with (t' * (2 * K * K) - 2 * S * K) by (field; lra). apply Rabs_le. lra. }
  assert (K2 : 5511 / 100000 <= 2 * K * K) by (assert (166 / 1000 * (166 / 1000) <= K * K) by (apply Rmult_le_compat; lra); lra).
  assert (F : Rabs (t' - S / K) <= 1529 / 10 ^ 7). { rewrite Rabs_mult, (Rabs_right (2 * K * K)) in D by lra. pose proof (Rabs_pos (t' - S / K)) as AP. apply Rmult_le_reg_r with (2 * K * K); [lra|]. apply Rle_trans with (1 := D). lra. }
  apply Rabs_le_inv in F. apply Rabs_le. lra.
Qed.
Lemma hi_inv_pair c1 c2 : 166 / 1000 <= c1 -> 166 / 1000 <= c2 -> 0 < / (c1 * c2) <= 3629 / 100.
Proof.
  intros H1 H2. assert (P : 166 / 1000 * (166 / 1000) <= c1 * c2) by (apply Rmult_le_compat; lra). split; [apply Rinv_0_lt_compat; lra|]. apply Rle_trans with (/ (166 / 1000 * (166 / 1000))); [apply Rinv_le; lra|lra].
Qed.
Lemma hi_tan_lip a b : 0 <= a <= 14035 / 10000 -> 0 <= b <= 14035 / 10000 -> Rabs (tan b - tan a) <= 3629 / 100 * Rabs (b - a).
Proof.
  intros Ha Hb. pose proof (hi_cos_low a Ha). pose proof (hi_cos_low b Hb). rewrite tan_diff by lra. unfold Rdiv. rewrite Rabs_mult, Rmult_comm. pose proof (hi_inv_pair (cos a) (cos b) ltac:(lra) ltac:(lra)) as I. rewrite (Rabs_right (/ _)) by lra. apply Rmult_le_compat; [lra|apply Rabs_pos|lra|apply sin_abs_le].
Qed.
Lemma hi_tan_curve a h t : 0 <= a -> 0 <= h <= 16 / 10000 -> a + h <= 14035 / 10000 -> 0 <= t <= 1 -> Rabs ((1 - t) * tan a + t * tan (a + h) - tan (a + t * h)) <= 5475 / 100 * (h * h) + 13 * h ^ 3.
Proof.
  intros Ha Hh Hb Ht. set (u := a + t * h). set (b := a + h). assert (TH : 0 <= t * h <= h) by (apply part_le; lra). pose proof (hi_cos_low a ltac:(lra)) as Ca. pose proof (hi_cos_low u ltac:(unfold u; lra)) as Cu. pose proof (hi_cos_low b ltac:(unfold b; lra)) as Cb.
  replace ((1 - t) * tan a + t * tan b - tan u) with (t * (tan b - tan u) - (1 - t) * (tan u - tan a)) by ring. rewrite !tan_diff by lra. replace (b - u) with ((1 - t) * h) by (unfold b, u; ring). replace (u - a) with (t * h) by (unfold u; ring).
  assert (T2 : 0 <= (1 - t) * h <= h) by (apply part_le; lra). pose proof (sin_small ((1 - t) * h) ltac:(lra)) as S1. pose proof (sin_small (t * h) ltac:(lra)) as S2.
  assert (H3 : 0 <= h ^ 3) by (apply pow_le; lra). assert (Q1 : 0 <= ((1 - t) * h) ^ 3 <= h ^ 3) by (split; [apply pow_le; lra|apply pow_incr; lra]). assert (Q2 : 0 <= (t * h) ^ 3 <= h ^ 3) by (split; [apply pow_le; lra|apply pow_incr; lra]).
  set (s1 := sin ((1 - t) * h)) in *. set (s2 := sin (t * h)) in *. set (ca := cos a) in *. set (cu := cos u) in *. set (cb := cos b) in *.
  pose proof (hi_inv_pair cu cb ltac:(lra) ltac:(lra)) as I1. pose proof (hi_inv_pair ca cu ltac:(lra) ltac:(lra)) as I2. pose proof (hi_inv_pair ca cb ltac:(lra) ltac:(lra)) as I3. set (i1 := / (cu * cb)) in *. set (i2 := / (ca * cu)) in *. set (i3 := / (ca * cb)) in *.
  assert (CD : Rabs (ca - cb) <= h). { unfold ca, cb, b. rewrite !cos_sin. pose proof (sin_lip (PI / 2 + a) (PI / 2 + (a + h))) as SL. replace (PI / 2 + a - (PI / 2 + (a + h))) with (- h) in SL by ring. rewrite Rabs_Ropp, (Rabs_right h) in SL by lra. exact SL. }
  assert (ID : i1 - i2 = (ca - cb) * (i3 * / cu)) by (unfold i1, i2, i3; field; lra). assert (IU : 0 < / cu <= 6025 / 1000) by (split; [apply Rinv_0_lt_compat; lra|apply Rle_trans with (/ (166 / 1000)); [apply Rinv_le; lra|lra]]).
  assert (I3U : 0 <= i3 * / cu <= 219 / 1) by (split; [apply Rmult_le_pos; lra|apply Rle_trans with (3629 / 100 * (6025 / 1000)); [apply Rmult_le_compat; lra|lra]]).
  assert (DD : Rabs (i1 - i2) <= h * (219 / 1)). { rewrite ID, Rabs_mult, (Rabs_right (i3 * / cu)) by lra. apply Rmult_le_compat; [apply Rabs_pos|lra|exact CD|lra]. }
  unfold Rdiv. fold i1 i2.
  replace (t * (s1 * i1) - (1 - t) * (s2 * i2)) with (t * (1 - t) * h * (i1 - i2) - t * ((1 - t) * h - s1) * i1 + (1 - t) * (t * h - s2) * i2) by ring.
  assert (Hq : 0 <= t * (1 - t) <= / 4) by (split; [apply Rmult_le_pos; lra|]; replace (t * (1 - t)) with (/ 4 - Rsqr (t - / 2)) by (unfold Rsqr; field); pose proof (Rle_0_sqr (t - / 2)); lra).
  assert (M1 : Rabs (t * (1 - t) * h * (i1 - i2)) <= 5475 / 100 * (h * h)). { rewrite Rabs_mult, (Rabs_right (t * (1 - t) * h)) by (apply Rle_ge, Rmult_le_pos; lra). apply Rle_trans with (/ 4 * h * (h * (219 / 1))); [apply Rmult_le_compat; [apply Rmult_le_pos; lra|apply Rabs_pos|apply Rmult_le_compat_r; lra|exact DD]|]. assert (0 <= h * h) by (apply Rmult_le_pos; lra). lra. }
  assert (E1 : 0 <= t * ((1 - t) * h - s1) <= h ^ 3 / 6). { split; [apply Rmult_le_pos; lra|]. rewrite <- (Rmult_1_l (h ^ 3 / 6)). apply Rmult_le_compat; lra. }
  assert (E2 : 0 <= (1 - t) * (t * h - s2) <= h ^ 3 / 6). { split; [apply Rmult_le_pos; lra|]. rewrite <- (Rmult_1_l (h ^ 3 / 6)). apply Rmult_le_compat; lra. }
  assert (M2 : 0 <= t * ((1 - t) * h - s1) * i1 <= h ^ 3 / 6 * (3629 / 100)) by (split; [apply Rmult_le_pos; lra|apply Rmult_le_compat; lra]). assert (M3 : 0 <= (1 - t) * (t * h - s2) * i2 <= h ^ 3 / 6 * (3629 / 100)) by (split; [apply Rmult_le_pos; lra|apply Rmult_le_compat; lra]).
  apply Rabs_le_inv in M1. apply Rabs_le. lra.
Qed.
Lemma hi_tan_correct fuel x : finite_f32 x -> 0 <= fval x <= 14 / 10 ->
  exists r c, ttan fuel x = Ok r /\ tan_close fuel x = Ok c /\ finite_f32 r /\ finite_f32 c /\ Rabs (fval r - tan (fval x)) <= 3 / 10 ^ 4 /\ Rabs (fval c - tan (fval x)) <= 56 / 10 ^ 3.
Proof.
  intros Hx Hr. destruct (tan_phase x Hx ltac:(lra)) as (FP & RP & AP). cbn zeta in *. unfold ttan, tan_close. set (ph := fdiv x M_PIF) in *. set (i := Ztrunc (fval ph * IZR (zlen tanTable))).
  assert (Hr' : 0 <= fval ph < bpow radix2 (32 - 11)) by (change (bpow radix2 (32 - 11)) with 2097152; lra). assert (HF : fval ph < IZR (Z.of_nat fuel + 1)) by (apply Rlt_le_trans with 1; [lra|apply IZR_le; lia]).
  destruct (wrap_index tanTable ph 11 tan_len ltac:(lia) FP Hr') as (_ & _ & _ & HI & HB). fold i in HI, HB. rewrite tan_len in HB. pose proof PI_bounds as PB. pose proof th_bounds as TB. apply Rabs_le_inv in AP.
  assert (PH : fval ph <= 44564 / 100000) by (apply Rmult_le_reg_l with PI; lra). assert (I652 : (i < 913)%Z) by (apply lt_IZR; lra).
  destruct (hi_tan_entry i ltac:(lia)) as (d0 & N0 & F0 & B0 & A0). destruct (hi_tan_entry (i + 1) ltac:(lia)) as (d1 & N1 & F1 & B1 & A1).
  destruct (interp_wrap_val fuel tanTable ph 11 i tan_len ltac:(lia) FP Hr' HF eq_refl d0 d1) as (p & Fp & EP & Rp & ER & EC); [change (2 ^ 11)%Z with 2048%Z; rewrite Z.mod_small by lia; exact N0|change (2 ^ 11)%Z with 2048%Z; rewrite Z.mod_small by lia; exact N1|]. rewrite tan_len in EP.
  exists (finterpolate d0 d1 p), d0. split; [exact ER|]. split; [exact EC|]. set (t := fval p) in *.
  assert (P0 : Rabs (fval d0) <= bpow radix2 3) by (change (bpow radix2 3) with 8; apply Rabs_le; lra). assert (P1 : Rabs (fval d1) <= bpow radix2 3) by (change (bpow radix2 3) with 8; apply Rabs_le; lra).
  destruct (interp_val 3 d0 d1 p ltac:(lia) F0 F1 Fp P0 P1 ltac:(fold t; lra)) as (FR & _ & _). split; [exact FR|]. split; [exact F0|].
  pose proof (interp_accurate 3 d0 d1 p ltac:(lia) F0 F1 Fp P0 P1 ltac:(fold t; lra)) as AC. fold t in AC. change (bpow radix2 (3 - 25)) with (/ 4194304) in AC.
  assert (I0 : 0 <= IZR i <= 912) by (split; apply IZR_le; lia). rewrite plus_IZR in A1. set (a := IZR i * th) in *. replace ((IZR i + 1) * th) with (a + th) in A1 by (unfold a; ring).
  assert (A0' : 0 <= a) by (unfold a; apply Rmult_le_pos; lra). assert (AB : a + th <= 14035 / 10000) by (replace (a + th) with ((IZR i + 1) * th) by (unfold a; ring); apply Rle_trans with (913 * th); [apply Rmult_le_compat_r; lra|lra]).
  assert (EPh : PI * fval ph = a + t * th) by (unfold a, th; rewrite EP; field). rewrite EPh in AP. assert (TT : 0 <= t * th <= th) by (apply part_le; lra).
  pose proof (hi_tan_curve a th t A0' ltac:(lra) AB ltac:(lra)) as CV. assert (CB : 5475 / 100 * (th * th) + 13 * th ^ 3 <= 1290 / 10 ^ 7). { assert (th * th <= 1534 / 10 ^ 6 * (1534 / 10 ^ 6)) by (apply Rmult_le_compat; lra). assert (th ^ 3 <= (1534 / 10 ^ 6) ^ 3) by (apply pow_incr; lra). lra. }
  pose proof (hi_tan_lip (a + t * th) (fval x) ltac:(lra) ltac:(lra)) as TL. assert (TD : Rabs (fval x - (a + t * th)) <= 2 / 10 ^ 7) by (apply Rabs_le; lra).
  assert (TL2 : Rabs (tan (fval x) - tan (a + t * th)) <= 8 / 10 ^ 6) by lra. apply Rabs_le_inv in TL2, CV, AC, A0, A1. split.
  - assert (G0 : (1 - t) * (- (154 / 10 ^ 6)) <= (1 - t) * (fval d0 - tan a) <= (1 - t) * (154 / 10 ^ 6)) by (split; apply Rmult_le_compat_l; lra). assert (G1 : t * (- (154 / 10 ^ 6)) <= t * (fval d1 - tan (a + th)) <= t * (154 / 10 ^ 6)) by (split; apply Rmult_le_compat_l; lra). apply Rabs_le. lra.
  - pose proof (hi_tan_lip (a + t * th) a ltac:(lra) ltac:(lra)) as L. replace (a - (a + t * th)) with (- (t * th)) in L by ring. rewrite Rabs_Ropp, (Rabs_right (t * th)) in L by lra. apply Rabs_le_inv in L. apply Rabs_le. lra.
Qed.
