(* logTable and audioFreqToNorm. *)
From Coq Require Import Reals Lra Lia ZArith List Floats.SpecFloat.
From Flocq Require Import Core.
From Verif.Common Require Import Base Lemmas Lists F32 F32Order F32Real F32Arith.
From Verif.Model Require Import MathFloat Table MathTables MathLookup Audio.
From Verif.Proofs Require Import ExpLn MathFloat TableF MathTables SinTable ExpTable Pow2.
From Verif.Proofs Require Audio.
Import ListNotations.
Open Scope R_scope.

(** exp (d / 10^6) for small d, and the exponentials of the entries multiplied up along the table *)
Definition U6 : Z := Eval vm_compute in (W / 10 ^ 6)%Z.
Definition step_lo (d : Z) : Z :=
  if (d <=? 2000)%Z then let x := (d * U6)%Z in let s := dn (x * x) in (W + (x + (s / 2 + dn (s * x) / 6)))%Z else exp_lo 10 d (10 ^ 6).
Definition step_hi (d : Z) : Z :=
  if (d <=? 2000)%Z then let x := (d * (U6 + 1))%Z in let s := up (x * x) in (W + (x + (cdiv s 2 + (cdiv (up (s * x)) 6 + 3 * up (s * s)))))%Z else exp_hi 10 d (10 ^ 6).
Lemma fx_plus a b : fx (a + b) = fx a + fx b. Proof. unfold fx. rewrite plus_IZR. pose proof W_pos. field. lra. Qed.
Lemma fx_le a b : (a <= b)%Z -> fx a <= fx b. Proof. intros H. unfold fx. apply Rmult_le_compat_r; [left; apply Rinv_0_lt_compat, W_pos|apply IZR_le; exact H]. Qed.
Lemma exp_lo_pos k y M : (0 <= y <= M * 2 ^ Z.of_nat k)%Z -> (0 < M)%Z -> (0 <= exp_lo k y M)%Z.
Proof.
  intros Hy HM. assert (HP : (0 < 2 ^ Z.of_nat k)%Z) by (apply Z.pow_pos_nonneg; lia). unfold exp_lo. set (M' := (M * 2 ^ Z.of_nat k)%Z) in *. assert (HM' : (0 < M')%Z) by (unfold M'; nia). assert (WP : (0 < W)%Z) by reflexivity.
  set (a := (y * W / M')%Z). assert (Ha : (0 <= a <= W)%Z) by (unfold a; split; [apply Z.div_pos; nia|apply Z.div_le_upper_bound; nia]). destruct (taylor_ok a Ha) as (P & L & _). exact (proj1 (sq_lo_ok k _ _ P L)).
Qed.
Lemma step_bounds d : (0 <= d <= 400000)%Z -> (0 <= step_lo d)%Z /\ (0 <= step_hi d)%Z /\ fx (step_lo d) <= exp (IZR d / 1000000) <= fx (step_hi d).
Proof.
  intros Hd. unfold step_lo, step_hi. destruct (Z.leb_spec d 2000) as [L|L]; cbv zeta.
  - set (x := (d * U6)%Z). set (y := (d * (U6 + 1))%Z). set (e := IZR d / 1000000). assert (D0 : 0 <= IZR d <= 2000) by (split; apply IZR_le; lia).
    assert (X0 : (0 <= x)%Z) by (unfold x, U6; lia). assert (Y0 : (0 <= y)%Z) by (unfold y, U6; lia).
    assert (XE : fx x <= e). { unfold fx, x, e. rewrite mult_IZR. change (IZR U6) with 18446744073709. change (IZR W) with 18446744073709551616. lra. }
    assert (YE : e <= fx y). { unfold fx, y, e. rewrite mult_IZR. change (IZR (U6 + 1)) with 18446744073710. change (IZR W) with 18446744073709551616. lra. }
    assert (E1 : 0 <= e <= 1) by (unfold e; lra). pose proof (exp_t4 e E1) as T. pose proof (fx_pos x X0) as FX.
    assert (S0 : (0 <= dn (x * x))%Z) by (apply dn_pos; nia). assert (S1 : (0 <= up (y * y))%Z) by (apply up_pos; nia). pose proof (fx_pos _ S0) as FS.
    assert (C0 : (0 <= dn (dn (x * x) * x))%Z) by (apply dn_pos; nia). assert (C1 : (0 <= up (up (y * y) * y))%Z) by (apply up_pos; nia). assert (C2 : (0 <= up (up (y * y) * up (y * y)))%Z) by (apply up_pos; nia).
    assert (A2 : fx (dn (x * x)) <= e ^ 2) by (replace (e ^ 2) with (e * e) by ring; eapply Rle_trans; [apply fx_dn|apply Rmult_le_compat; lra]).
    assert (A3 : fx (dn (dn (x * x) * x)) <= e ^ 3) by (replace (e ^ 3) with (e ^ 2 * e) by ring; eapply Rle_trans; [apply fx_dn|apply Rmult_le_compat; lra]).
    assert (E2 : 0 <= e ^ 2) by (apply pow_le; lra). assert (E3 : 0 <= e ^ 3) by (apply pow_le; lra).
    assert (B2 : e ^ 2 <= fx (up (y * y))) by (replace (e ^ 2) with (e * e) by ring; eapply Rle_trans; [|apply fx_up]; apply Rmult_le_compat; lra).
    assert (B3 : e ^ 3 <= fx (up (up (y * y) * y))) by (replace (e ^ 3) with (e ^ 2 * e) by ring; eapply Rle_trans; [|apply fx_up]; apply Rmult_le_compat; lra).
    assert (B4 : e ^ 4 <= fx (up (up (y * y) * up (y * y)))) by (replace (e ^ 4) with (e ^ 2 * e ^ 2) by ring; eapply Rle_trans; [|apply fx_up]; apply Rmult_le_compat; lra).
    pose proof (fx_div (dn (x * x)) 2 ltac:(lia)) as D2. pose proof (fx_div (dn (dn (x * x) * x)) 6 ltac:(lia)) as D3. pose proof (fx_cdiv (up (y * y)) 2 ltac:(lia)) as D4. pose proof (fx_cdiv (up (up (y * y) * y)) 6 ltac:(lia)) as D5.
    assert (G2 : (0 <= dn (x * x) / 2)%Z) by (apply Z.div_pos; lia). assert (G3 : (0 <= dn (dn (x * x) * x) / 6)%Z) by (apply Z.div_pos; lia).
    assert (G4 : (0 <= cdiv (up (y * y)) 2)%Z) by (unfold cdiv; pose proof (Z.div_le_upper_bound (- up (y * y)) 2 0 ltac:(lia) ltac:(lia)); lia).
    assert (G5 : (0 <= cdiv (up (up (y * y) * y)) 6)%Z) by (unfold cdiv; pose proof (Z.div_le_upper_bound (- up (up (y * y) * y)) 6 0 ltac:(lia) ltac:(lia)); lia).
    assert (WP : (0 < W)%Z) by reflexivity. split; [lia|]. split; [lia|].
    replace (3 * up (up (y * y) * up (y * y)))%Z with (up (up (y * y) * up (y * y)) + (up (up (y * y) * up (y * y)) + up (up (y * y) * up (y * y))))%Z by lia. rewrite !fx_W, !fx_plus. split; lra.
  - pose proof (exp_lo_ok 10 d (10 ^ 6) ltac:(change (10 ^ 6 * 2 ^ Z.of_nat 10)%Z with 1024000000%Z; lia) eq_refl) as A. pose proof (exp_hi_ok 10 d (10 ^ 6) ltac:(change (10 ^ 6 * 2 ^ Z.of_nat 10)%Z with 1024000000%Z; lia) eq_refl) as B. change (IZR (10 ^ 6)) with 1000000 in A, B. fold (fx (exp_lo 10 d (10 ^ 6))) in A. fold (fx (exp_hi 10 d (10 ^ 6))) in B.
    split; [|split; [|split; assumption]].
    + apply exp_lo_pos; [change (10 ^ 6 * 2 ^ Z.of_nat 10)%Z with 1024000000%Z; lia|reflexivity].
    + clear - B. revert B. generalize (exp_hi 10 d (10 ^ 6)). intros h B. apply le_IZR. pose proof (exp_pos (IZR d / 1000000)) as P. pose proof W_pos as WP. unfold fx in B. assert (G : 0 < IZR h / IZR W) by lra. replace (IZR h) with (IZR h / IZR W * IZR W) by (field; lra). apply Rmult_le_pos; lra.
Qed.
Fixpoint logs_ok (i p lo hi : Z) (l : list Z) : bool :=
  match l with
  | [] => true
  | n :: r =>
      if ((p <=? n) && (n <=? p + 400000))%Z then
        let lo' := dn (lo * step_lo (n - p)) in let hi' := up (hi * step_hi (n - p)) in let v := ((40940 + 19980 * i) * W)%Z in
        if ((v * 10 ^ 8 <=? lo' * (2047 * (10 ^ 8 + 97))) && (hi' * (2047 * 10 ^ 8) <=? v * (10 ^ 8 + 97)) && (2995732 <=? n) && (n <=? 9903487))%Z then logs_ok (i + 1) n lo' hi' r else false
      else false
  end.
Definition log_lo0 : Z := Eval vm_compute in exp_lo 10 2995732 (10 ^ 6).
Definition log_hi0 : Z := Eval vm_compute in exp_hi 10 2995732 (10 ^ 6).
Lemma log_checked : logs_ok 0 2995732 log_lo0 log_hi0 logTable_micros = true. Proof. vm_compute. reflexivity. Qed.
Lemma logs_nth l : forall i p lo hi k n, (0 <= lo)%Z -> (0 <= hi)%Z -> fx lo <= exp (IZR p / 1000000) <= fx hi -> logs_ok i p lo hi l = true -> znth l k = Some n ->
  (2995732 <= n <= 9903487)%Z /\ exists lo' hi', fx lo' <= exp (IZR n / 1000000) <= fx hi' /\ ((40940 + 19980 * (i + k)) * W * 10 ^ 8 <= lo' * (2047 * (10 ^ 8 + 97)))%Z /\ (hi' * (2047 * 10 ^ 8) <= (40940 + 19980 * (i + k)) * W * (10 ^ 8 + 97))%Z.
Proof.
  induction l as [|x r IH]; intros i p lo hi k n L0 H0 B H E; [rewrite znth_nil in E; discriminate|]. cbn [logs_ok] in H. destruct (_ && _)%bool eqn:EC in H; [|discriminate]. apply andb_prop in EC. destruct EC as [P1 P2]. apply Z.leb_le in P1, P2.
  cbv zeta in H. destruct (step_bounds (x - p) ltac:(lia)) as (G0 & G1 & G). rewrite minus_IZR in G. set (gl := step_lo (x - p)) in *. set (gh := step_hi (x - p)) in *. set (lo' := dn (lo * gl)) in *. set (hi' := up (hi * gh)) in *.
  destruct (_ && _)%bool eqn:EC in H; [|discriminate]. apply andb_prop in EC. destruct EC as [EC C4]. apply andb_prop in EC. destruct EC as [EC C3]. apply andb_prop in EC. destruct EC as [C1 C2]. apply Z.leb_le in C1, C2, C3, C4.
  assert (B' : fx lo' <= exp (IZR x / 1000000) <= fx hi').
  { replace (IZR x / 1000000) with (IZR p / 1000000 + (IZR x - IZR p) / 1000000) by field. rewrite exp_plus. pose proof (exp_pos (IZR p / 1000000)). pose proof (exp_pos ((IZR x - IZR p) / 1000000)). pose proof (fx_pos lo L0). pose proof (fx_pos gl G0).
    split; [eapply Rle_trans; [apply fx_dn|]|eapply Rle_trans; [|apply fx_up]]; apply Rmult_le_compat; lra. }
  pose proof (znth_some_range _ _ _ E) as R. destruct (Z.eq_dec k 0) as [->|Hk].
  - rewrite znth_cons_0 in E. injection E as <-. rewrite Z.add_0_r. split; [lia|]. exists lo', hi'. split; [exact B'|]. split; assumption.
  - rewrite znth_cons_pos in E by lia. replace (i + k)%Z with (i + 1 + (k - 1))%Z by lia. apply (IH (i + 1)%Z x lo' hi' (k - 1)%Z n); [apply dn_pos; nia|apply up_pos; nia|exact B'|exact H|exact E].
Qed.
Fixpoint steps_ok (l : list Z) : bool := match l with a :: (b :: _) as r => ((a <=? b) && (b <=? a + 400000) && steps_ok r)%Z | _ => true end.
Lemma steps_checked : steps_ok logTable_micros = true. Proof. vm_compute. reflexivity. Qed.
Lemma steps_nth l : forall i a b, steps_ok l = true -> znth l i = Some a -> znth l (i + 1) = Some b -> (a <= b <= a + 400000)%Z.
Proof.
  induction l as [|x r IH]; intros i a b H E0 E1; [rewrite znth_nil in E0; discriminate|]. pose proof (znth_some_range _ _ _ E0) as R. destruct (Z.eq_dec i 0) as [->|Hi].
  - rewrite znth_cons_0 in E0. injection E0 as <-. rewrite znth_cons_pos in E1 by lia. destruct r as [|y r]; [rewrite znth_nil in E1; discriminate|]. change (0 + 1 - 1)%Z with 0%Z in E1. rewrite znth_cons_0 in E1. injection E1 as <-. cbn [steps_ok] in H. apply andb_prop in H. destruct H as [H _]. lia.
  - rewrite znth_cons_pos in E0, E1 by lia. apply (IH (i - 1)%Z); [|exact E0|replace (i - 1 + 1)%Z with (i + 1 - 1)%Z by lia; exact E1]. destruct r as [|y r]; [reflexivity|]. cbn [steps_ok] in H. apply andb_prop in H. apply H.
Qed.
Lemma ln_bound v lo hi (M : Z) : (0 <= lo <= M * 2 ^ Z.of_nat 10)%Z -> (0 <= hi <= M * 2 ^ Z.of_nat 10)%Z -> (0 < M)%Z -> (0 < v)%Z -> (exp_hi 10 lo M <=? v * W)%Z = true -> (v * W <=? exp_lo 10 hi M)%Z = true -> IZR lo / IZR M <= ln (IZR v) <= IZR hi / IZR M.
Proof.
  intros H1 H2 HM Hv C1 C2. apply Z.leb_le in C1, C2. apply IZR_le in C1, C2. rewrite mult_IZR in C1, C2. pose proof W_pos as WP. split.
  - apply (ln_ge 10 lo M); [exact H1|exact HM|]. apply Rmult_le_reg_r with (IZR W); [exact WP|]. unfold Rdiv. rewrite Rmult_assoc, Rinv_l by lra. lra.
  - apply (ln_le 10 hi M); [exact H2|exact HM|apply IZR_lt; exact Hv|]. apply Rmult_le_reg_r with (IZR W); [exact WP|]. unfold Rdiv. rewrite Rmult_assoc, Rinv_l by lra. lra.
Qed.
Lemma ln20 : 29957322735 / 10 ^ 10 <= ln 20 <= 29957322736 / 10 ^ 10.
Proof. pose proof (ln_bound 20 29957322735 29957322736 (10 ^ 10) ltac:(vm_compute; split; discriminate) ltac:(vm_compute; split; discriminate) eq_refl eq_refl ltac:(vm_compute; reflexivity) ltac:(vm_compute; reflexivity)) as H. change (IZR (10 ^ 10)) with 10000000000 in H. lra. Qed.
Lemma ln1000 : 69077552700 / 10 ^ 10 <= ln 1000 <= 69077552900 / 10 ^ 10.
Proof. pose proof (ln_bound 1000 69077552700 69077552900 (10 ^ 10) ltac:(vm_compute; split; discriminate) ltac:(vm_compute; split; discriminate) eq_refl eq_refl ltac:(vm_compute; reflexivity) ltac:(vm_compute; reflexivity)) as H. change (IZR (10 ^ 10)) with 10000000000 in H. lra. Qed.

Lemma log_len : zlen logTable = 2048%Z.
Proof. unfold logTable. rewrite zlen_map. vm_compute. reflexivity. Qed.
Definition lv (i : R) : R := 20 + 19980 / 2047 * i.
Lemma log_entry i : (0 <= i < 2048)%Z -> exists n d, znth logTable_micros i = Some n /\ znth logTable i = Some d /\ finite_f32 d /\ fval d = RN (IZR n / 1000000) /\ (2995732 <= n <= 9903487)%Z /\ Rabs (IZR n / 1000000 - ln (lv (IZR i))) <= 97 / 10 ^ 8.
Proof.
  intros Hi. destruct (znth_some logTable_micros i) as [n Hn]; [change (zlen logTable_micros) with 2048%Z; lia|].
  assert (S0 : fx log_lo0 <= exp (IZR 2995732 / 1000000) <= fx log_hi0).
  { split; [exact (exp_lo_ok 10 2995732 (10 ^ 6) ltac:(vm_compute; split; discriminate) eq_refl)|exact (exp_hi_ok 10 2995732 (10 ^ 6) ltac:(vm_compute; split; discriminate) eq_refl)]. }
  destruct (logs_nth _ 0 2995732 log_lo0 log_hi0 i n ltac:(discriminate) ltac:(discriminate) S0 log_checked Hn) as ((C3 & C4) & lo & hi & EB & C1 & C2). rewrite Z.add_0_l in C1, C2. apply IZR_le in C1, C2. destruct (micro_b n) as [FM EM]; [lia|]. exists n, (micro n). split; [reflexivity || exact Hn|]. split; [unfold logTable; rewrite znth_map, Hn; reflexivity|]. split; [exact FM|]. split; [exact EM|]. split; [lia|].
  pose proof W_pos as WP. assert (I0 : 0 <= IZR i) by (apply IZR_le; lia). rewrite !mult_IZR in C1, C2. rewrite !plus_IZR, !mult_IZR in C1, C2. change (IZR (10 ^ 8)) with 100000000 in *.
  assert (EL : lv (IZR i) = (40940 + 19980 * IZR i) / 2047) by (unfold lv; field). assert (LP : 0 < lv (IZR i)) by (unfold lv; lra).
  set (t := 97 / 100000000). assert (T0 : 0 < t < 1) by (unfold t; lra). unfold fx in EB. set (lo' := IZR lo / IZR W) in *. set (hi' := IZR hi / IZR W) in *. assert (E1 : IZR lo = lo' * IZR W) by (unfold lo'; field; lra). assert (E2 : IZR hi = hi' * IZR W) by (unfold hi'; field; lra). rewrite E1 in C1. rewrite E2 in C2. set (v := lv (IZR i)) in *. set (x := IZR n / 1000000) in *.
  assert (V1 : v <= lo' * (1 + t)). { apply Rmult_le_reg_r with (IZR W); [exact WP|]. rewrite EL. unfold t. lra. }
  assert (V2 : hi' <= v * (1 + t)). { apply Rmult_le_reg_r with (IZR W); [exact WP|]. rewrite EL. unfold t. lra. }
  pose proof (exp_ineq1_le t) as ET. pose proof (exp_pos t) as PT. pose proof (exp_pos x) as PX.
  assert (U : ln v <= x + t). { rewrite <- (ln_exp (x + t)). apply ln_le_mono; [exact LP|]. rewrite exp_plus. apply Rle_trans with (1 := V1). apply Rmult_le_compat; try lra. pose proof (exp_pos x). destruct (Rle_lt_dec 0 lo'); [assumption|exfalso; assert (lo' * (1 + t) < 0) by nra; lra]. }
  assert (L : x - t <= ln v). { rewrite <- (ln_exp (x - t)). apply ln_le_mono; [apply exp_pos|]. unfold Rminus. rewrite exp_plus, exp_Ropp. apply Rmult_le_reg_r with (exp t); [exact PT|]. rewrite Rmult_assoc, Rinv_l by lra. rewrite Rmult_1_r. apply Rle_trans with (v * (1 + t)); [lra|]. apply Rmult_le_compat_l; lra. }
  unfold t in *. apply Rabs_le. lra.
Qed.

Lemma ln_div x y : 0 < x -> 0 < y -> ln (x / y) = ln x - ln y.
Proof. intros Hx Hy. unfold Rdiv. rewrite ln_mult, ln_Rinv; [ring|assumption|assumption|apply Rinv_0_lt_compat; assumption]. Qed.
Lemma ln_le_sub a b : 0 < a -> 0 < b -> ln b - ln a <= b / a - 1.
Proof. intros Ha Hb. rewrite <- ln_div by assumption. pose proof (exp_ineq1_le (ln (b / a))) as E. rewrite exp_ln in E by (apply Rdiv_lt_0_compat; assumption). lra. Qed.
Lemma ln_curve a h t : 0 < a -> 0 <= h -> 0 <= t <= 1 -> 0 <= ln (a + t * h) - ((1 - t) * ln a + t * ln (a + h)) <= / 4 * (h * h / (a * (a + h))).
Proof.
  intros Ha Hh Ht. set (u := a + t * h). assert (TH : 0 <= t * h) by (apply Rmult_le_pos; lra). assert (Hu : 0 < u) by (unfold u; lra).
  pose proof (ln_le_sub u a Hu Ha) as A. pose proof (ln_le_sub u (a + h) Hu ltac:(lra)) as B. pose proof (ln_le_sub a u Ha Hu) as C. pose proof (ln_le_sub (a + h) u ltac:(lra) Hu) as D.
  assert (S1 : (1 - t) * (ln a - ln u) <= (1 - t) * (a / u - 1)) by (apply Rmult_le_compat_l; lra). assert (S2 : t * (ln (a + h) - ln u) <= t * ((a + h) / u - 1)) by (apply Rmult_le_compat_l; lra).
  assert (S3 : (1 - t) * (ln u - ln a) <= (1 - t) * (u / a - 1)) by (apply Rmult_le_compat_l; lra). assert (S4 : t * (ln u - ln (a + h)) <= t * (u / (a + h) - 1)) by (apply Rmult_le_compat_l; lra).
  split.
  - assert (E : (1 - t) * (a / u - 1) + t * ((a + h) / u - 1) = 0) by (unfold u; field; unfold u in Hu; lra). lra.
  - assert (E : (1 - t) * (u / a - 1) + t * (u / (a + h) - 1) = (t - t * t) * (h * h / (a * (a + h)))) by (unfold u; field; lra).
    assert (Q : (t - t * t) * (h * h / (a * (a + h))) <= / 4 * (h * h / (a * (a + h)))); [|lra]. apply Rmult_le_compat_r.
    + apply Rmult_le_pos; [nra|]. left. apply Rinv_0_lt_compat. apply Rmult_lt_0_compat; lra.
    + replace (t - t * t) with (/ 4 - Rsqr (t - / 2)) by (unfold Rsqr; field). pose proof (Rle_0_sqr (t - / 2)). lra.
Qed.

(** the value read out of the table *)
Definition hz : R := 19980 / 2047.
Lemma log_interp ph : finite_f32 ph -> 0 <= fval ph <= 1 -> exists X r, 0 <= X <= 2047 /\ Rabs (X - fval ph * 2047) <= / 16777216 * (fval ph * 2047) + bpow radix2 (-150) /\
  Finterp logTable ph = Ok r /\ finite_f32 r /\ 29957312 / 10 ^ 7 <= fval r <= 99034899 / 10 ^ 7 /\
  exists c, 0 <= c /\ c <= / 4 * (hz * hz / (20 * (20 + hz))) /\ c * (lv X * lv X) <= / 4 * (hz * hz * ((20 + hz) / 20)) /\ Rabs (fval r - (ln (lv X) - c)) <= 385 / 10 ^ 8.
Proof.
  intros Hp Hr. pose proof (interp_pos logTable ph ltac:(rewrite log_len; lia) Hp Hr) as IP. pose proof (index_near ph (zlen logTable - 1) ltac:(rewrite log_len; lia) Hp Hr) as IN. rewrite log_len in IP, IN. change (2048 - 1)%Z with 2047%Z in *. cbn zeta in IP, IN.
  set (x := fmul ph (f32_of_int 2047)) in *. set (X := fval x) in *. set (i := Ztrunc X) in *. destruct IN as (_ & RX & NX). destruct IP as (HI & HB & IP).
  destruct (log_entry i ltac:(lia)) as (n0 & d0 & M0 & N0 & F0 & E0 & B0 & A0). destruct (log_entry ((i + 1) mod 2048) (Z.mod_pos_bound (i + 1) 2048 ltac:(lia))) as (n1 & d1 & M1 & N1 & F1 & E1 & B1 & A1).
  destruct (IP d0 d1 N0 N1) as (p & FP & EP & ER & _). clear IP. set (t := fval p) in *. assert (Ht : 0 <= t < 1) by lra.
  assert (I0 : 0 <= IZR i <= 2047) by (split; apply IZR_le; lia).
  exists X, (finterpolate d0 d1 p). split; [exact RX|]. split; [exact NX|]. split; [exact ER|].
  set (v0 := IZR n0 / 1000000) in *. set (v1 := IZR n1 / 1000000) in *. assert (V0 : 2995732 / 10 ^ 6 <= v0 <= 9903487 / 10 ^ 6) by (unfold v0; destruct B0 as [b1 b2]; apply IZR_le in b1, b2; lra). assert (V1 : 2995732 / 10 ^ 6 <= v1 <= 9903487 / 10 ^ 6) by (unfold v1; destruct B1 as [b1 b2]; apply IZR_le in b1, b2; lra).
  assert (R0 : Rabs (fval d0 - v0) <= 48 / 10 ^ 8 /\ (v0 <= 4 -> Rabs (fval d0 - v0) <= 12 / 10 ^ 8)).
  { rewrite E0. split; [pose proof (RN_err 4 v0 ltac:(lia) ltac:(change (bpow radix2 4) with 16; apply Rabs_le; lra)) as R; change (bpow radix2 (4 - 25)) with (/ 2097152) in R; lra|]. intros H. pose proof (RN_err 2 v0 ltac:(lia) ltac:(change (bpow radix2 2) with 4; apply Rabs_le; lra)) as R. change (bpow radix2 (2 - 25)) with (/ 8388608) in R. lra. }
  assert (R1 : Rabs (fval d1 - v1) <= 48 / 10 ^ 8 /\ (v1 <= 4 -> Rabs (fval d1 - v1) <= 12 / 10 ^ 8)).
  { rewrite E1. split; [pose proof (RN_err 4 v1 ltac:(lia) ltac:(change (bpow radix2 4) with 16; apply Rabs_le; lra)) as R; change (bpow radix2 (4 - 25)) with (/ 2097152) in R; lra|]. intros H. pose proof (RN_err 2 v1 ltac:(lia) ltac:(change (bpow radix2 2) with 4; apply Rabs_le; lra)) as R. change (bpow radix2 (2 - 25)) with (/ 8388608) in R. lra. }
  destruct R0 as [R0 R0']. destruct R1 as [R1 R1']. apply Rabs_le_inv in R0, R1.
  assert (P0 : Rabs (fval d0) <= bpow radix2 4) by (change (bpow radix2 4) with 16; apply Rabs_le; lra). assert (P1 : Rabs (fval d1) <= bpow radix2 4) by (change (bpow radix2 4) with 16; apply Rabs_le; lra).
  destruct (interp_val 4 d0 d1 p ltac:(lia) F0 F1 FP P0 P1 ltac:(fold t; lra)) as (FR & _ & _). split; [exact FR|].
  pose proof (interp_accurate 4 d0 d1 p ltac:(lia) F0 F1 FP P0 P1 ltac:(fold t; lra)) as AC. fold t in AC. change (bpow radix2 (4 - 25)) with (/ 2097152) in AC. pose proof (Rabs_le_inv _ _ AC) as AC'.
  assert (L20 : 20 <= lv (IZR i)) by (unfold lv; lra). assert (HZ : 0 < hz) by (unfold hz; lra).
  destruct (Z.eq_dec i 2047) as [Ei|Ei].
  - assert (T0 : t = 0) by (rewrite Ei in HB, EP; lra). assert (EX : X = IZR i) by lra. destruct (fzero_cases p (proj2 FP) (proj1 FP) T0) as [s Es]. rewrite Es. destruct (interp_at_0 d0 d1 s F0 F1) as [_ ->]. apply Rabs_le_inv in A0. rewrite EX.
    assert (LB : 29957312 / 10 ^ 7 <= fval d0). { destruct (Rle_lt_dec v0 4) as [L|L]; [specialize (R0' L); apply Rabs_le_inv in R0'; lra|lra]. }
    split; [lra|]. exists 0. split; [lra|]. split; [assert (0 < hz * hz / (20 * (20 + hz))) by (clear - HZ; apply Rdiv_lt_0_compat; apply Rmult_lt_0_compat; lra); lra|]. split; [rewrite Rmult_0_l; assert (0 < hz * hz * ((20 + hz) / 20)) by (clear - HZ; apply Rmult_lt_0_compat; [apply Rmult_lt_0_compat; lra|lra]); lra|]. apply Rabs_le. lra.
  - rewrite Z.mod_small in N1, M1, A1 by lia. pose proof (steps_nth _ _ _ _ steps_checked M0 M1) as ST. assert (SV : v0 <= v1 <= v0 + 4 / 10) by (unfold v0, v1; destruct ST as [s1 s2]; apply IZR_le in s1, s2; rewrite plus_IZR in s2; lra).
    assert (TD : - (t * (96 / 10 ^ 8)) <= t * (fval d1 - fval d0) <= fval d1 - fval d0 + 96 / 10 ^ 8). { split; [replace (- (t * (96 / 10 ^ 8))) with (t * (- (96 / 10 ^ 8))) by ring; apply Rmult_le_compat_l; lra|]. clear - Ht R0 R1 SV. assert ((1 - t) * (- (96 / 10 ^ 8)) <= (1 - t) * (fval d1 - fval d0)) by (apply Rmult_le_compat_l; lra). lra. }
    split.
    + assert (UP : fval (finterpolate d0 d1 p) <= 99034899 / 10 ^ 7).
      { assert (G : (1 - t) * fval d0 <= (1 - t) * (9903487 / 10 ^ 6 + 48 / 10 ^ 8)) by (apply Rmult_le_compat_l; lra). assert (G1 : t * fval d1 <= t * (9903487 / 10 ^ 6 + 48 / 10 ^ 8)) by (apply Rmult_le_compat_l; lra). lra. }
      split; [|exact UP]. destruct (Rle_lt_dec v1 (399 / 100)) as [L|L].
      * specialize (R0' ltac:(lra)). specialize (R1' ltac:(lra)). apply Rabs_le_inv in R0', R1'.
        pose proof (interp_accurate 2 d0 d1 p ltac:(lia) F0 F1 FP ltac:(change (bpow radix2 2) with 4; apply Rabs_le; lra) ltac:(change (bpow radix2 2) with 4; apply Rabs_le; lra) ltac:(fold t; lra)) as AC2. fold t in AC2. change (bpow radix2 (2 - 25)) with (/ 8388608) in AC2. apply Rabs_le_inv in AC2.
        assert (G : (1 - t) * (2995732 / 10 ^ 6 - 12 / 10 ^ 8) <= (1 - t) * fval d0) by (apply Rmult_le_compat_l; lra). assert (G1 : t * (2995732 / 10 ^ 6 - 12 / 10 ^ 8) <= t * fval d1) by (apply Rmult_le_compat_l; lra). lra.
      * assert (G : (1 - t) * 3 <= (1 - t) * fval d0) by (apply Rmult_le_compat_l; lra). assert (G1 : t * 3 <= t * fval d1) by (apply Rmult_le_compat_l; lra). lra.
    + set (a := lv (IZR i)) in *. assert (E1' : lv (IZR (i + 1)) = a + hz) by (unfold a, lv, hz; rewrite plus_IZR; field). rewrite E1' in A1. assert (EX : lv X = a + t * hz) by (unfold a, lv, hz; rewrite EP; field). rewrite EX.
      pose proof (ln_curve a hz t ltac:(lra) ltac:(lra) ltac:(lra)) as CV. set (c := ln (a + t * hz) - ((1 - t) * ln a + t * ln (a + hz))) in *. exists c. split; [apply CV|].
      assert (CI : hz * hz / (a * (a + hz)) <= hz * hz / (20 * (20 + hz))). { clear - HZ L20. unfold Rdiv. apply Rmult_le_compat_l; [nra|]. apply Rinv_le; [apply Rmult_lt_0_compat; lra|apply Rmult_le_compat; lra]. }
      split; [lra|]. split.
      * assert (PA : 0 < a * (a + hz)) by (apply Rmult_lt_0_compat; lra). assert (TH : 0 <= t * hz <= hz) by (clear - Ht HZ; split; [apply Rmult_le_pos; lra|rewrite <- (Rmult_1_l hz) at 2; apply Rmult_le_compat_r; lra]). assert (UB : (a + t * hz) * (a + t * hz) <= (a + hz) * (a + hz)) by (apply Rmult_le_compat; lra).
        apply Rle_trans with (/ 4 * (hz * hz / (a * (a + hz))) * ((a + hz) * (a + hz))); [apply Rmult_le_compat; [lra|apply Rmult_le_pos; lra|lra|exact UB]|]. replace (/ 4 * (hz * hz / (a * (a + hz))) * ((a + hz) * (a + hz))) with (/ 4 * (hz * hz * ((a + hz) / a))) by (field; lra).
        apply Rmult_le_compat_l; [lra|]. apply Rmult_le_compat_l; [apply Rmult_le_pos; lra|]. replace ((a + hz) / a) with (1 + hz / a) by (field; lra). replace ((20 + hz) / 20) with (1 + hz / 20) by field. apply Rplus_le_compat_l. unfold Rdiv. apply Rmult_le_compat_l; [lra|]. apply Rinv_le; lra.
      * apply Rabs_le_inv in A0, A1. set (l0 := ln a) in *. set (l1 := ln (a + hz)) in *. replace (ln (a + t * hz) - c) with ((1 - t) * l0 + t * l1) by (unfold c; ring).
        assert (G0 : (1 - t) * (- (145 / 10 ^ 8)) <= (1 - t) * (fval d0 - l0) <= (1 - t) * (145 / 10 ^ 8)) by (split; apply Rmult_le_compat_l; lra). assert (G1 : t * (- (145 / 10 ^ 8)) <= t * (fval d1 - l1) <= t * (145 / 10 ^ 8)) by (split; apply Rmult_le_compat_l; lra).
        apply Rabs_le. lra.
Qed.

Lemma clamp_freq v : finite_f32 v -> let c := constrain_f v (f32_of_int 20) (f32_of_int 20000) in finite_f32 c /\ fval c = Rmax 20 (Rmin 20000 (fval v)).
Proof. intros Hv. destruct (int_b 20 ltac:(lia)) as [A EA]. destruct (int_b 20000 ltac:(lia)) as [B EB]. destruct (Audio.constrain_val v (f32_of_int 20) (f32_of_int 20000) Hv A B ltac:(rewrite EA, EB; lra)) as [F E]. rewrite EA, EB in E. auto. Qed.
Lemma map_freq c : finite_f32 c -> 20 <= fval c <= 20000 -> let ph := map_value_f c (f32_of_int 20) (f32_of_int 20000) f32_zero f32_one in
  finite_f32 ph /\ 0 <= fval ph <= 1 /\ Rabs (fval ph - (fval c - 20) / 19980) <= 12 / 10 ^ 8 * ((fval c - 20) / 19980) + 1 / 10 ^ 25.
Proof.
  intros Hc Hr ph. destruct (int_b 20 ltac:(lia)) as [FA EA]. destruct (int_b 20000 ltac:(lia)) as [FB EB]. destruct zero_one_b as (FZ & EZ & FO & EO). destruct (int_b 19980 ltac:(lia)) as [FD ED].
  assert (ES : fsub (f32_of_int 20000) (f32_of_int 20) = f32_of_int 19980) by (vm_compute; reflexivity). assert (E1 : fsub f32_one f32_zero = f32_one) by (vm_compute; reflexivity). unfold ph, map_value_f. rewrite ES, E1.
  destruct (fsub_b c (f32_of_int 20) Hc FA) as [FS EVS]; [rewrite EA; apply (small_le_127 15); [lia|]; change (IZR (2 ^ 15)) with 32768; apply Rabs_le; lra|]. rewrite EA in EVS. set (s := fsub c (f32_of_int 20)) in *. set (d := fval c - 20) in *.
  assert (S0 : 0 <= fval s <= 19980). { rewrite EVS. split; [rewrite <- RN_0; apply RN_le; unfold d; lra|rewrite <- (RN_id 19980) by (apply (in_int 19980); lia); apply RN_le; unfold d; lra]. }
  destruct (fmul_one s (proj1 FS) (proj2 FS)) as [EM FM]. assert (FM' : finite_f32 (fmul s f32_one)) by (split; [apply fmul_valid; [apply FS|apply FO]|exact FM]).
  destruct (fdiv_b (fmul s f32_one) (f32_of_int 19980) FM' FD) as [FQ EQ]; [rewrite ED; lra|rewrite EM, ED; apply (small_le_127 0); [lia|]; change (IZR (2 ^ 0)) with 1; apply Rabs_le; lra|]. rewrite EM, ED in EQ. set (q := fdiv (fmul s f32_one) (f32_of_int 19980)) in *.
  assert (Q0 : 0 <= fval q <= 1). { rewrite EQ. split; [rewrite <- RN_0; apply RN_le; lra|rewrite <- (RN_id 1) by (apply (in_int 1); lia); apply RN_le; lra]. }
  destruct (fadd_b q f32_zero FQ FZ) as [FP EP]; [rewrite EZ, Rplus_0_r; apply (small_le_127 0); [lia|]; change (IZR (2 ^ 0)) with 1; apply Rabs_le; lra|]. rewrite EZ, Rplus_0_r, RN_id in EP by (apply fval_in, FQ). split; [exact FP|]. rewrite EP. split; [exact Q0|]. rewrite EQ.
  pose proof (RN_err_mixed d) as R1. pose proof (RN_err_mixed (fval s / 19980)) as R2. rewrite <- EVS in R1. rewrite (Rabs_right d) in R1 by (unfold d; lra). rewrite (Rabs_right (fval s / 19980)) in R2 by lra. change (bpow radix2 (-24)) with (/ 16777216) in R1, R2. pose proof tiny150 as TT. apply Rabs_le_inv in R1, R2. assert (0 <= d) by (unfold d; lra). apply Rabs_le. lra.
Qed.
Lemma const_b : finite_f32 (micro 2995730) /\ finite_f32 (micro 6907760) /\ fval (micro 2995730) = 12565002 / 4194304 /\ fval (micro 6907760) = 14486623 / 2097152.
Proof.
  destruct (micro_b 2995730 ltac:(lia)) as [F1 _]. destruct (micro_b 6907760 ltac:(lia)) as [F2 _]. split; [exact F1|]. split; [exact F2|].
  split; [replace (micro 2995730) with (S754_finite false 12565002 (-22)) by (vm_compute; reflexivity); change (fval (S754_finite false 12565002 (-22))) with (IZR 12565002 * / 4194304)|replace (micro 6907760) with (S754_finite false 14486623 (-21)) by (vm_compute; reflexivity); change (fval (S754_finite false 14486623 (-21))) with (IZR 14486623 * / 2097152)]; lra.
Qed.
Lemma freq_norm v : finite_f32 v -> let f := Rmax 20 (Rmin 20000 (fval v)) in let target := ln (f / 20) / ln 1000 in
  exists r, audioFreqToNorm v = Ok r /\ finite_f32 r /\ 0 <= fval r <= 1 /\ fval r <= target + 3 / 10 ^ 6 /\ target - 6 / 1000 <= fval r /\ target - (3 / 10 ^ 6 + 6 / (f * f)) <= fval r.
Proof.
  intros Hv f target. destruct (clamp_freq v Hv) as [FC EC]. cbn zeta in FC, EC. fold f in EC. set (c := constrain_f v (f32_of_int 20) (f32_of_int 20000)) in *.
  assert (RF : 20 <= f <= 20000) by (unfold f; split; [apply Rmax_l|apply Rmax_lub; [lra|apply Rmin_l]]). destruct (map_freq c FC ltac:(rewrite EC; exact RF)) as (FPh & RPh & APh). cbn zeta in *. set (ph := map_value_f c (f32_of_int 20) (f32_of_int 20000) f32_zero f32_one) in *. rewrite EC in APh.
  destruct (log_interp ph FPh RPh) as (X & y & RX & NX & E & FY & BY & cc & C0 & C1 & C2 & AY). destruct const_b as (FK1 & FK2 & EK1 & EK2).
  unfold audioFreqToNorm. fold c ph. rewrite E. cbn [bind]. exists (fdiv (fsub y (micro 2995730)) (micro 6907760)). split; [reflexivity|].
  destruct (fsub_b y (micro 2995730) FY FK1) as [FS ES]; [rewrite EK1; apply (small_le_127 4); [lia|]; change (IZR (2 ^ 4)) with 16; apply Rabs_le; lra|]. rewrite EK1 in ES. set (s := fsub y (micro 2995730)) in *.
  assert (S0 : 0 <= fval s <= 14486623 / 2097152). { rewrite ES. split; [rewrite <- RN_0; apply RN_le; lra|]. rewrite <- EK2. rewrite <- (RN_id (fval (micro 6907760))) by (apply fval_in, FK2). apply RN_le. rewrite EK2. lra. }
  assert (DQ : 0 <= fval s / (14486623 / 2097152) <= 1). { split; [apply Rmult_le_pos; [lra|left; apply Rinv_0_lt_compat; lra]|]. apply Rmult_le_reg_r with (14486623 / 2097152); [lra|]. unfold Rdiv at 1. rewrite Rmult_assoc, Rinv_l by lra. lra. }
  destruct (fdiv_b s (micro 6907760) FS FK2) as [FQ EQ]; [rewrite EK2; lra|rewrite EK2; apply (small_le_127 0); [lia|]; change (IZR (2 ^ 0)) with 1; apply Rabs_le; lra|]. rewrite EK2 in EQ. split; [exact FQ|]. rewrite EQ.
  split. { split; [rewrite <- RN_0; apply RN_le; lra|rewrite <- (RN_id 1) by (apply (in_int 1); lia); apply RN_le; lra]. }
  (* rounding of the last two steps *)
  assert (A1 : Rabs (fval s - (fval y - 12565002 / 4194304)) <= 24 / 10 ^ 8). { rewrite ES. pose proof (RN_err 3 (fval y - 12565002 / 4194304) ltac:(lia) ltac:(change (bpow radix2 3) with 8; apply Rabs_le; lra)) as R. change (bpow radix2 (3 - 25)) with (/ 4194304) in R. lra. }
  pose proof (RN_err 0 (fval s / (14486623 / 2097152)) ltac:(lia) ltac:(change (bpow radix2 0) with 1; apply Rabs_le; lra)) as A2. change (bpow radix2 (0 - 25)) with (/ 33554432) in A2.
  (* the frequency actually looked up *)
  set (g := lv X) in *. assert (HG : Rabs (g - f) <= 2 / 10 ^ 7 * f). 
  { pose proof tiny150 as TT. set (w := (f - 20) / 19980) in *. assert (W0 : 0 <= w <= 1) by (unfold w; lra). assert (EF : f = 20 + 19980 * w) by (unfold w; field). apply Rabs_le_inv in APh, NX. unfold g, lv. rewrite EF. apply Rabs_le. lra. }
  apply Rabs_le_inv in HG. assert (GP : 19 <= g) by lra.
  assert (LG : Rabs (ln g - ln f) <= 21 / 10 ^ 8). { pose proof (ln_le_sub f g ltac:(lra) ltac:(lra)) as U. pose proof (ln_le_sub g f ltac:(lra) ltac:(lra)) as L.
    assert (g / f - 1 <= 2 / 10 ^ 7) by (apply Rmult_le_reg_r with f; [lra|]; replace ((g / f - 1) * f) with (g - f) by (field; lra); lra). assert (f / g - 1 <= 21 / 10 ^ 8) by (apply Rmult_le_reg_r with g; [lra|]; replace ((f / g - 1) * g) with (f - g) by (field; lra); lra). apply Rabs_le. lra. }
  pose proof ln20 as L20. pose proof ln1000 as L1000. assert (ET : target = (ln f - ln 20) / ln 1000) by (unfold target; rewrite ln_div by lra; reflexivity).
  assert (TF : 0 <= ln f - ln 20 <= ln 1000). { split; [pose proof (ln_le_mono 20 f ltac:(lra) ltac:(lra)); lra|]. pose proof (ln_le_mono f 20000 ltac:(lra) ltac:(lra)) as H. replace 20000 with (20 * 1000) in H by ring. rewrite ln_mult in H by lra. lra. }
  assert (T01 : 0 <= target <= 1). { rewrite ET. split; [apply Rmult_le_pos; [lra|left; apply Rinv_0_lt_compat; lra]|]. apply Rmult_le_reg_r with (ln 1000); [lra|]. unfold Rdiv. rewrite Rmult_assoc, Rinv_l by lra. lra. }
  set (D := ln 1000) in *. assert (EL : ln f = ln 20 + target * D) by (rewrite ET; field; lra). set (K := 14486623 / 2097152) in *. assert (HK : 4 / 10 ^ 6 <= K - D <= 5 / 10 ^ 6) by (unfold K; lra).
  set (q := fval s / K) in *. assert (EQ2 : fval s = q * K) by (unfold q; field; unfold K; lra).
  apply Rabs_le_inv in A1, A2, AY, LG. assert (KR : 69 / 10 <= K <= 691 / 100) by (unfold K; lra).
  assert (TK : 0 <= target * (K - D) <= 5 / 10 ^ 6) by (split; [apply Rmult_le_pos; lra|]; rewrite <- (Rmult_1_l (5 / 10 ^ 6)); apply Rmult_le_compat; lra).
  assert (M : Rabs ((q - target) * K + cc) <= 113 / 10 ^ 7). { replace ((q - target) * K) with (fval s - target * D - target * (K - D)) by (rewrite EQ2; ring). apply Rabs_le. lra. }
  apply Rabs_le_inv in M.
  assert (U1 : q - target <= 18 / 10 ^ 7) by (apply Rmult_le_reg_r with K; lra). split; [lra|]. split.
  - assert (cc <= 4003 / 100000) by (apply Rle_trans with (1 := C1); unfold hz; lra). assert (- (599 / 10 ^ 5) <= q - target); [|lra]. apply Rmult_le_reg_r with K; lra.
  - assert (FF : 0 < f * f) by (apply Rmult_lt_0_compat; lra). assert (CF : cc * (f * f) <= 3545 / 100).
    { apply Rle_trans with (cc * ((1 + 1 / 10 ^ 6) * (g * g))). { apply Rmult_le_compat_l; [exact C0|]. assert (H1 : f <= g * (1 + 3 / 10 ^ 7)) by lra. apply Rle_trans with (g * (1 + 3 / 10 ^ 7) * (g * (1 + 3 / 10 ^ 7))); [apply Rmult_le_compat; lra|]. assert (0 < g * g) by (apply Rmult_lt_0_compat; lra). replace (g * (1 + 3 / 10 ^ 7) * (g * (1 + 3 / 10 ^ 7))) with ((1 + 3 / 10 ^ 7) * (1 + 3 / 10 ^ 7) * (g * g)) by ring. apply Rmult_le_compat_r; lra. }
      replace (cc * ((1 + 1 / 10 ^ 6) * (g * g))) with ((1 + 1 / 10 ^ 6) * (cc * (g * g))) by ring. apply Rle_trans with ((1 + 1 / 10 ^ 6) * (/ 4 * (hz * hz * ((20 + hz) / 20)))); [apply Rmult_le_compat_l; lra|]. unfold hz. lra. }
    assert (CK : cc / K <= 6 / (f * f)). { apply Rmult_le_reg_r with (K * (f * f)); [apply Rmult_lt_0_compat; lra|]. replace (cc / K * (K * (f * f))) with (cc * (f * f)) by (field; lra). replace (6 / (f * f) * (K * (f * f))) with (6 * K) by (field; lra). lra. }
    assert (EQC : cc = cc / K * K) by (field; lra). set (ck := cc / K) in *. assert (- (18 / 10 ^ 7) <= q - target + ck); [|lra]. apply Rmult_le_reg_r with K; lra.
Qed.
Lemma freq_special : audioFreqToNorm (S754_infinity false) = audioFreqToNorm (f32_of_int 20000) /\ audioFreqToNorm (S754_infinity true) = audioFreqToNorm (f32_of_int 20) /\ audioFreqToNorm S754_nan = UB BadCast.
Proof. repeat split; vm_compute; reflexivity. Qed.
