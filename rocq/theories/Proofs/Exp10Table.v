(* exp10Table. *)
From Coq Require Import Reals Lra Lia ZArith List Floats.SpecFloat.
From Flocq Require Import Core.
From Verif.Common Require Import Base Lemmas Lists F32 F32Order F32Real F32Arith.
From Verif.Model Require Import MathFloat Table MathTables MathLookup Audio.
From Verif.Proofs Require Import ExpLn MathFloat TableF MathTables SinTable ExpTable.
From Verif.Proofs Require Table Audio.
Import ListNotations.
Open Scope R_scope.

(** the table *)
Definition exp10_ok (n lo hi : Z) : bool :=
  ((n * W * 10 ^ 8 <=? (10 ^ 8 + 50) * 10 ^ 6 * lo) && ((10 ^ 8 - 50) * 10 ^ 6 * hi <=? n * W * 10 ^ 8) && (1000000 <=? n) && (n <=? 1024000000))%Z.
Definition exp10_glo : Z := Eval vm_compute in exp_lo 10 (10 * 69314718055) (2047 * 10 ^ 11).
Definition exp10_ghi : Z := Eval vm_compute in exp_hi 10 (10 * 69314718057) (2047 * 10 ^ 11).
Lemma exp10_checked : powers_ok exp10_ok exp10_glo exp10_ghi W W exp10Table_micros = true.
Proof. vm_compute. reflexivity. Qed.
Definition eh10 : R := 10 * ln 2 / 2047.
Lemma exp10_step : fx exp10_glo <= exp eh10 <= fx exp10_ghi.
Proof.
  pose proof (exp_lo_ok 10 (10 * 69314718055) (2047 * 10 ^ 11) ltac:(vm_compute; split; discriminate) eq_refl) as L.
  pose proof (exp_hi_ok 10 (10 * 69314718057) (2047 * 10 ^ 11) ltac:(vm_compute; split; discriminate) eq_refl) as U.
  pose proof ln2_bounds as LB. split.
  - apply Rle_trans with (1 := L). apply exp_le_mono. rewrite !mult_IZR. change (IZR (10 ^ 11)) with 100000000000. unfold eh10. lra.
  - apply Rle_trans with (2 := U). apply exp_le_mono. rewrite !mult_IZR. change (IZR (10 ^ 11)) with 100000000000. unfold eh10. lra.
Qed.
Lemma eh10_bounds : 3386 / 10 ^ 6 <= eh10 <= 33862 / 10 ^ 7.
Proof. pose proof ln2_bounds. unfold eh10. lra. Qed.
Lemma exp10_len : zlen exp10Table = 2048%Z.
Proof. unfold exp10Table. rewrite zlen_map. vm_compute. reflexivity. Qed.
Lemma exp10_arith n lo hi w V : 1000000 <= n <= 1024000000 -> 0 < w -> n * w * 100000000 <= (100000000 + 50) * 1000000 * lo -> (100000000 - 50) * 1000000 * hi <= n * w * 100000000 ->
  lo / w <= V -> V <= hi / w -> Rabs (RN (n / 1000000) - V) <= 561 / 10 ^ 9 * V.
Proof.
  intros HN WP C1 C2 L U. set (v := n / 1000000). assert (En : n = v * 1000000) by (unfold v; field). rewrite En in HN, C1, C2. clearbody v.
  assert (R1 : v * 100000000 <= 100000050 * V). { apply Rle_trans with (100000050 * (lo / w)); [|apply Rmult_le_compat_l; lra]. apply Rmult_le_reg_r with w; [exact WP|]. replace (100000050 * (lo / w) * w) with (100000050 * lo) by (field; lra). lra. }
  assert (R2 : 99999950 * V <= v * 100000000). { apply Rle_trans with (99999950 * (hi / w)); [apply Rmult_le_compat_l; lra|]. apply Rmult_le_reg_r with w; [exact WP|]. replace (99999950 * (hi / w) * w) with (99999950 * hi) by (field; lra). lra. }
  assert (RR : Rabs (RN v - v) <= / 16777216 * v). { pose proof (RN_rel v) as R. rewrite (Rabs_right v) in R by lra. apply R. apply Rle_trans with 1; [|lra]. change 1 with (bpow radix2 0). apply bpow_le. lia. }
  apply Rabs_le_inv in RR. apply Rabs_le. lra.
Qed.
Lemma exp10_entry i : (0 <= i < 2048)%Z -> exists d, znth exp10Table i = Some d /\ finite_f32 d /\ 1 <= fval d <= 1024 /\ Rabs (fval d - exp (IZR i * eh10)) <= 561 / 10 ^ 9 * exp (IZR i * eh10).
Proof.
  intros Hi. destruct (znth_some exp10Table_micros i) as [n Hn]; [change (zlen exp10Table_micros) with 2048%Z; lia|].
  destruct (powers_ok_nth exp10_ok exp10_glo exp10_ghi eh10 exp10Table_micros ltac:(discriminate) ltac:(discriminate) exp10_step W W 0 i n ltac:(discriminate) ltac:(discriminate)) as (lo & hi & C & L & U); [rewrite Rmult_0_l, exp_0, fxW1; lra|exact exp10_checked|exact Hn|]. rewrite Rplus_0_l in L, U.
  unfold exp10_ok in C. apply andb_prop in C. destruct C as [C C4]. apply andb_prop in C. destruct C as [C C3]. apply andb_prop in C. destruct C as [C1 C2].
  apply Z.leb_le in C1, C2, C3, C4. apply IZR_le in C1, C2. rewrite !mult_IZR in C1, C2. rewrite plus_IZR in C1. rewrite minus_IZR in C2. change (IZR (10 ^ 8)) with 100000000 in *. change (IZR (10 ^ 6)) with 1000000 in *.
  assert (HN : 1000000 <= IZR n <= 1024000000) by (split; apply IZR_le; assumption). destruct (micro_b n) as [FM EM]; [lia|].
  exists (micro n). split; [unfold exp10Table; rewrite znth_map, Hn; reflexivity|]. split; [exact FM|]. rewrite EM. assert (HV : 1 <= IZR n / 1000000 <= 1024) by lra.
  split. { split; [rewrite <- (RN_id 1) by (apply (in_int 1); lia)|rewrite <- (RN_id 1024) by (apply (in_int 1024); lia)]; apply RN_le; lra. }
  pose proof W_pos as WP. apply (exp10_arith (IZR n) _ _ _ _ HN WP C1 C2); [exact L|exact U].
Qed.

Lemma mag_scale10 v : 1 <= v <= 2048 -> exists e, (0 <= e <= 12)%Z /\ v <= bpow radix2 e <= 2 * v.
Proof.
  intros Hv. destruct (mag radix2 v) as [e He]. specialize (He ltac:(lra)). rewrite Rabs_right in He by lra. exists e. assert (E1 : (0 < e)%Z). { apply (lt_bpow radix2). change (bpow radix2 0) with 1. lra. }
  assert (E2 : (e - 1 < 12)%Z). { apply (lt_bpow radix2). change (bpow radix2 12) with 4096. lra. } split; [lia|]. split; [lra|]. replace e with (e - 1 + 1)%Z by lia. rewrite pow_step. lra.
Qed.
Lemma exp10_interp ph : finite_f32 ph -> 0 <= fval ph <= 1 ->
  exists r, Finterp exp10Table ph = Ok r /\ finite_f32 r /\ 1 <= fval r <= 1024 /\ Rabs (fval r - exp (10 * fval ph * ln 2)) <= 3 / 10 ^ 6 * exp (10 * fval ph * ln 2).
Proof.
  intros Hp Hr. pose proof (interp_pos exp10Table ph ltac:(rewrite exp10_len; lia) Hp Hr) as IP. pose proof (index_near ph (zlen exp10Table - 1) ltac:(rewrite exp10_len; lia) Hp Hr) as IN. rewrite exp10_len in IP, IN. change (2048 - 1)%Z with 2047%Z in *. cbn zeta in IP, IN.
  set (x := fmul ph (f32_of_int 2047)) in *. set (X := fval x) in *. set (i := Ztrunc X) in *. destruct IN as (_ & RX & NX). destruct IP as (HI & HB & IP).
  destruct (exp10_entry i ltac:(lia)) as (d0 & N0 & F0 & B0 & A0). destruct (exp10_entry ((i + 1) mod 2048) (Z.mod_pos_bound (i + 1) 2048 ltac:(lia))) as (d1 & N1 & F1 & B1 & A1).
  destruct (IP d0 d1 N0 N1) as (p & FP & EP & ER & _). clear IP. set (t := fval p) in *. assert (Ht : 0 <= t < 1) by lra.
  exists (finterpolate d0 d1 p). split; [exact ER|].
  assert (P0 : Rabs (fval d0) <= bpow radix2 10) by (change (bpow radix2 10) with 1024; apply Rabs_le; lra). assert (P1 : Rabs (fval d1) <= bpow radix2 10) by (change (bpow radix2 10) with 1024; apply Rabs_le; lra).
  destruct (interp_val 10 d0 d1 p ltac:(lia) F0 F1 FP P0 P1 ltac:(fold t; lra)) as (FR & EV & _). split; [exact FR|].
  assert (LOW : 1 <= fval (finterpolate d0 d1 p)).
  { rewrite EV. fold t. set (q := RN (1 - t)). assert (Q : Rabs (q - (1 - t)) <= bpow radix2 (0 - 25)) by (apply RN_err; [lia|]; change (bpow radix2 0) with 1; apply Rabs_le; lra). apply Rabs_le_inv in Q.
    assert (Q0 : 0 <= q) by (unfold q; rewrite <- RN_0; apply RN_le; lra).
    assert (G0 : q <= RN (fval d0 * q)). { rewrite <- (RN_id q) at 1 by apply RN_in. apply RN_le. rewrite <- (Rmult_1_l q) at 1. apply Rmult_le_compat_r; lra. }
    assert (G1 : t <= RN (fval d1 * t)). { rewrite <- (RN_id t) at 1 by (apply fval_in, FP). apply RN_le. rewrite <- (Rmult_1_l t) at 1. apply Rmult_le_compat_r; lra. }
    apply Rle_trans with (RN (1 - bpow radix2 (-25))); [|apply RN_le; change (0 - 25)%Z with (-25)%Z in Q; lra].
    (* 1 - 2^-25 lies halfway between two floats and is rounded to the even one, 1 *)
    destruct (f32_of_val (2 ^ 25 - 1) (-25)) as [A _]; [apply RN_pow_bound; apply (small_le_127 0); [lia|]; change (IZR (2 ^ 25 - 1)) with 33554431; change (bpow radix2 (-25)) with (/ 33554432); change (IZR (2 ^ 0)) with 1; apply Rabs_le; lra|].
    replace (1 - bpow radix2 (-25)) with (IZR (2 ^ 25 - 1) * bpow radix2 (-25)) by (change (IZR (2 ^ 25 - 1)) with 33554431; change (bpow radix2 (-25)) with (/ 33554432); lra). rewrite <- A.
    replace (f32_of (2 ^ 25 - 1) (-25)) with f32_one by (vm_compute; reflexivity). destruct one_b as [_ E1]. rewrite E1. lra. }
  pose proof (interp_bounded 10 d0 d1 p ltac:(lia) F0 F1 FP P0 P1 ltac:(fold t; lra)) as UP. change (bpow radix2 10) with 1024 in UP. apply Rabs_le_inv in UP. split; [lra|].
  (* accuracy at the position of the index *)
  pose proof eh10_bounds as EB. assert (HV0 : 0 < exp (IZR i * eh10)) by apply exp_pos. set (V := exp (X * eh10)).
  assert (CORE : Rabs (fval (finterpolate d0 d1 p) - V) <= 2412 / 10 ^ 9 * V).
  { destruct (Z.eq_dec i 2047) as [Ei|Ei].
    - assert (T0 : t = 0) by (rewrite Ei in HB, EP; lra). unfold V. assert (EX : X = IZR i) by lra. rewrite EX.
      destruct (fzero_cases p (proj2 FP) (proj1 FP) T0) as [s Es]. rewrite Es. destruct (interp_at_0 d0 d1 s F0 F1) as [_ ->]. apply Rle_trans with (1 := A0). apply Rmult_le_compat_r; lra.
    - rewrite Z.mod_small in A1 by lia. rewrite plus_IZR in A1. replace ((IZR i + 1) * eh10) with (IZR i * eh10 + eh10) in A1 by ring. rewrite exp_plus in A1. set (ea := exp (IZR i * eh10)) in *. set (g := exp eh10) in *.
      assert (EVV : V = ea * exp (t * eh10)) by (unfold V, ea; rewrite <- exp_plus; f_equal; rewrite EP; ring).
      pose proof (exp_curve eh10 t ltac:(lra) ltac:(lra)) as CV. fold g in CV. assert (CB : eh10 ^ 2 / 8 + 3 * eh10 ^ 3 <= 15499 / 10 ^ 10).
      { assert (eh10 ^ 2 <= (33862 / 10 ^ 7) ^ 2) by (apply pow_incr; lra). assert (eh10 ^ 3 <= (33862 / 10 ^ 7) ^ 3) by (apply pow_incr; lra). lra. }
      assert (GB : 1 <= g <= 10035 / 10000). { pose proof (exp_t2 eh10 ltac:(lra)) as G. fold g in G. assert (eh10 ^ 2 <= (33862 / 10 ^ 7) ^ 2) by (apply pow_incr; lra). lra. }
      assert (VB : ea <= V). { rewrite EVV. pose proof (exp_t1 (t * eh10) ltac:(nra)) as G. rewrite <- (Rmult_1_r ea) at 1. apply Rmult_le_compat_l; lra. }
      apply Rabs_le_inv in A0, A1, CV. set (S := (1 - t) + t * g) in *.
      assert (CE : - (15499 / 10 ^ 10 * V) <= ea * S - V <= 15499 / 10 ^ 10 * V). { replace (ea * S - V) with (ea * (S - exp (t * eh10))) by (rewrite EVV; ring). split; [apply Rle_trans with (ea * (- (15499 / 10 ^ 10)))|apply Rle_trans with (ea * (15499 / 10 ^ 10))]; try (apply Rmult_le_compat_l; lra); nra. }
      set (L := fval d0 + t * (fval d1 - fval d0)).
      assert (LE : - (561 / 10 ^ 9 * (ea * S)) <= L - ea * S <= 561 / 10 ^ 9 * (ea * S)).
      { replace (L - ea * S) with ((1 - t) * (fval d0 - ea) + t * (fval d1 - ea * g)) by (unfold L, S; ring). replace (561 / 10 ^ 9 * (ea * S)) with ((1 - t) * (561 / 10 ^ 9 * ea) + t * (561 / 10 ^ 9 * (ea * g))) by (unfold S; ring).
        assert ((1 - t) * (- (561 / 10 ^ 9 * ea)) <= (1 - t) * (fval d0 - ea) <= (1 - t) * (561 / 10 ^ 9 * ea)) by (split; apply Rmult_le_compat_l; lra).
        assert (t * (- (561 / 10 ^ 9 * (ea * g))) <= t * (fval d1 - ea * g) <= t * (561 / 10 ^ 9 * (ea * g))) by (split; apply Rmult_le_compat_l; lra). lra. }
      set (m := Rmax (fval d0) (fval d1)). assert (M0 : fval d0 <= m) by apply Rmax_l. assert (M1 : fval d1 <= m) by apply Rmax_r.
      assert (MB : m <= 10036 / 10000 * V). { apply Rmax_lub; [apply Rle_trans with ((1 + 561 / 10 ^ 9) * ea); [lra|nra]|]. apply Rle_trans with ((1 + 561 / 10 ^ 9) * (ea * g)); [lra|]. assert (ea * g <= V * (10035 / 10000)) by (apply Rmult_le_compat; lra). lra. }
      assert (MR : 1 <= m <= 2048) by (split; [lra|]; unfold m; apply Rmax_lub; lra). destruct (mag_scale10 m MR) as (e & He & S1 & S2).
      pose proof (interp_accurate e d0 d1 p ltac:(lia) F0 F1 FP ltac:(apply Rabs_le; lra) ltac:(apply Rabs_le; lra) ltac:(fold t; lra)) as AC. fold t L in AC.
      assert (EE : bpow radix2 (e - 25) = bpow radix2 e * / 33554432) by (unfold Z.sub; rewrite bpow_plus; reflexivity). rewrite EE in AC. apply Rabs_le_inv in AC. apply Rabs_le. lra. }
  (* the index itself was rounded *)
  pose proof tiny150 as TT. set (Y := fval ph * 2047) in *. set (u := (X - Y) * eh10).
  assert (HY : 0 <= Y <= 2047) by (unfold Y; lra).
  assert (HU : Rabs u <= 4136 / 10 ^ 10). { unfold u. rewrite Rabs_mult, (Rabs_right eh10) by lra. apply Rle_trans with ((/ 16777216 * 2047 + 1 / 10 ^ 30) * (33862 / 10 ^ 7)); [apply Rmult_le_compat; [apply Rabs_pos|lra|lra|lra]|lra]. }
  assert (EV2 : V = exp (10 * fval ph * ln 2) * exp u). { unfold V. rewrite <- exp_plus. f_equal. unfold u, Y, eh10. field. }
  set (T := exp (10 * fval ph * ln 2)) in *. assert (TP0 : 0 < T) by apply exp_pos.
  assert (EU : Rabs (exp u - 1) <= 4137 / 10 ^ 10).
  { apply Rabs_le_inv in HU. destruct (Rle_lt_dec 0 u) as [U0|U0].
    - pose proof (exp_t2 u ltac:(lra)) as G. assert (u ^ 2 <= (4136 / 10 ^ 10) ^ 2) by (apply pow_incr; lra). apply Rabs_le. lra.
    - assert (G1 : exp u < 1) by (rewrite <- exp_0; apply exp_increasing; exact U0). pose proof (exp_ineq1_le u) as G. apply Rabs_le. lra. }
  apply Rabs_le_inv in EU, CORE. set (w := exp u) in *. rewrite EV2 in CORE.
  assert (TW : T * w <= T * (1 + 4137 / 10 ^ 10)) by (apply Rmult_le_compat_l; lra). assert (TW2 : T * (1 - 4137 / 10 ^ 10) <= T * w) by (apply Rmult_le_compat_l; lra). apply Rabs_le. lra.
Qed.
