(* exp5Table and the functions built on it. *)
From Coq Require Import Reals Lra Lia ZArith List Floats.SpecFloat.
From Flocq Require Import Core.
From Verif.Common Require Import Base Lemmas Lists F32 F32Order F32Real F32Arith.
From Verif.Model Require Import MathFloat Table MathTables MathLookup Audio.
From Verif.Proofs Require Import ExpLn MathFloat TableF MathTables SinTable.
From Verif.Proofs Require Table Audio.
Import ListNotations.
Open Scope R_scope.

(** interp on a table: the position and the two entries used *)
Lemma index_near ph k : (1 <= k <= 2 ^ 24)%Z -> finite_f32 ph -> 0 <= fval ph <= 1 -> let x := fmul ph (f32_of_int k) in
  finite_f32 x /\ 0 <= fval x <= IZR k /\ Rabs (fval x - fval ph * IZR k) <= / 16777216 * (fval ph * IZR k) + bpow radix2 (-150).
Proof.
  intros Hk Hp Hr x. destruct (int_b k ltac:(lia)) as [FI EI]. destruct (index_range [] ph k ltac:(lia) (proj1 Hp) (proj2 Hp) Hr) as [FX RX]. cbn zeta in FX, RX. fold x in FX, RX.
  assert (HK : 1 <= IZR k <= 16777216) by (split; apply IZR_le; lia). assert (H0 : 0 <= fval ph * IZR k <= IZR k) by (split; [apply Rmult_le_pos; lra|]; rewrite <- (Rmult_1_l (IZR k)) at 2; apply Rmult_le_compat_r; lra).
  destruct (fmul_b ph (f32_of_int k) Hp FI) as [FV EV]; [rewrite EI; apply (small_le_127 24); [lia|]; change (IZR (2 ^ 24)) with 16777216; apply Rabs_le; lra|]. fold x in FV, EV. rewrite EI in EV.
  split; [exact FV|]. split; [exact RX|]. rewrite EV. pose proof (RN_err_mixed (fval ph * IZR k)) as RE. rewrite (Rabs_right (fval ph * IZR k)) in RE by lra. exact RE.
Qed.
Lemma interp_pos (data : list f32) ph : (2 <= zlen data <= 2 ^ 24)%Z -> finite_f32 ph -> 0 <= fval ph <= 1 -> let x := fmul ph (f32_of_int (zlen data - 1)) in let i := Ztrunc (fval x) in
  (0 <= i <= zlen data - 1)%Z /\ IZR i <= fval x < IZR i + 1 /\
  forall d0 d1, znth data i = Some d0 -> znth data ((i + 1) mod zlen data) = Some d1 ->
  exists p, finite_f32 p /\ fval p = fval x - IZR i /\ Finterp data ph = Ok (finterpolate d0 d1 p) /\ Fclosest data ph = Ok d0.
Proof.
  intros HS Hp Hr x i. destruct (index_near ph (zlen data - 1) ltac:(lia) Hp Hr) as (FX & RX & _). fold x in FX, RX. set (n := (zlen data - 1)%Z) in *.
  assert (HI : (0 <= i <= n)%Z). { assert (0 <= i < n + 1)%Z; [|lia]. apply trunc_range; [lra| |lia]. rewrite plus_IZR. lra. }
  assert (HB : IZR i <= fval x < IZR i + 1) by (unfold i; rewrite Ztrunc_floor by lra; split; [apply Zfloor_lb|apply Zfloor_ub]).
  split; [exact HI|]. split; [exact HB|]. intros d0 d1 H0 H1. destruct (frac_exact x i FX ltac:(unfold n in *; lia) HB) as [FS ES]. exists (fsub x (f32_of_int i)). split; [exact FS|]. split; [exact ES|].
  assert (EU : f32_to_uint 32 x = Ok i) by (apply cast_val; [apply FX|reflexivity|unfold n in *; lia]).
  split.
  - unfold Finterp, interp, interp_by_index. fold n x. rewrite EU. cbn [bind]. unfold blend. rewrite Table.next_mod by (unfold n in *; lia). rewrite (rd_ok _ _ _ H0), (rd_ok _ _ _ H1). cbn [bind]. unfold finterpolate. rewrite fadd_comm. reflexivity.
  - unfold Fclosest, closest. fold n x. rewrite EU. cbn [bind]. rewrite (rd_ok _ _ _ H0). reflexivity.
Qed.

(** the table *)
(** the powers of one number, multiplied up along a list: each entry is tested against bounds for its power *)
Fixpoint powers_ok (test : Z -> Z -> Z -> bool) (glo ghi lo hi : Z) (l : list Z) : bool :=
  match l with [] => true | n :: r => if test n lo hi then powers_ok test glo ghi (dn (lo * glo)) (up (hi * ghi)) r else false end.
Lemma powers_ok_nth test glo ghi h l : (0 <= glo)%Z -> (0 <= ghi)%Z -> fx glo <= exp h <= fx ghi -> forall lo hi b k n, (0 <= lo)%Z -> (0 <= hi)%Z -> fx lo <= exp (b * h) <= fx hi ->
  powers_ok test glo ghi lo hi l = true -> znth l k = Some n -> exists lo' hi', test n lo' hi' = true /\ fx lo' <= exp ((b + IZR k) * h) <= fx hi'.
Proof.
  intros G0 G1 G. induction l as [|x r IH]; intros lo hi b k n L0 H0 B H E; [rewrite znth_nil in E; discriminate|]. cbn [powers_ok] in H. destruct (test x lo hi) eqn:T; [|discriminate].
  pose proof (znth_some_range _ _ _ E) as R. destruct (Z.eq_dec k 0) as [->|Hk].
  - rewrite znth_cons_0 in E. injection E as <-. exists lo, hi. rewrite Rplus_0_r. auto.
  - rewrite znth_cons_pos in E by lia. replace (b + IZR k) with ((b + 1) + IZR (k - 1)) by (rewrite minus_IZR; ring). apply (IH (dn (lo * glo)) (up (hi * ghi)) (b + 1) (k - 1)%Z n); [apply dn_pos; nia|apply up_pos; nia| |exact H|exact E].
    replace ((b + 1) * h) with (b * h + h) by ring. rewrite exp_plus. pose proof (exp_pos h). pose proof (exp_pos (b * h)). pose proof (fx_pos lo L0). pose proof (fx_pos glo G0).
    split; [eapply Rle_trans; [apply fx_dn|]|eapply Rle_trans; [|apply fx_up]]; apply Rmult_le_compat; lra.
Qed.
Definition exp5_ok (n lo hi : Z) : bool :=
  ((n * W * 10 ^ 8 <=? (10 ^ 8 + 53) * 10 ^ 6 * lo) && ((10 ^ 8 - 53) * 10 ^ 6 * hi <=? n * W * 10 ^ 8) && (1000000 <=? n) && (n <=? 32000000))%Z.
Definition exp5_glo : Z := Eval vm_compute in exp_lo 10 (5 * 69314718055) (2047 * 10 ^ 11).
Definition exp5_ghi : Z := Eval vm_compute in exp_hi 10 (5 * 69314718057) (2047 * 10 ^ 11).
Lemma exp5_checked : powers_ok exp5_ok exp5_glo exp5_ghi W W exp5Table_micros = true.
Proof. vm_compute. reflexivity. Qed.
Definition eh : R := 5 * ln 2 / 2047.
Lemma exp5_step : fx exp5_glo <= exp eh <= fx exp5_ghi.
Proof.
  pose proof (exp_lo_ok 10 (5 * 69314718055) (2047 * 10 ^ 11) ltac:(vm_compute; split; discriminate) eq_refl) as L.
  pose proof (exp_hi_ok 10 (5 * 69314718057) (2047 * 10 ^ 11) ltac:(vm_compute; split; discriminate) eq_refl) as U.
  pose proof ln2_bounds as LB. split.
  - apply Rle_trans with (1 := L). apply exp_le_mono. rewrite !mult_IZR. change (IZR (10 ^ 11)) with 100000000000. unfold eh. lra.
  - apply Rle_trans with (2 := U). apply exp_le_mono. rewrite !mult_IZR. change (IZR (10 ^ 11)) with 100000000000. unfold eh. lra.
Qed.
Lemma eh_bounds : 1693 / 10 ^ 6 <= eh <= 16931 / 10 ^ 7.
Proof. pose proof ln2_bounds. unfold eh. lra. Qed.
Lemma exp5_len : zlen exp5Table = 2048%Z.
Proof. unfold exp5Table. rewrite zlen_map. vm_compute. reflexivity. Qed.
Lemma exp5_arith n lo hi w V : 1000000 <= n <= 32000000 -> 0 < w -> n * w * 100000000 <= (100000000 + 53) * 1000000 * lo -> (100000000 - 53) * 1000000 * hi <= n * w * 100000000 ->
  lo / w <= V -> V <= hi / w -> Rabs (RN (n / 1000000) - V) <= 591 / 10 ^ 9 * V.
Proof.
  intros HN WP C1 C2 L U. set (v := n / 1000000). assert (En : n = v * 1000000) by (unfold v; field). rewrite En in HN, C1, C2. clearbody v.
  assert (R1 : v * 100000000 <= 100000053 * V). { apply Rle_trans with (100000053 * (lo / w)); [|apply Rmult_le_compat_l; lra]. apply Rmult_le_reg_r with w; [exact WP|]. replace (100000053 * (lo / w) * w) with (100000053 * lo) by (field; lra). lra. }
  assert (R2 : 99999947 * V <= v * 100000000). { apply Rle_trans with (99999947 * (hi / w)); [apply Rmult_le_compat_l; lra|]. apply Rmult_le_reg_r with w; [exact WP|]. replace (99999947 * (hi / w) * w) with (99999947 * hi) by (field; lra). lra. }
  assert (RR : Rabs (RN v - v) <= / 16777216 * v). { pose proof (RN_rel v) as R. rewrite (Rabs_right v) in R by lra. apply R. apply Rle_trans with 1; [|lra]. change 1 with (bpow radix2 0). apply bpow_le. lia. }
  apply Rabs_le_inv in RR. apply Rabs_le. lra.
Qed.
Lemma exp5_entry i : (0 <= i < 2048)%Z -> exists d, znth exp5Table i = Some d /\ finite_f32 d /\ 1 <= fval d <= 32 /\ Rabs (fval d - exp (IZR i * eh)) <= 591 / 10 ^ 9 * exp (IZR i * eh).
Proof.
  intros Hi. destruct (znth_some exp5Table_micros i) as [n Hn]; [change (zlen exp5Table_micros) with 2048%Z; lia|].
  destruct (powers_ok_nth exp5_ok exp5_glo exp5_ghi eh exp5Table_micros ltac:(discriminate) ltac:(discriminate) exp5_step W W 0 i n ltac:(discriminate) ltac:(discriminate)) as (lo & hi & C & L & U); [rewrite Rmult_0_l, exp_0, fxW1; lra|exact exp5_checked|exact Hn|]. rewrite Rplus_0_l in L, U.
  unfold exp5_ok in C. apply andb_prop in C. destruct C as [C C4]. apply andb_prop in C. destruct C as [C C3]. apply andb_prop in C. destruct C as [C1 C2].
  apply Z.leb_le in C1, C2, C3, C4. apply IZR_le in C1, C2. rewrite !mult_IZR in C1, C2. rewrite plus_IZR in C1. rewrite minus_IZR in C2. change (IZR (10 ^ 8)) with 100000000 in *. change (IZR (10 ^ 6)) with 1000000 in *.
  assert (HN : 1000000 <= IZR n <= 32000000) by (split; apply IZR_le; assumption). destruct (micro_b n) as [FM EM]; [lia|].
  exists (micro n). split; [unfold exp5Table; rewrite znth_map, Hn; reflexivity|]. split; [exact FM|]. rewrite EM. assert (HV : 1 <= IZR n / 1000000 <= 32) by lra.
  split. { split; [rewrite <- (RN_id 1) by (apply (in_int 1); lia)|rewrite <- (RN_id 32) by (apply (in_int 32); lia)]; apply RN_le; lra. }
  pose proof W_pos as WP. apply (exp5_arith (IZR n) _ _ _ _ HN WP C1 C2); [exact L|exact U].
Qed.

(** linear interpolation of the exponential *)
Lemma exp_curve h t : 0 <= h <= 1 -> 0 <= t <= 1 -> Rabs ((1 - t) + t * exp h - exp (t * h)) <= h ^ 2 / 8 + 3 * h ^ 3.
Proof.
  intros Hh Ht. assert (Hth : 0 <= t * h <= 1) by nra. pose proof (exp_t3 h Hh) as A. pose proof (exp_t3 (t * h) Hth) as B. replace ((t * h) ^ 2) with (t ^ 2 * h ^ 2) in B by ring. replace ((t * h) ^ 3) with (t ^ 3 * h ^ 3) in B by ring.
  assert (H2 : 0 <= h ^ 2) by (apply pow_le; lra). assert (H3 : 0 <= h ^ 3) by (apply pow_le; lra). assert (T3 : 0 <= t ^ 3 <= 1) by (split; [apply pow_le; lra|]; replace 1 with (1 ^ 3) by ring; apply pow_incr; lra).
  assert (Q3 : 0 <= t ^ 3 * h ^ 3 <= h ^ 3) by (split; [apply Rmult_le_pos; lra|]; rewrite <- (Rmult_1_l (h ^ 3)) at 2; apply Rmult_le_compat_r; lra).
  assert (Hq : 0 <= t - t ^ 2 <= / 4) by (clear - Ht; split; [nra|]; replace (t - t ^ 2) with (/ 4 - Rsqr (t - / 2)) by (unfold Rsqr; field); pose proof (Rle_0_sqr (t - / 2)); lra).
  assert (Q : 0 <= (t - t ^ 2) * h ^ 2 <= / 4 * h ^ 2) by (split; [apply Rmult_le_pos; lra|apply Rmult_le_compat_r; lra]).
  assert (TA : 0 <= t * (exp h - (1 + h + h ^ 2 / 2)) <= 3 * h ^ 3). { split; [apply Rmult_le_pos; lra|]. rewrite <- (Rmult_1_l (3 * h ^ 3)). apply Rmult_le_compat; lra. }
  apply Rabs_le. lra.
Qed.
Lemma mag_scale v : 1 <= v <= 64 -> exists e, (0 <= e <= 7)%Z /\ v <= bpow radix2 e <= 2 * v.
Proof.
  intros Hv. destruct (mag radix2 v) as [e He]. specialize (He ltac:(lra)). rewrite Rabs_right in He by lra. exists e. assert (E1 : (0 < e)%Z). { apply (lt_bpow radix2). change (bpow radix2 0) with 1. lra. }
  assert (E2 : (e - 1 < 7)%Z). { apply (lt_bpow radix2). change (bpow radix2 7) with 128. lra. } split; [lia|]. split; [lra|]. replace e with (e - 1 + 1)%Z by lia. rewrite pow_step. lra.
Qed.

Lemma exp5_interp ph : finite_f32 ph -> 0 <= fval ph <= 1 ->
  exists r, Finterp exp5Table ph = Ok r /\ finite_f32 r /\ 1 <= fval r <= 32 /\ Rabs (fval r - exp (5 * fval ph * ln 2)) <= 15 / 10 ^ 7 * exp (5 * fval ph * ln 2).
Proof.
  intros Hp Hr. pose proof (interp_pos exp5Table ph ltac:(rewrite exp5_len; lia) Hp Hr) as IP. pose proof (index_near ph (zlen exp5Table - 1) ltac:(rewrite exp5_len; lia) Hp Hr) as IN. rewrite exp5_len in IP, IN. change (2048 - 1)%Z with 2047%Z in *. cbn zeta in IP, IN.
  set (x := fmul ph (f32_of_int 2047)) in *. set (X := fval x) in *. set (i := Ztrunc X) in *. destruct IN as (_ & RX & NX). destruct IP as (HI & HB & IP).
  destruct (exp5_entry i ltac:(lia)) as (d0 & N0 & F0 & B0 & A0). destruct (exp5_entry ((i + 1) mod 2048) (Z.mod_pos_bound (i + 1) 2048 ltac:(lia))) as (d1 & N1 & F1 & B1 & A1).
  destruct (IP d0 d1 N0 N1) as (p & FP & EP & ER & _). clear IP. set (t := fval p) in *. assert (Ht : 0 <= t < 1) by lra.
  exists (finterpolate d0 d1 p). split; [exact ER|].
  assert (P0 : Rabs (fval d0) <= bpow radix2 5) by (change (bpow radix2 5) with 32; apply Rabs_le; lra). assert (P1 : Rabs (fval d1) <= bpow radix2 5) by (change (bpow radix2 5) with 32; apply Rabs_le; lra).
  destruct (interp_val 5 d0 d1 p ltac:(lia) F0 F1 FP P0 P1 ltac:(fold t; lra)) as (FR & EV & _). split; [exact FR|].
  assert (LOW : 1 <= fval (finterpolate d0 d1 p)).
  { rewrite EV. fold t. set (q := RN (1 - t)). assert (Q : Rabs (q - (1 - t)) <= bpow radix2 (0 - 25)) by (apply RN_err; [lia|]; change (bpow radix2 0) with 1; apply Rabs_le; lra). apply Rabs_le_inv in Q.
    assert (Q0 : 0 <= q) by (unfold q; rewrite <- RN_0; apply RN_le; lra).
    assert (G0 : q <= RN (fval d0 * q)). { rewrite <- (RN_id q) at 1 by apply RN_in. apply RN_le. rewrite <- (Rmult_1_l q) at 1. apply Rmult_le_compat_r; lra. }
    assert (G1 : t <= RN (fval d1 * t)). { rewrite <- (RN_id t) at 1 by (apply fval_in, FP). apply RN_le. rewrite <- (Rmult_1_l t) at 1. apply Rmult_le_compat_r; lra. }
    apply Rle_trans with (RN (1 - bpow radix2 (-25))); [|apply RN_le; change (0 - 25)%Z with (-25)%Z in Q; lra].
    (* 1 - 2^-25 lies halfway between two floats and is rounded to the even one, 1 *)
    destruct (f32_of_val (2 ^ 25 - 1) (-25)) as [A _]; [apply RN_pow_bound; apply (small_le_127 0); [lia|]; change (IZR (2 ^ 25 - 1)) with 33554431; change (bpow radix2 (-25)) with (/ 33554432); change (IZR (2 ^ 0)) with 1; apply Rabs_le; lra|].
    replace (1 - bpow radix2 (-25)) with (IZR (2 ^ 25 - 1) * bpow radix2 (-25)) by (change (IZR (2 ^ 25 - 1)) with 33554431; change (bpow radix2 (-25)) with (/ 33554432); lra). rewrite <- A.
    replace (f32_of (2 ^ 25 - 1) (-25)) with f32_one by (vm_compute; reflexivity). destruct one_b as [_ E1]. rewrite E1. lra. }
  pose proof (interp_bounded 5 d0 d1 p ltac:(lia) F0 F1 FP P0 P1 ltac:(fold t; lra)) as UP. change (bpow radix2 5) with 32 in UP. apply Rabs_le_inv in UP. split; [lra|].
  (* accuracy at the position of the index *)
  pose proof eh_bounds as EB. assert (HV0 : 0 < exp (IZR i * eh)) by apply exp_pos. set (V := exp (X * eh)).
  assert (CORE : Rabs (fval (finterpolate d0 d1 p) - V) <= 1264 / 10 ^ 9 * V).
  { destruct (Z.eq_dec i 2047) as [Ei|Ei].
    - assert (T0 : t = 0) by (rewrite Ei in HB, EP; lra). unfold V. assert (EX : X = IZR i) by lra. rewrite EX.
      destruct (fzero_cases p (proj2 FP) (proj1 FP) T0) as [s Es]. rewrite Es. destruct (interp_at_0 d0 d1 s F0 F1) as [_ ->]. apply Rle_trans with (1 := A0). apply Rmult_le_compat_r; lra.
    - rewrite Z.mod_small in A1 by lia. rewrite plus_IZR in A1. replace ((IZR i + 1) * eh) with (IZR i * eh + eh) in A1 by ring. rewrite exp_plus in A1. set (ea := exp (IZR i * eh)) in *. set (g := exp eh) in *.
      assert (EVV : V = ea * exp (t * eh)) by (unfold V, ea; rewrite <- exp_plus; f_equal; rewrite EP; ring).
      pose proof (exp_curve eh t ltac:(lra) ltac:(lra)) as CV. fold g in CV. assert (CB : eh ^ 2 / 8 + 3 * eh ^ 3 <= 3731 / 10 ^ 10).
      { assert (eh ^ 2 <= (16931 / 10 ^ 7) ^ 2) by (apply pow_incr; lra). assert (eh ^ 3 <= (16931 / 10 ^ 7) ^ 3) by (apply pow_incr; lra). lra. }
      assert (GB : 1 <= g <= 10018 / 10000). { pose proof (exp_t2 eh ltac:(lra)) as G. fold g in G. assert (eh ^ 2 <= (16931 / 10 ^ 7) ^ 2) by (apply pow_incr; lra). lra. }
      assert (VB : ea <= V). { rewrite EVV. pose proof (exp_t1 (t * eh) ltac:(nra)) as G. rewrite <- (Rmult_1_r ea) at 1. apply Rmult_le_compat_l; lra. }
      apply Rabs_le_inv in A0, A1, CV. set (S := (1 - t) + t * g) in *.
      assert (CE : - (3731 / 10 ^ 10 * V) <= ea * S - V <= 3731 / 10 ^ 10 * V). { replace (ea * S - V) with (ea * (S - exp (t * eh))) by (rewrite EVV; ring). split; [apply Rle_trans with (ea * (- (3731 / 10 ^ 10)))|apply Rle_trans with (ea * (3731 / 10 ^ 10))]; try (apply Rmult_le_compat_l; lra); nra. }
      set (L := fval d0 + t * (fval d1 - fval d0)).
      assert (LE : - (591 / 10 ^ 9 * (ea * S)) <= L - ea * S <= 591 / 10 ^ 9 * (ea * S)).
      { replace (L - ea * S) with ((1 - t) * (fval d0 - ea) + t * (fval d1 - ea * g)) by (unfold L, S; ring). replace (591 / 10 ^ 9 * (ea * S)) with ((1 - t) * (591 / 10 ^ 9 * ea) + t * (591 / 10 ^ 9 * (ea * g))) by (unfold S; ring).
        assert ((1 - t) * (- (591 / 10 ^ 9 * ea)) <= (1 - t) * (fval d0 - ea) <= (1 - t) * (591 / 10 ^ 9 * ea)) by (split; apply Rmult_le_compat_l; lra).
        assert (t * (- (591 / 10 ^ 9 * (ea * g))) <= t * (fval d1 - ea * g) <= t * (591 / 10 ^ 9 * (ea * g))) by (split; apply Rmult_le_compat_l; lra). lra. }
      set (m := Rmax (fval d0) (fval d1)). assert (M0 : fval d0 <= m) by apply Rmax_l. assert (M1 : fval d1 <= m) by apply Rmax_r.
      assert (MB : m <= 10019 / 10000 * V). { apply Rmax_lub; [apply Rle_trans with ((1 + 591 / 10 ^ 9) * ea); [lra|nra]|]. apply Rle_trans with ((1 + 591 / 10 ^ 9) * (ea * g)); [lra|]. assert (ea * g <= V * (10018 / 10000)) by (apply Rmult_le_compat; lra). lra. }
      assert (MR : 1 <= m <= 64) by (split; [lra|]; unfold m; apply Rmax_lub; lra). destruct (mag_scale m MR) as (e & He & S1 & S2).
      pose proof (interp_accurate e d0 d1 p ltac:(lia) F0 F1 FP ltac:(apply Rabs_le; lra) ltac:(apply Rabs_le; lra) ltac:(fold t; lra)) as AC. fold t L in AC.
      assert (EE : bpow radix2 (e - 25) = bpow radix2 e * / 33554432) by (unfold Z.sub; rewrite bpow_plus; reflexivity). rewrite EE in AC. apply Rabs_le_inv in AC. apply Rabs_le. lra. }
  (* the index itself was rounded *)
  pose proof tiny150 as TT. set (Y := fval ph * 2047) in *. set (u := (X - Y) * eh).
  assert (HY : 0 <= Y <= 2047) by (unfold Y; lra).
  assert (HU : Rabs u <= 2068 / 10 ^ 10). { unfold u. rewrite Rabs_mult, (Rabs_right eh) by lra. apply Rle_trans with ((/ 16777216 * 2047 + 1 / 10 ^ 30) * (16931 / 10 ^ 7)); [apply Rmult_le_compat; [apply Rabs_pos|lra|lra|lra]|lra]. }
  assert (EV2 : V = exp (5 * fval ph * ln 2) * exp u). { unfold V. rewrite <- exp_plus. f_equal. unfold u, Y, eh. field. }
  set (T := exp (5 * fval ph * ln 2)) in *. assert (TP0 : 0 < T) by apply exp_pos.
  assert (EU : Rabs (exp u - 1) <= 2069 / 10 ^ 10).
  { apply Rabs_le_inv in HU. destruct (Rle_lt_dec 0 u) as [U0|U0].
    - pose proof (exp_t2 u ltac:(lra)) as G. assert (u ^ 2 <= (2068 / 10 ^ 10) ^ 2) by (apply pow_incr; lra). apply Rabs_le. lra.
    - assert (G1 : exp u < 1) by (rewrite <- exp_0; apply exp_increasing; exact U0). pose proof (exp_ineq1_le u) as G. apply Rabs_le. lra. }
  apply Rabs_le_inv in EU, CORE. set (w := exp u) in *. rewrite EV2 in CORE.
  assert (TW : T * w <= T * (1 + 2069 / 10 ^ 10)) by (apply Rmult_le_compat_l; lra). assert (TW2 : T * (1 - 2069 / 10 ^ 10) <= T * w) by (apply Rmult_le_compat_l; lra). apply Rabs_le. lra.
Qed.
