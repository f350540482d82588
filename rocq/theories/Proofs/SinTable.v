(* sinTable and the functions built on it. *)
From Coq Require Import Reals Lra Lia ZArith List Floats.SpecFloat.
From Flocq Require Import Core.
From Verif.Common Require Import Base Lemmas Lists F32 F32Order F32Real F32Arith.
From Verif.Model Require Import MathFloat Table MathTables MathLookup Oscs.
From Verif.Proofs Require Import Trig ExpLn MathFloat TableF MathTables.
Import ListNotations.
Open Scope R_scope.

(** checking one entry: sin (j * PI / 1024) for j <= 512, j * P / D standing for j * PI / 1024 *)
Definition P := 3373259426%Z.
Definition D := (2 ^ 40)%Z.
Fixpoint nest_iv (slo shi : Z) (ds : list Z) : Z * Z :=
  match ds with [] => (W, W) | d :: r => let '(lo, hi) := nest_iv slo shi r in ((W - cdiv (up (shi * hi)) d)%Z, (W - dn (slo * lo) / d)%Z) end.
Lemma fx_minus a b : fx (a - b) = fx a - fx b. Proof. unfold fx. rewrite minus_IZR. pose proof W_pos. field. lra. Qed.
Lemma nest_iv_ok slo shi t ds : (0 <= slo)%Z -> 0 <= t <= 6 -> fx slo <= t <= fx shi -> List.Forall (fun d => (6 <= d)%Z) ds ->
  let '(lo, hi) := nest_iv slo shi ds in 0 <= nest t ds <= 1 /\ fx lo <= nest t ds <= fx hi.
Proof.
  intros S0 T B. induction 1 as [|d r Hd Hr IH]; cbn [nest_iv nest]; [rewrite fxW1; lra|]. destruct (nest_iv slo shi r) as [lo hi]. destruct IH as [N IH].
  assert (D6 : 6 <= IZR d) by (apply IZR_le; exact Hd). pose proof (fx_pos slo S0) as FS. set (v := nest t r) in *.
  assert (TV : 0 <= t * v <= 6) by (split; [apply Rmult_le_pos; lra|]; replace 6 with (6 * 1) by ring; apply Rmult_le_compat; lra).
  assert (IP : 0 < / IZR d) by (apply Rinv_0_lt_compat; lra).
  assert (Q : 0 <= t * v / IZR d <= 1). { split; [apply Rmult_le_pos; lra|]. apply Rmult_le_reg_r with (IZR d); [lra|]. unfold Rdiv. rewrite Rmult_assoc, Rinv_l by lra. lra. }
  assert (U : t * v / IZR d <= fx (cdiv (up (shi * hi)) d)). { eapply Rle_trans; [|apply fx_cdiv; lia]. apply Rmult_le_compat_r; [lra|]. eapply Rle_trans; [|apply fx_up]. apply Rmult_le_compat; lra. }
  assert (L : fx (dn (slo * lo) / d) <= t * v / IZR d). { eapply Rle_trans; [apply fx_div; lia|]. apply Rmult_le_compat_r; [lra|]. eapply Rle_trans; [apply fx_dn|]. destruct (Rle_lt_dec 0 (fx lo)); [apply Rmult_le_compat; lra|]. apply Rle_trans with 0; [|lra]. rewrite <- (Rmult_0_r (fx slo)). apply Rmult_le_compat_l; lra. }
  replace (t / IZR d * v) with (t * v / IZR d) by (field; lra). rewrite !fx_minus, fxW1. lra.
Qed.
Definition DW : Z := Eval vm_compute in (D * W)%Z.
Definition close (j n : Z) : bool :=
  let x := (j * P)%Z in let s := Z.shiftr (x * x) 16 in
  let '(nl, _) := nest_iv s (s + 1) d_lo in
  let '(_, nh) := nest_iv s (s + 1) d_hi in
  (((100 * n - 76) * DW <=? x * nl * 100000000) && (x * nh * 100000000 <=? (100 * n + 76) * DW))%Z.
Definition fold_arg (i : Z) : Z * Z :=
  (let q := i / 512 in let j := i mod 512 in
   if q =? 0 then (1, j) else if q =? 1 then (1, 512 - j) else if q =? 2 then (-1, j) else (-1, 512 - j))%Z.
Definition entry_ok (i n : Z) : bool := let '(s, j) := fold_arg i in close j (s * n).

Lemma D_pos : 0 < IZR D. Proof. apply IZR_lt. reflexivity. Qed.
Lemma step_bounds : Rabs (PI / 1024 - IZR P / IZR D) <= 1 / 10 ^ 12.
Proof.
  pose proof PI_bounds. change (IZR P) with 3373259426. change (IZR D) with 1099511627776. apply Rabs_le. lra.
Qed.
Lemma close_ok j n : (0 <= j <= 512)%Z -> close j n = true -> Rabs (IZR n / 1000000 - sin (IZR j * (PI / 1024))) <= 77 / 10 ^ 8.
Proof.
  intros Hj H. unfold close in H. cbv zeta in H. set (x := (j * P)%Z) in *. set (a := IZR x / IZR D). pose proof D_pos as HD. pose proof W_pos as WP. assert (HJ : 0 <= IZR j <= 512) by (split; apply IZR_le; lia).
  assert (Ha : 0 <= a <= 158 / 100). { unfold a, x. rewrite mult_IZR. change (IZR P) with 3373259426. change (IZR D) with 1099511627776. lra. }
  assert (HA2 : 0 <= a * a <= 6) by (split; [apply Rmult_le_pos; lra|]; apply Rle_trans with (2 * 2); [apply Rmult_le_compat; lra|lra]).
  assert (S0 : (0 <= Z.shiftr (x * x) 16)%Z) by (apply Z.shiftr_nonneg; unfold x, P; nia).
  assert (SB : fx (Z.shiftr (x * x) 16) <= a * a <= fx (Z.shiftr (x * x) 16 + 1)).
  { rewrite Z.shiftr_div_pow2 by lia. assert (E : a * a = IZR (x * x) / 65536 / IZR W) by (unfold a; rewrite mult_IZR; change (IZR W) with 18446744073709551616; change (IZR D) with 1099511627776; field). rewrite E. unfold fx.
    pose proof (div_le (x * x) (2 ^ 16) ltac:(reflexivity)) as L. change (IZR (2 ^ 16)) with 65536 in L. assert (U : IZR (x * x) / 65536 <= IZR (x * x / 2 ^ 16 + 1)).
    { assert (U : (x * x <= (x * x / 2 ^ 16 + 1) * 65536)%Z) by (pose proof (Z.mod_pos_bound (x * x) (2 ^ 16) ltac:(reflexivity)); pose proof (Z.div_mod (x * x) (2 ^ 16) ltac:(discriminate)); lia). apply IZR_le in U. rewrite (mult_IZR (_ + 1)) in U. lra. }
    split; (apply Rmult_le_compat_r; [left; apply Rinv_0_lt_compat; exact WP|assumption]). }
  pose proof (nest_iv_ok _ _ (a * a) d_lo S0 HA2 SB ltac:(repeat constructor; lia)) as L. pose proof (nest_iv_ok _ _ (a * a) d_hi S0 HA2 SB ltac:(repeat constructor; lia)) as U.
  destruct (nest_iv _ _ d_lo) as [nl ml]. destruct (nest_iv _ _ d_hi) as [mh nh]. destruct L as [_ [L _]]. destruct U as [_ [_ U]].
  apply andb_prop in H. destruct H as [H1 H2]. apply Z.leb_le in H1, H2. apply IZR_le in H1, H2. rewrite !mult_IZR in H1, H2. rewrite plus_IZR in H2. rewrite minus_IZR in H1. rewrite mult_IZR in H1, H2.
  assert (EDW : IZR DW = IZR D * IZR W) by (rewrite <- mult_IZR; reflexivity). rewrite EDW in H1, H2. pose proof PI_bounds as PB.
  pose proof (sin_taylor a ltac:(lra)) as T. unfold fx in L, U. assert (EX : IZR x = a * IZR D) by (unfold a; field; lra).
  set (pl := IZR nl / IZR W) in *. set (ph := IZR nh / IZR W) in *. assert (EL : IZR nl = pl * IZR W) by (unfold pl; field; lra). assert (EH : IZR nh = ph * IZR W) by (unfold ph; field; lra). rewrite EX, EL in H1. rewrite EX, EH in H2.
  assert (DWP : 0 < IZR D * IZR W) by (apply Rmult_lt_0_compat; assumption).
  assert (T1 : (IZR n / 1000000 - 76 / 100000000) <= a * pl).
  { apply Rmult_le_reg_r with (IZR D * IZR W * 100000000); [lra|]. replace ((IZR n / 1000000 - 76 / 100000000) * (IZR D * IZR W * 100000000)) with ((100 * IZR n - 76) * (IZR D * IZR W)) by field. lra. }
  assert (T2 : a * ph <= IZR n / 1000000 + 76 / 100000000).
  { apply Rmult_le_reg_r with (IZR D * IZR W * 100000000); [lra|]. replace ((IZR n / 1000000 + 76 / 100000000) * (IZR D * IZR W * 100000000)) with ((100 * IZR n + 76) * (IZR D * IZR W)) by field. lra. }
  assert (T3 : a * pl <= a * nest (a * a) d_lo) by (apply Rmult_le_compat_l; lra). assert (T4 : a * nest (a * a) d_hi <= a * ph) by (apply Rmult_le_compat_l; lra).
  pose proof (sin_lip (IZR j * (PI / 1024)) a) as LP. replace (IZR j * (PI / 1024) - a) with (IZR j * (PI / 1024 - IZR P / IZR D)) in LP by (unfold a, x; rewrite mult_IZR; field; lra).
  rewrite (Rabs_mult (IZR j)) in LP. rewrite (Rabs_right (IZR j)) in LP by lra. pose proof step_bounds as SBD. pose proof (Rabs_pos (PI / 1024 - IZR P / IZR D)).
  assert (LP2 : Rabs (sin (IZR j * (PI / 1024)) - sin a) <= 512 / 10 ^ 12) by (apply Rle_trans with (1 := LP); nra). apply Rabs_le_inv in LP2. apply Rabs_le. lra.
Qed.
Lemma fold_arg_ok i : (0 <= i < 2048)%Z -> let '(s, j) := fold_arg i in (0 <= j <= 512)%Z /\ (s = 1 \/ s = -1)%Z /\ sin (IZR i * (PI / 1024)) = IZR s * sin (IZR j * (PI / 1024)).
Proof.
  intros Hi. unfold fold_arg. pose proof (Z.div_mod i 512 ltac:(lia)) as E. pose proof (Z.mod_pos_bound i 512 ltac:(lia)) as M. set (q := (i / 512)%Z) in *. set (j := (i mod 512)%Z) in *.
  assert (Hq : (0 <= q < 4)%Z) by lia. rewrite E. rewrite plus_IZR, mult_IZR.
  destruct (Z.eqb_spec q 0) as [->|N0]; [split; [lia|]; split; [auto|]; rewrite Rmult_1_l; f_equal; ring|].
  destruct (Z.eqb_spec q 1) as [->|N1].
  { split; [lia|]. split; [auto|]. rewrite Rmult_1_l. rewrite minus_IZR. rewrite <- sin_PI_x. f_equal. field. }
  destruct (Z.eqb_spec q 2) as [->|N2].
  { split; [lia|]. split; [auto|]. replace ((512 * 2 + IZR j) * (PI / 1024)) with (IZR j * (PI / 1024) + PI) by field. rewrite neg_sin. ring. }
  assert (q = 3%Z) as -> by lia. split; [lia|]. split; [auto|]. rewrite minus_IZR. replace ((512 * 3 + IZR j) * (PI / 1024)) with (- ((512 - IZR j) * (PI / 1024)) + 2 * PI * IZR 1) by field. rewrite sin_periodZ, sin_neg. ring.
Qed.
Lemma sin_checked : all_ok entry_ok 0 sinTable_micros = true.
Proof. vm_compute. reflexivity. Qed.
Lemma sin_range : all_ok (fun _ n => Z.abs n <=? 1000000)%Z 0 sinTable_micros = true.
Proof. vm_compute. reflexivity. Qed.
Lemma sin_len : zlen sinTable = 2048%Z.
Proof. unfold sinTable. rewrite zlen_zupd, zlen_map. vm_compute. reflexivity. Qed.
Lemma sin_entry i : (0 <= i < 2048)%Z -> exists d, znth sinTable i = Some d /\ finite_f32 d /\ Rabs (fval d) <= 1 /\ Rabs (fval d - sin (IZR i * (PI / 1024))) <= 80 / 10 ^ 8.
Proof.
  intros Hi. destruct (znth_some sinTable_micros i) as [n Hn]; [change (zlen sinTable_micros) with 2048%Z; lia|].
  pose proof (all_ok_nth _ _ _ _ _ sin_checked Hn) as C. pose proof (all_ok_nth _ _ _ _ _ sin_range Hn) as B. cbn beta in B. apply Z.leb_le in B. rewrite Z.add_0_l in C.
  assert (EX : exists d, znth sinTable i = Some d /\ finite_f32 d /\ fval d = RN (IZR n / 1000000)).
  { unfold sinTable. rewrite znth_zupd, znth_map, Hn. destruct ((1024 =? i)%Z && (0 <=? 1024)%Z && _) eqn:E.
    - apply andb_prop in E. destruct E as [E _]. apply andb_prop in E. destruct E as [E _]. apply Z.eqb_eq in E. subst i. vm_compute in Hn. injection Hn as <-. eexists. split; [reflexivity|]. repeat split. cbn. unfold Rdiv. rewrite Rmult_0_l, RN_0. reflexivity.
    - cbn [option_map]. eexists. split; [reflexivity|]. apply micro_b. lia. }
  destruct EX as (d & E1 & E2 & E3). exists d. split; [exact E1|]. split; [exact E2|]. rewrite E3.
  assert (HA : Rabs (IZR n / 1000000) <= bpow radix2 0). { change (bpow radix2 0) with 1. unfold Rdiv. rewrite Rabs_mult, <- abs_IZR. apply IZR_le in B. rewrite (Rabs_right (/ 1000000)) by lra. lra. }
  split; [apply (RN_le_pow 0); [lia|exact HA]|]. pose proof (RN_err 0 _ ltac:(lia) HA) as HE. change (bpow radix2 (0 - 25)) with (/ 33554432) in HE.
  unfold entry_ok in C. pose proof (fold_arg_ok i Hi) as FA. destruct (fold_arg i) as [s j]. destruct FA as (Hj & Hs & ->). pose proof (close_ok j _ Hj C) as HC. rewrite mult_IZR in HC.
  apply Rabs_le_inv in HE, HC. apply Rabs_le. destruct Hs as [-> | ->]; lra.
Qed.
Lemma angle_mod i : (0 <= i)%Z -> sin (IZR (i mod 2048) * (PI / 1024)) = sin (IZR i * (PI / 1024)).
Proof.
  intros Hi. rewrite (Z.div_mod i 2048) at 2 by lia. rewrite plus_IZR, mult_IZR. rewrite <- (sin_periodZ _ (i / 2048)). f_equal. field.
Qed.
Lemma sin_wrap fuel ph : finite_f32 ph -> 0 <= fval ph < IZR (2 ^ 21) -> fval ph < IZR (Z.of_nat fuel + 1) ->
  exists r c, Finterp_wrap fuel sinTable ph = Ok r /\ Fclosest_wrap fuel sinTable ph = Ok c /\ finite_f32 r /\ finite_f32 c /\ Rabs (fval r) <= 1 /\ Rabs (fval c) <= 1 /\
    Rabs (fval r - sin (2 * PI * fval ph)) <= 214 / 10 ^ 8 /\ Rabs (fval c - sin (2 * PI * fval ph)) <= 31 / 10 ^ 4.
Proof.
  intros Hp Hr Hf. set (i := Ztrunc (fval ph * IZR (zlen sinTable))).
  assert (Hr' : 0 <= fval ph < bpow radix2 (32 - 11)) by exact Hr.
  destruct (wrap_index sinTable ph 11 sin_len ltac:(lia) Hp Hr') as (_ & _ & _ & HI & HB). fold i in HI, HB. rewrite sin_len in HB.
  pose proof (Z.mod_pos_bound i 2048 ltac:(lia)) as M0. pose proof (Z.mod_pos_bound (i + 1) 2048 ltac:(lia)) as M1.
  destruct (sin_entry _ M0) as (d0 & N0 & F0 & B0 & A0). destruct (sin_entry _ M1) as (d1 & N1 & F1 & B1 & A1).
  destruct (interp_wrap_val fuel sinTable ph 11 i sin_len ltac:(lia) Hp Hr' Hf eq_refl d0 d1 N0 N1) as (p & FP & EP & RP & ER & EC). rewrite sin_len in EP.
  exists (finterpolate d0 d1 p), d0. split; [exact ER|]. split; [exact EC|].
  destruct (interp_val 0 d0 d1 p ltac:(lia) F0 F1 FP B0 B1 ltac:(lra)) as (FR & _ & _). split; [exact FR|]. split; [exact F0|].
  split; [exact (interp_bounded 0 d0 d1 p ltac:(lia) F0 F1 FP B0 B1 ltac:(lra))|]. split; [exact B0|].
  pose proof (interp_accurate 0 d0 d1 p ltac:(lia) F0 F1 FP B0 B1 ltac:(lra)) as AC. change (bpow radix2 (0 - 25)) with (/ 33554432) in AC.
  rewrite angle_mod in A0, A1 by lia. rewrite plus_IZR in A1. set (a := IZR i * (PI / 1024)) in *. replace ((IZR i + 1) * (PI / 1024)) with (a + PI / 1024) in A1 by (unfold a; ring).
  set (t := fval p) in *. replace (2 * PI * fval ph) with (a + t * (PI / 1024)) by (unfold a; rewrite EP; field).
  pose proof PI_bounds as PB. set (h := PI / 1024) in *. assert (Hh : 0 <= h <= 30680 / 10 ^ 7) by (unfold h; lra).
  split.
  - pose proof (interp_curve h a t ltac:(lra) ltac:(lra)) as IC. assert (C : h ^ 2 / 8 + h ^ 3 / 6 + h ^ 4 / 24 <= 11815 / 10 ^ 10).
    { assert (h ^ 2 <= (30680 / 10 ^ 7) ^ 2) by (apply pow_incr; lra). assert (h ^ 3 <= (30680 / 10 ^ 7) ^ 3) by (apply pow_incr; lra). assert (h ^ 4 <= (30680 / 10 ^ 7) ^ 4) by (apply pow_incr; lra). lra. }
    apply Rabs_le_inv in AC, A0, A1, IC. assert (W0 : (1 - t) * (- (80 / 10 ^ 8)) <= (1 - t) * (fval d0 - sin a) <= (1 - t) * (80 / 10 ^ 8)) by (split; apply Rmult_le_compat_l; lra).
    assert (W1 : t * (- (80 / 10 ^ 8)) <= t * (fval d1 - sin (a + h)) <= t * (80 / 10 ^ 8)) by (split; apply Rmult_le_compat_l; lra). apply Rabs_le. lra.
  - pose proof (sin_lip a (a + t * h)) as L. replace (a - (a + t * h)) with (- (t * h)) in L by ring. rewrite Rabs_Ropp in L. assert (0 <= t * h <= h) by nra. rewrite (Rabs_right (t * h)) in L by lra.
    apply Rabs_le_inv in L, A0. apply Rabs_le. lra.
Qed.

(** sin and cos: the argument is first turned into a phase *)
Definition TP : R := 26353590 * bpow radix2 (-22).
Lemma two_pi_b : finite_f32 two_pi /\ fval two_pi = TP.
Proof. split; [split; reflexivity|]. change (fval two_pi) with (IZR 13176795 * bpow radix2 (-21)). unfold TP. change (-21)%Z with (1 + -22)%Z. rewrite bpow_plus. change (bpow radix2 1) with 2. ring. Qed.
Lemma TP_bounds : 0 <= TP - 2 * PI <= 18 / 10 ^ 8.
Proof. unfold TP. change (bpow radix2 (-22)) with (/ 4194304). pose proof PI_bounds. lra. Qed.
Lemma RN_err_mixed t : Rabs (RN t - t) <= bpow radix2 (-24) * Rabs t + bpow radix2 (-150).
Proof.
  pose proof (bpow_ge_0 radix2 (-150)). destruct (Rle_lt_dec (bpow radix2 (-125)) (Rabs t)) as [L|L].
  - assert (bpow radix2 (-126) <= Rabs t) by (apply Rle_trans with (2 := L); apply bpow_le; lia). pose proof (RN_rel t H0). lra.
  - pose proof (RN_err (-125) t ltac:(lia) ltac:(lra)) as E. change (-125 - 25)%Z with (-150)%Z in E. pose proof (bpow_ge_0 radix2 (-24)). pose proof (Rabs_pos t). nra.
Qed.
Lemma tiny150 : 0 < bpow radix2 (-150) <= 1 / 10 ^ 30.
Proof. split; [apply bpow_gt_0|]. apply Rle_trans with (bpow radix2 (-100)); [apply bpow_le; lia|]. change (bpow radix2 (-100)) with (/ 1267650600228229401496703205376). lra. Qed.
Lemma to_phase x : finite_f32 x -> Rabs (fval x) <= bpow radix2 23 -> finite_f32 (fdiv x two_pi) /\
  Rabs (2 * PI * fval (fdiv x two_pi) - fval x) <= 9 / 10 ^ 8 * Rabs (fval x) + 1 / 10 ^ 20 /\ Rabs (fval (fdiv x two_pi)) <= 16 / 100 * Rabs (fval x) + 1 / 10 ^ 20 /\ (0 <= fval x -> 0 <= fval (fdiv x two_pi)).
Proof.
  intros Hx HB. destruct two_pi_b as [FT ET]. pose proof TP_bounds as TB. pose proof PI_bounds as PB. set (X := fval x) in *. assert (TPp : 6 < TP < 7) by lra.
  assert (HQ : Rabs (X / TP) = Rabs X / TP) by (unfold Rdiv; rewrite Rabs_mult, (Rabs_right (/ TP)); [reflexivity|left; apply Rinv_0_lt_compat; lra]). pose proof (Rabs_pos X) as PX.
  assert (HQ2 : Rabs X / TP <= Rabs X / 6) by (apply Rmult_le_compat_l; [exact PX|]; apply Rinv_le; lra).
  destruct (fdiv_b x two_pi Hx FT) as [FD ED]; [rewrite ET; lra|rewrite ET; fold X; apply (le_127 23); [lia|]; rewrite HQ; pose proof (bpow_ge_0 radix2 23); lra|].
  rewrite ET in ED. fold X in ED. split; [exact FD|]. rewrite ED. pose proof (RN_err_mixed (X / TP)) as RE. rewrite HQ in RE. pose proof tiny150 as TT. change (bpow radix2 (-24)) with (/ 16777216) in RE.
  set (u := Rabs X / TP) in *. assert (Hu : 0 <= u) by (unfold u; apply Rmult_le_pos; [exact PX|left; apply Rinv_0_lt_compat; lra]). assert (Eu : u * TP = Rabs X) by (unfold u; field; lra).
  split; [|split].
  - replace (2 * PI * RN (X / TP) - X) with (2 * PI * (RN (X / TP) - X / TP) + (2 * PI - TP) * (X / TP)) by (field; lra).
    eapply Rle_trans; [apply Rabs_triang|]. rewrite !Rabs_mult, HQ. fold u. rewrite (Rabs_right 2), (Rabs_right PI) by lra. rewrite (Rabs_minus_sym (2 * PI)), (Rabs_right (TP - 2 * PI)) by lra.
    assert (2 * PI * Rabs (RN (X / TP) - X / TP) <= 2 * PI * (/ 16777216 * u + bpow radix2 (-150))) by (apply Rmult_le_compat_l; lra).
    assert ((TP - 2 * PI) * u <= 18 / 10 ^ 8 * u) by (apply Rmult_le_compat_r; lra).
    assert (2 * PI * (/ 16777216 * u) <= / 16777216 * Rabs X) by (rewrite <- Eu; nra). assert (u * 628 / 100 <= Rabs X) by nra. assert (2 * PI * bpow radix2 (-150) <= 1 / 10 ^ 20) by nra. lra.
  - apply Rabs_le_inv in RE. assert (u * 628 / 100 <= Rabs X) by nra. assert (RA : Rabs (RN (X / TP)) <= Rabs (X / TP) + (/ 16777216 * u + bpow radix2 (-150))).
    { replace (RN (X / TP)) with (X / TP + (RN (X / TP) - X / TP)) at 1 by ring. eapply Rle_trans; [apply Rabs_triang|]. apply Rplus_le_compat_l. apply Rabs_le. lra. }
    rewrite HQ in RA. fold u in RA. lra.
  - intros H0. rewrite <- RN_0. apply RN_le. apply Rmult_le_pos; [exact H0|left; apply Rinv_0_lt_compat; lra].
Qed.
Lemma sin_close_angle r ph e1 e2 x : Rabs (r - sin (2 * PI * ph)) <= e1 -> Rabs (2 * PI * ph - x) <= e2 -> Rabs (r - sin x) <= e1 + e2.
Proof. intros H1 H2. pose proof (sin_lip (2 * PI * ph) x) as L. replace (r - sin x) with ((r - sin (2 * PI * ph)) + (sin (2 * PI * ph) - sin x)) by ring. eapply Rle_trans; [apply Rabs_triang|]. lra. Qed.

Lemma sin_correct fuel x : finite_f32 x -> 0 <= fval x <= IZR (2 ^ 23) -> fval x <= IZR (Z.of_nat fuel) ->
  exists r, tsin fuel x = Ok r /\ finite_f32 r /\ Rabs (fval r) <= 1 /\ Rabs (fval r - sin (fval x)) <= 22 / 10 ^ 7 + 9 / 10 ^ 8 * fval x.
Proof.
  intros Hx Hr Hf. destruct (to_phase x Hx) as (FP & A1 & A2 & A3); [rewrite Rabs_right by lra; change (bpow radix2 23) with (IZR (2 ^ 23)); lra|]. rewrite (Rabs_right (fval x)) in * by lra. specialize (A3 (proj1 Hr)).
  rewrite (Rabs_right (fval (fdiv x two_pi))) in A2 by lra. change (IZR (2 ^ 23)) with 8388608 in Hr.
  destruct (sin_wrap fuel (fdiv x two_pi) FP) as (r & c & E & _ & FR & _ & B & _ & AC & _); [change (IZR (2 ^ 21)) with 2097152; lra|rewrite plus_IZR; assert (0 <= IZR (Z.of_nat fuel)) by (apply IZR_le; lia); lra|].
  exists r. split; [exact E|]. split; [exact FR|]. split; [exact B|]. pose proof (sin_close_angle _ _ _ _ _ AC A1) as S. lra.
Qed.
Lemma quarter_b : finite_f32 quarter /\ fval quarter = / 4.
Proof. split; [split; reflexivity|]. change (fval quarter) with (IZR 8388608 * / 33554432). lra. Qed.
Lemma cos_correct fuel x : finite_f32 x -> - (157 / 100) <= fval x <= IZR (2 ^ 23) -> fval x <= IZR (Z.of_nat fuel) ->
  exists r c, tcos fuel x = Ok r /\ cos_close fuel x = Ok c /\ finite_f32 r /\ finite_f32 c /\ Rabs (fval r) <= 1 /\ Rabs (fval c) <= 1 /\
    Rabs (fval r - cos (fval x)) <= 23 / 10 ^ 7 + 16 / 10 ^ 8 * Rabs (fval x) /\ Rabs (fval c - cos (fval x)) <= 32 / 10 ^ 4 + 16 / 10 ^ 8 * Rabs (fval x).
Proof.
  intros Hx Hr Hf. change (IZR (2 ^ 23)) with 8388608 in Hr. destruct (to_phase x Hx) as (FP & A1 & A2 & _); [change (bpow radix2 23) with 8388608; apply Rabs_le; lra|].
  set (ph := fdiv x two_pi) in *. destruct quarter_b as [FQ EQ]. pose proof PI_bounds as PB. pose proof (Rabs_pos (fval x)) as PX.
  assert (AX : Rabs (fval x) <= 8388608) by (apply Rabs_le; lra).
  destruct (fadd_b ph quarter FP FQ) as [FA EA]; [rewrite EQ; apply (small_le_127 23); [lia|]; change (IZR (2 ^ 23)) with 8388608; apply Rabs_le; apply Rabs_le_inv in A2; lra|]. rewrite EQ in EA.
  (* the phase of x >= -1.57 does not become negative *)
  assert (P0 : - / 4 <= fval ph). { apply Rabs_le_inv in A1. assert (AX2 : fval x < 0 -> Rabs (fval x) <= 157 / 100) by (intros; apply Rabs_le; lra). destruct (Rle_lt_dec 0 (fval x)); [rewrite (Rabs_right (fval x)) in A1 by lra; nra|]. specialize (AX2 r). nra. }
  assert (G0 : 0 <= fval (fadd ph quarter)) by (rewrite EA; rewrite <- RN_0; apply RN_le; lra).
  pose proof (RN_err_mixed (fval ph + / 4)) as RE. rewrite <- EA in RE. pose proof tiny150 as TT. change (bpow radix2 (-24)) with (/ 16777216) in RE. rewrite (Rabs_right (fval ph + / 4)) in RE by lra.
  assert (XU : fval x <= Rabs (fval x)) by apply Rle_abs. pose proof (Rabs_le_inv _ _ A2) as A2'. pose proof (Rabs_le_inv _ _ RE) as RE'.
  assert (PU : fval ph <= 16 / 100 * Rabs (fval x) + 1 / 10 ^ 20) by lra.
  assert (FU : fval (fadd ph quarter) < IZR (Z.of_nat fuel + 1)).
  { rewrite plus_IZR. destruct (Rle_lt_dec 0 (fval x)) as [L|L]; [rewrite (Rabs_right (fval x)) in * by lra; lra|]. assert (0 <= IZR (Z.of_nat fuel)) by (apply IZR_le; lia). assert (Rabs (fval x) <= 157 / 100) by (apply Rabs_le; lra). lra. }
  destruct (sin_wrap fuel (fadd ph quarter) FA) as (r & c & E & E' & FR & FC & B & B' & AC & AC'); [change (IZR (2 ^ 21)) with 2097152; lra|exact FU|].
  assert (AN : Rabs (2 * PI * fval (fadd ph quarter) - (fval x + PI / 2)) <= 155 / 10 ^ 9 * Rabs (fval x) + 95 / 10 ^ 9).
  { replace (2 * PI * fval (fadd ph quarter) - (fval x + PI / 2)) with ((2 * PI * fval ph - fval x) + 2 * PI * (fval (fadd ph quarter) - (fval ph + / 4))) by field.
    eapply Rle_trans; [apply Rabs_triang|]. rewrite !Rabs_mult, (Rabs_right 2), (Rabs_right PI) by lra. set (w := Rabs (fval (fadd ph quarter) - (fval ph + / 4))) in *. 
    assert (2 * PI * w <= 2 * PI * (/ 16777216 * (fval ph + / 4) + bpow radix2 (-150))) by (apply Rmult_le_compat_l; lra).
    assert (2 * PI * fval ph <= 1000001 / 1000000 * Rabs (fval x) + 1 / 10 ^ 20) by (apply Rabs_le_inv in A1; lra).
    assert (2 * PI * bpow radix2 (-150) <= 1 / 10 ^ 20) by nra. lra. }
  assert (EC : cos (fval x) = sin (fval x + PI / 2)) by (rewrite cos_sin; f_equal; ring). rewrite EC.
  exists r, c. split; [exact E|]. split; [exact E'|]. repeat (split; [assumption|]). pose proof (sin_close_angle _ _ _ _ _ AC AN). pose proof (sin_close_angle _ _ _ _ _ AC' AN). split; lra.
Qed.

(** outside of that range *)
Lemma sin_neg_ub fuel x : finite_f32 x -> fval x <= - (30680 / 10 ^ 7) -> tsin fuel x = UB BadCast.
Proof.
  intros Hx H. destruct two_pi_b as [[VT FT] ET]. pose proof TP_bounds as TB. pose proof PI_bounds as PB. unfold tsin.
  destruct (fdiv_rounds x two_pi (proj1 Hx) VT (proj2 Hx)) as [(_ & E & F)|(_ & E)]; [rewrite ET; lra| |]; rewrite ET in E.
  - apply wrap_negative_ub; [rewrite sin_len; lia|split; [apply fdiv_valid; [apply Hx|exact VT]|exact F]|]. rewrite sin_len, E.
    assert (RN (fval x / TP) <= IZR (-1) * bpow radix2 (- 11)). { apply (RN_half_le _ (-1) 11); try lia. change (bpow radix2 (Z.opp 11)) with (/ 2048). apply Rmult_le_reg_r with TP; [lra|]. unfold Rdiv. rewrite Rmult_assoc, Rinv_l by lra. lra. }
    change (bpow radix2 (- 11)) with (/ 2048) in *. lra.
  - rewrite E. apply wrap_not_finite_ub; [rewrite sin_len; lia|reflexivity].
Qed.
Lemma sin_large_ub fuel x : finite_f32 x -> IZR (2 ^ 24) <= fval x -> tsin fuel x = UB BadCast.
Proof.
  intros Hx H. change (IZR (2 ^ 24)) with 16777216 in H. destruct two_pi_b as [[VT FT] ET]. pose proof TP_bounds as TB. pose proof PI_bounds as PB. unfold tsin.
  destruct (fdiv_rounds x two_pi (proj1 Hx) VT (proj2 Hx)) as [(_ & E & F)|(_ & E)]; [rewrite ET; lra| |]; rewrite ET in E.
  - apply wrap_too_big; [rewrite sin_len; lia|apply fdiv_valid; [apply Hx|exact VT]|exact F|]. rewrite sin_len, E.
    assert (HQ : bpow radix2 21 <= RN (fval x / TP)). { rewrite <- (RN_id (bpow radix2 21)) by (apply in_pow; lia). apply RN_le. change (bpow radix2 21) with 2097152. apply Rmult_le_reg_r with TP; [lra|]. unfold Rdiv. rewrite Rmult_assoc, Rinv_l by lra. lra. }
    change (IZR (2 ^ 32)) with (bpow radix2 32). rewrite <- (RN_id (bpow radix2 32)) by (apply in_pow; lia). apply RN_le. change (bpow radix2 32) with 4294967296. change (bpow radix2 21) with 2097152 in HQ. lra.
  - rewrite E. apply wrap_not_finite_ub; [rewrite sin_len; lia|reflexivity].
Qed.
Lemma sin_not_finite_ub fuel x : ffinite x = false -> tsin fuel x = UB BadCast /\ sin01 fuel x = UB BadCast /\ tcos fuel x = UB BadCast /\ cos_close fuel x = UB BadCast.
Proof.
  intros H. unfold tsin, sin01, tcos, cos_close. assert (ffinite (fdiv x two_pi) = false) by (destruct x as [|[]| |]; try discriminate H; reflexivity). assert (ffinite (fadd (fdiv x two_pi) quarter) = false) by (destruct x as [|[]| |]; try discriminate H; reflexivity).
  repeat split; apply wrap_not_finite_ub; try assumption; rewrite sin_len; lia.
Qed.
Lemma sin01_neg_ub fuel x : finite_f32 x -> fval x <= - / 2048 -> sin01 fuel x = UB BadCast.
Proof. intros Hx H. apply wrap_negative_ub; [rewrite sin_len; lia|exact Hx|]. rewrite sin_len. lra. Qed.
Lemma sin01_large_ub fuel x : finite_f32 x -> IZR (2 ^ 21) <= fval x -> sin01 fuel x = UB BadCast.
Proof.
  intros Hx H. change (IZR (2 ^ 21)) with 2097152 in H. apply wrap_too_big; [rewrite sin_len; lia|apply Hx|apply Hx|]. rewrite sin_len. change (IZR (2 ^ 32)) with (bpow radix2 32). rewrite <- (RN_id (bpow radix2 32)) by (apply in_pow; lia). apply RN_le. change (bpow radix2 32) with 4294967296. lra.
Qed.
Lemma cos_neg_ub fuel x : finite_f32 x -> fval x <= - (15739 / 10 ^ 4) -> tcos fuel x = UB BadCast /\ cos_close fuel x = UB BadCast.
Proof.
  intros Hx H. destruct two_pi_b as [[VT FT] ET]. pose proof TP_bounds as TB. pose proof PI_bounds as PB. unfold tcos, cos_close. destruct quarter_b as [[VQ FQ] EQ].
  destruct (fdiv_rounds x two_pi (proj1 Hx) VT (proj2 Hx)) as [(_ & E & F)|(_ & E)]; [rewrite ET; lra| |]; rewrite ET in E.
  - assert (VD : valid_f32 (fdiv x two_pi)) by (apply fdiv_valid; [apply Hx|exact VT]).
    assert (HQ : fval (fdiv x two_pi) <= IZR (-513) * bpow radix2 (- 11)). { rewrite E. apply (RN_half_le _ (-513) 11); try lia. change (bpow radix2 (Z.opp 11)) with (/ 2048). apply Rmult_le_reg_r with TP; [lra|]. unfold Rdiv. rewrite Rmult_assoc, Rinv_l by lra. lra. }
    change (bpow radix2 (- 11)) with (/ 2048) in HQ.
    destruct (fadd_rounds (fdiv x two_pi) quarter VD VQ F FQ) as [(_ & E2 & F2)|(_ & E2)]; rewrite EQ in E2.
    + apply wrap_negative_ub; [rewrite sin_len; lia|split; [apply fadd_valid; assumption|exact F2]|]. rewrite sin_len, E2.
      assert (RN (fval (fdiv x two_pi) + / 4) <= IZR (-1) * bpow radix2 (- 11)). { apply (RN_half_le _ (-1) 11); try lia. change (bpow radix2 (Z.opp 11)) with (/ 2048). lra. } change (bpow radix2 (- 11)) with (/ 2048) in *. lra.
    + rewrite E2. apply wrap_not_finite_ub; [rewrite sin_len; lia|reflexivity].
  - rewrite E. assert (ffinite (fadd (S754_infinity (Rlt_bool (fval x / TP) 0)) quarter) = false) by (destruct (Rlt_bool _ _); reflexivity). apply wrap_not_finite_ub; [rewrite sin_len; lia|assumption].
Qed.
Lemma sin01_correct fuel x : finite_f32 x -> 0 <= fval x < IZR (2 ^ 21) -> fval x < IZR (Z.of_nat fuel + 1) ->
  exists r, sin01 fuel x = Ok r /\ finite_f32 r /\ Rabs (fval r) <= 1 /\ Rabs (fval r - sin (2 * PI * fval x)) <= 22 / 10 ^ 7.
Proof.
  intros Hx Hr Hf. destruct (sin_wrap fuel x Hx Hr Hf) as (r & c & E & _ & FR & _ & B & _ & AC & _). exists r. repeat (split; [assumption|]). lra.
Qed.
