(* LookupTable::lookup and InterpArray::interp in single precision against the exact line. *)
From Coq Require Import ZArith Reals Lra Lia List Floats.SpecFloat.
From Flocq Require Import Core.
From Verif.Common Require Import Base Lemmas Lists F32 F32Order F32Real F32Arith F32Err.
From Verif.Model Require Import Table MathFloat.
From Verif.Spec Require Import PolyLine.
From Verif.Proofs Require Import MathFloat TableF MathTables.
From Verif.Proofs Require Table.
Import ListNotations.
Open Scope R_scope.

Lemma poly_0 a r : polyline (a :: r) 0 = a.
Proof. cbn. destruct r; [reflexivity|]. destruct (Rlt_dec 0 1); lra. Qed.
Lemma poly_lip_le L pts : 0 <= L -> slopes_within L pts -> forall s t, s <= t -> Rabs (polyline pts t - polyline pts s) <= L * (t - s).
Proof.
  intros HL. induction pts as [|a r IH]; intros HS s t Hst. { cbn. rewrite Rminus_0_r, Rabs_R0. apply Rmult_le_pos; lra. }
  destruct r as [|b r]. { cbn. rewrite Rminus_diag_eq, Rabs_R0 by reflexivity. apply Rmult_le_pos; lra. }
  destruct HS as [HD HS]. specialize (IH HS). change (polyline (a :: b :: r) ?x) with (if Rlt_dec x 1 then a + x * (b - a) else polyline (b :: r) (x - 1)).
  destruct (Rlt_dec t 1) as [T|T], (Rlt_dec s 1) as [S|S]; try lra.
  - replace (a + t * (b - a) - (a + s * (b - a))) with ((t - s) * (b - a)) by ring. rewrite Rabs_mult, (Rabs_pos_eq (t - s)), Rmult_comm by lra. apply Rmult_le_compat_r; lra.
  - specialize (IH 0 (t - 1) ltac:(lra)). rewrite poly_0 in IH. replace (polyline (b :: r) (t - 1) - (a + s * (b - a))) with ((polyline (b :: r) (t - 1) - b) + (1 - s) * (b - a)) by ring.
    apply Rle_trans with (1 := Rabs_triang _ _). rewrite (Rabs_mult (1 - s)), (Rabs_pos_eq (1 - s)) by lra. pose proof (Rmult_le_compat_l (1 - s) _ _ ltac:(lra) HD). lra.
  - replace (L * (t - s)) with (L * (t - 1 - (s - 1))) by ring. apply IH. lra.
Qed.
Lemma poly_lip L pts s t : 0 <= L -> slopes_within L pts -> Rabs (polyline pts t - polyline pts s) <= L * Rabs (t - s).
Proof.
  intros HL HS. destruct (Rle_lt_dec s t).
  - rewrite (Rabs_pos_eq (t - s)) by lra. apply poly_lip_le; assumption.
  - rewrite Rabs_minus_sym, (Rabs_minus_sym t s), (Rabs_pos_eq (s - t)) by lra. apply poly_lip_le; try assumption; lra.
Qed.
Lemma poly_at pts : forall i t d0 d1, znth pts i = Some d0 -> znth pts (i + 1) = Some d1 -> IZR i <= t < IZR i + 1 -> polyline pts t = d0 + (t - IZR i) * (d1 - d0).
Proof.
  induction pts as [|a r IH]; intros i t d0 d1 H0 H1 Ht; [rewrite znth_nil in H0; discriminate|]. pose proof (znth_some_range _ _ _ H0) as RG. destruct r as [|b r].
  { exfalso. pose proof (znth_some_range _ _ _ H1) as G. unfold zlen in *. cbn in *. lia. }
  change (polyline (a :: b :: r) t) with (if Rlt_dec t 1 then a + t * (b - a) else polyline (b :: r) (t - 1)).
  destruct (Z.eq_dec i 0) as [->|Hi].
  - rewrite znth_cons_0 in H0. injection H0 as <-. rewrite znth_cons_pos in H1 by lia. change (0 + 1 - 1)%Z with 0%Z in H1. rewrite znth_cons_0 in H1. injection H1 as <-. destruct (Rlt_dec t 1); lra.
  - assert (1 <= IZR i) by (apply IZR_le; lia). destruct (Rlt_dec t 1); [lra|]. rewrite znth_cons_pos in H0, H1 by lia. replace (i + 1 - 1)%Z with (i - 1 + 1)%Z in H1 by lia.
    rewrite (IH (i - 1)%Z (t - 1) d0 d1 H0 H1) by (rewrite minus_IZR; lra). rewrite minus_IZR. ring.
Qed.
Lemma poly_end pts : forall d, pts <> [] -> znth pts (zlen pts - 1) = Some d -> polyline pts (IZR (zlen pts - 1)) = d.
Proof.
  induction pts as [|a r IH]; intros d Hn H; [congruence|]. destruct r as [|b r]. { unfold zlen in *. cbn in *. congruence. }
  assert (EZ : zlen (a :: b :: r) = (zlen (b :: r) + 1)%Z) by (unfold zlen; cbn [length]; lia). assert (1 <= zlen (b :: r))%Z by (unfold zlen; cbn [length]; lia).
  change (polyline (a :: b :: r) ?x) with (if Rlt_dec x 1 then a + x * (b - a) else polyline (b :: r) (x - 1)).
  rewrite EZ in *. replace (zlen (b :: r) + 1 - 1)%Z with (zlen (b :: r)) in * by lia. rewrite znth_cons_pos in H by lia. assert (1 <= IZR (zlen (b :: r))) by (apply IZR_le; lia). destruct (Rlt_dec (IZR (zlen (b :: r))) 1); [lra|].
  change 1 with (IZR 1). rewrite <- minus_IZR. apply IH; [discriminate|exact H].
Qed.
Lemma sub_rel x y : in_f32 x -> in_f32 y -> Rabs (RN (x - y) - (x - y)) <= fu * Rabs (x - y).
Proof.
  intros Hx Hy. destruct (Rle_lt_dec (Rabs (x - y)) (bpow radix2 (-125))) as [S|S].
  - rewrite RN_id by (apply sub_exact_small; assumption). rewrite Rminus_diag_eq, Rabs_R0 by reflexivity. apply Rmult_le_pos; [apply bpow_ge_0|apply Rabs_pos].
  - apply RN_rel. apply Rle_trans with (bpow radix2 (-125)); [apply bpow_le; lia|lra].
Qed.
Lemma map_nth (l : list f32) i d : znth l i = Some d -> znth (map fval l) i = Some (fval d).
Proof. intros H. rewrite znth_map, H. reflexivity. Qed.
Lemma map_zlen (l : list f32) : zlen (map fval l) = zlen l. Proof. unfold zlen. rewrite map_length. reflexivity. Qed.

Section Acc.
Variables (e : Z) (L : R) (pts : list f32).
Hypotheses (He : (0 <= e <= 125)%Z) (HN : (2 <= zlen pts <= 2 ^ 24)%Z) (HL : 0 <= L)
  (HP : forall i d, znth pts i = Some d -> finite_f32 d /\ Rabs (fval d) <= bpow radix2 e) (HS : slopes_within L (map fval pts)).
Notation M := (IZR (zlen pts - 1)).
Lemma M_pos : 1 <= M. Proof. apply IZR_le. lia. Qed.
Lemma tab_index mn mx val : finite_f32 mn -> finite_f32 mx -> finite_f32 val -> Rabs (fval mn) <= bpow radix2 126 -> Rabs (fval mx) <= bpow radix2 126 -> fval mn < fval mx -> fval mn <= fval val <= fval mx ->
  let t := (fval val - fval mn) / (fval mx - fval mn) * M in
  finite_f32 (table_index pts mn mx val) /\ 0 <= fval (table_index pts mn mx val) <= M /\ 0 <= t <= M /\ Rabs (fval (table_index pts mn mx val) - t) <= 5 * fu * M.
Proof.
  intros Fn Fx Fv Bn Bx Hlt Hv t. pose proof M_pos as MP. rewrite fu_val. pose proof feta_small as ES. pose proof feta_pos as EP.
  set (A := fval val - fval mn) in *. set (B := fval mx - fval mn) in *. assert (HB : 0 < B) by (unfold B; lra). assert (HA : 0 <= A <= B) by (unfold A, B; lra).
  assert (B127 : B <= bpow radix2 127). { change 127%Z with (126 + 1)%Z. rewrite pow_step. apply Rabs_le_inv in Bn, Bx. unfold B. lra. }
  destruct (fsub_b val mn Fv Fn) as [Fa Va]; [fold A; rewrite Rabs_pos_eq; lra|]. destruct (fsub_b mx mn Fx Fn) as [Fb Vb]; [fold B; rewrite Rabs_pos_eq; lra|]. fold A in Va. fold B in Vb.
  pose proof (sub_rel _ _ (fval_in val (proj1 Fv)) (fval_in mn (proj1 Fn))) as Ra. pose proof (sub_rel _ _ (fval_in mx (proj1 Fx)) (fval_in mn (proj1 Fn))) as Rb. fold A in Ra. fold B in Rb. rewrite fu_val in Ra, Rb. rewrite (Rabs_pos_eq A) in Ra by lra. rewrite (Rabs_pos_eq B) in Rb by lra.
  pose proof (sub_nonzero _ _ (fval_in mn (proj1 Fn)) (fval_in mx (proj1 Fx)) Hlt) as Pb. fold B in Pb.
  assert (Pa : 0 <= RN A <= RN B). { split; [pose proof (RN_le 0 A ltac:(lra)) as Q; rewrite RN_0 in Q; exact Q|apply RN_le; lra]. }
  set (a := RN A) in *. set (b := RN B) in *.
  assert (Q1 : 0 <= a / b <= 1). { split; [apply Rmult_le_pos; [lra|apply Rlt_le, Rinv_0_lt_compat; lra]|]. apply Rmult_le_reg_r with b; [lra|]. unfold Rdiv. rewrite Rmult_assoc, Rinv_l by lra. lra. }
  destruct (fdiv_b (fsub val mn) (fsub mx mn) Fa Fb) as [Fq Vq]; [rewrite Vb; lra|rewrite Va, Vb; apply (small_le_127 0); [lia|]; change (IZR (2 ^ 0)) with 1; apply Rabs_le; lra|]. rewrite Va, Vb in Vq.
  assert (Q2 : 0 <= RN (a / b) <= 1) by (apply (RN_between (IZR 0) (IZR 1)); [apply in_int; lia|apply in_int; lia|exact Q1]).
  pose proof (RN_any (a / b)) as E1. rewrite fu_val, (Rabs_pos_eq (a / b)) in E1 by lra. set (q := RN (a / b)) in *.
  destruct (int_b (zlen pts - 1) ltac:(lia)) as [FI VI].
  assert (QM : 0 <= q * M <= M) by (split; [apply Rmult_le_pos; lra|pose proof (Rmult_le_compat_r M q 1 ltac:(lra) ltac:(lra)); lra]).
  assert (M24 : M <= IZR (2 ^ 24)) by (apply IZR_le; lia).
  destruct (fmul_b (fdiv (fsub val mn) (fsub mx mn)) (f32_of_int (zlen pts - 1)) Fq FI) as [Fi Vi]; [rewrite Vq, VI; apply (small_le_127 24); [lia|]; apply Rabs_le; lra|]. rewrite Vq, VI in Vi.
  pose proof (RN_any (q * M)) as E2. rewrite fu_val, (Rabs_pos_eq (q * M)) in E2 by lra.
  assert (T1 : 0 <= A / B <= 1). { split; [apply Rmult_le_pos; [lra|apply Rlt_le, Rinv_0_lt_compat; lra]|]. apply Rmult_le_reg_r with B; [lra|]. unfold Rdiv. rewrite Rmult_assoc, Rinv_l by lra. lra. }
  split; [exact Fi|]. unfold table_index. rewrite Vi. split; [apply (RN_between (IZR 0) M); [apply in_int; lia|apply in_int; lia|exact QM]|]. split.
  { unfold t. split; [apply Rmult_le_pos; lra|]. pose proof (Rmult_le_compat_r M (A / B) 1 ltac:(lra) ltac:(lra)). lra. }
  (* the quotient *)
  assert (D : Rabs (a / b - A / B) <= 21 / 10 * / 16777216).
  { assert (EA : A = A / B * B) by (field; lra). set (T := A / B) in *. assert (N1 : Rabs (a - T * b) <= 2 * / 16777216 * B).
    { replace (a - T * b) with ((a - A) - T * (b - B)) by (rewrite EA at 1; ring). apply Rle_trans with (1 := Rabs_triang _ _). rewrite Rabs_Ropp, Rabs_mult, (Rabs_pos_eq T) by lra. pose proof (Rmult_le_compat T 1 _ _ ltac:(lra) (Rabs_pos (b - B)) ltac:(lra) Rb). lra. }
    replace (a / b - T) with ((a - T * b) * / b) by (field; lra). rewrite Rabs_mult, (Rabs_pos_eq (/ b)) by (apply Rlt_le, Rinv_0_lt_compat; lra). apply Rmult_le_reg_r with b; [lra|]. rewrite Rmult_assoc, Rinv_l, Rmult_1_r by lra. apply Rabs_le_inv in Rb. lra. }
  set (ab := a / b) in *. unfold t. set (T := A / B) in *. clearbody ab T q.
  assert (D2 : Rabs (q - T) <= 32 / 10 * / 16777216). { replace (q - T) with ((q - ab) + (ab - T)) by ring. apply Rle_trans with (1 := Rabs_triang _ _). lra. }
  replace (RN (q * M) - T * M) with ((RN (q * M) - q * M) + (q - T) * M) by ring. apply Rle_trans with (1 := Rabs_triang _ _). rewrite (Rabs_mult (q - T)), (Rabs_pos_eq M) by lra. pose proof (Rmult_le_compat_r M _ _ ltac:(lra) D2). lra.
Qed.
Lemma lookup_accurate mn mx val : finite_f32 mn -> finite_f32 mx -> finite_f32 val -> Rabs (fval mn) <= bpow radix2 126 -> Rabs (fval mx) <= bpow radix2 126 -> fval mn < fval mx -> fval mn <= fval val <= fval mx ->
  exists r, Flookup pts mn mx val = Ok r /\ finite_f32 r /\ Rabs (fval r - polyline (map fval pts) ((fval val - fval mn) / (fval mx - fval mn) * M)) <= 5 * fu * M * L + 3 * bpow radix2 (e - 24).
Proof.
  intros Fn Fx Fv Bn Bx Hlt Hv. destruct (tab_index mn mx val Fn Fx Fv Bn Bx Hlt Hv) as (FI & RI & RT & DI). set (t := (fval val - fval mn) / (fval mx - fval mn) * M) in *. 
  unfold Flookup, lookup. fold (table_index pts mn mx val). set (x := table_index pts mn mx val) in *. clearbody x. clearbody t.
  destruct (int_b (zlen pts - 1) ltac:(lia)) as [FL VL]. change (f32_of_int 0) with f32_zero. destruct zero_b as [FZ VZ]. pose proof (bpow_gt_0 radix2 (e - 24)) as BP. pose proof M_pos as MP.
  assert (LIP : forall s, Rabs (s - t) <= 5 * fu * M -> Rabs (polyline (map fval pts) s - polyline (map fval pts) t) <= 5 * fu * M * L).
  { intros s H. apply Rle_trans with (1 := poly_lip L _ t s HL HS). rewrite Rmult_comm. apply Rmult_le_compat_r; assumption. }
  destruct (SFleb x f32_zero) eqn:C0.
  { apply (fleb_val x f32_zero (proj1 FI) (proj1 FZ) (proj2 FI) (proj2 FZ)) in C0. rewrite VZ in C0. destruct (znth_some pts 0 ltac:(lia)) as [a Ha]. rewrite (rd_ok _ _ _ Ha). exists a. destruct (HP 0 a Ha) as [Fa _]. split; [reflexivity|]. split; [exact Fa|].
    assert (E0 : polyline (map fval pts) 0 = fval a). { destruct pts as [|p r]; [rewrite znth_nil in Ha; discriminate|]. rewrite znth_cons_0 in Ha. injection Ha as ->. apply poly_0. }
    rewrite <- E0. assert (EX : fval x = 0) by lra. rewrite EX in DI. pose proof (LIP 0 DI). lra. }
  assert (X0 : 0 < fval x). { destruct (Rle_lt_dec (fval x) 0) as [H|H]; [|exact H]. exfalso. assert (SFleb x f32_zero = true) by (apply (fleb_val x f32_zero (proj1 FI) (proj1 FZ) (proj2 FI) (proj2 FZ)); rewrite VZ; exact H). congruence. }
  destruct (SFleb (f32_of_int (zlen pts - 1)) x) eqn:C1.
  { apply (fleb_val _ x (proj1 FL) (proj1 FI) (proj2 FL) (proj2 FI)) in C1. rewrite VL in C1. destruct (znth_some pts (zlen pts - 1) ltac:(lia)) as [b Hb]. rewrite (rd_ok _ _ _ Hb). exists b. destruct (HP _ b Hb) as [Fb _]. split; [reflexivity|]. split; [exact Fb|].
    assert (E1 : polyline (map fval pts) M = fval b). { rewrite <- (map_zlen pts). apply poly_end; [|rewrite map_zlen; apply map_nth; exact Hb]. destruct pts; [rewrite znth_nil in Hb; discriminate|discriminate]. }
    rewrite <- E1. assert (EX : fval x = M) by lra. rewrite EX in DI. pose proof (LIP M DI). lra. }
  assert (X1 : fval x < M). { destruct (Rle_lt_dec M (fval x)) as [H|H]; [|exact H]. exfalso. assert (SFleb (f32_of_int (zlen pts - 1)) x = true) by (apply (fleb_val _ x (proj1 FL) (proj1 FI) (proj2 FL) (proj2 FI)); rewrite VL; exact H). congruence. }
  destruct (trunc_range (fval x) 0 (zlen pts - 1)) as [T1 T2]; [lra|exact X1|lia|]. 
  assert (TB : IZR (Ztrunc (fval x)) <= fval x < IZR (Ztrunc (fval x)) + 1) by (rewrite Ztrunc_floor by lra; split; [apply Zfloor_lb|apply Zfloor_ub]).
  set (i := Ztrunc (fval x)) in *. rewrite (cast_val x i (proj2 FI) eq_refl) by lia. cbn [bind].
  destruct (znth_some pts i ltac:(lia)) as [lo Hlo]. destruct (znth_some pts (i + 1) ltac:(lia)) as [up Hup]. rewrite (rd_ok _ _ _ Hlo). cbn [bind]. rewrite word_small by lia. rewrite (rd_ok _ _ _ Hup). cbn [bind].
  destruct (HP _ _ Hlo) as [Flo Blo]. destruct (HP _ _ Hup) as [Fup Bup]. destruct (frac_exact x i FI ltac:(lia) TB) as [Fp Vp]. set (p := fsub x (f32_of_int i)) in *.
  exists (finterpolate3 lo up p). split; [reflexivity|]. split; [apply (interp3_val e lo up p He Flo Fup Fp Blo Bup); lra|].
  pose proof (interp3_accurate e lo up p He Flo Fup Fp Blo Bup ltac:(lra)) as AC. rewrite Vp in AC.
  pose proof (poly_at (map fval pts) i (fval x) (fval lo) (fval up) (map_nth _ _ _ Hlo) (map_nth _ _ _ Hup) TB) as PA. rewrite <- PA in AC.
  replace (fval (finterpolate3 lo up p) - polyline (map fval pts) t) with ((fval (finterpolate3 lo up p) - polyline (map fval pts) (fval x)) + (polyline (map fval pts) (fval x) - polyline (map fval pts) t)) by ring.
  apply Rle_trans with (1 := Rabs_triang _ _). pose proof (LIP (fval x) DI). lra.
Qed.
Lemma interp_line phase : finite_f32 phase -> 0 <= fval phase <= 1 ->
  exists r, Finterp pts phase = Ok r /\ finite_f32 r /\ Rabs (fval r) <= bpow radix2 e /\ Rabs (fval r - polyline (map fval pts) (fval phase * M)) <= fu * M * L + 5 * bpow radix2 (e - 25).
Proof.
  intros Fp Hp. destruct (int_b (zlen pts - 1) ltac:(lia)) as [FL VL]. pose proof M_pos as MP. pose proof (bpow_gt_0 radix2 (e - 25)) as BP.
  assert (PM : 0 <= fval phase * M <= M) by (split; [apply Rmult_le_pos; lra|pose proof (Rmult_le_compat_r M _ 1 ltac:(lra) (proj2 Hp)); lra]). assert (M24 : M <= bpow radix2 24) by (change (bpow radix2 24) with (IZR (2 ^ 24)); apply IZR_le; lia).
  destruct (fmul_b phase _ Fp FL) as [FX VX]; [rewrite VL; apply (le_127 24); [lia|]; apply Rabs_le; lra|]. rewrite VL in VX.
  assert (RX : 0 <= RN (fval phase * M) <= M) by (apply (RN_between (IZR 0) M); [apply in_int; lia|apply in_int; lia|exact PM]).
  assert (DX : Rabs (RN (fval phase * M) - fval phase * M) <= fu * M).
  { destruct (Rle_lt_dec (bpow radix2 (-126)) (fval phase * M)) as [G|G].
    - apply Rle_trans with (fu * Rabs (fval phase * M)); [apply RN_rel; rewrite Rabs_pos_eq; lra|]. rewrite Rabs_pos_eq by lra. apply Rmult_le_compat_l; [apply bpow_ge_0|lra].
    - apply Rle_trans with (fu * Rabs (fval phase * M) + feta); [apply RN_any|]. rewrite Rabs_pos_eq by lra. pose proof feta_small. assert (bpow radix2 (-126) <= / 1000). { apply Rle_trans with (bpow radix2 (-10)); [apply bpow_le; lia|]. change (bpow radix2 (-10)) with (/ 1024). lra. } rewrite fu_val. lra. }
  unfold Finterp, interp, interp_by_index. set (x := fmul phase (f32_of_int (zlen pts - 1))) in *. rewrite <- VX in RX, DX. clear VX.
  assert (TB : IZR (Ztrunc (fval x)) <= fval x < IZR (Ztrunc (fval x)) + 1) by (rewrite Ztrunc_floor by lra; split; [apply Zfloor_lb|apply Zfloor_ub]).
  destruct (trunc_range (fval x) 0 (zlen pts)) as [T1 T2]; [lra|apply Rle_lt_trans with (1 := proj2 RX); apply IZR_lt; lia|lia|]. set (i := Ztrunc (fval x)) in *.
  rewrite (cast_val x i (proj2 FX) eq_refl) by lia. cbn [bind]. destruct (frac_exact x i FX ltac:(lia) TB) as [Fq Vq]. set (q := fsub x (f32_of_int i)) in *. unfold blend. rewrite Table.next_mod by lia.
  pose proof (Z.mod_pos_bound (i + 1) (zlen pts) ltac:(lia)) as HM. destruct (znth_some pts ((i + 1) mod zlen pts) HM) as [d1 H1]. destruct (znth_some pts i ltac:(lia)) as [d0 H0]. rewrite (rd_ok _ _ _ H1), (rd_ok _ _ _ H0). cbn [bind].
  destruct (HP _ _ H0) as [F0 B0]. destruct (HP _ _ H1) as [F1 B1]. exists (finterpolate d0 d1 q). split; [unfold finterpolate; rewrite fadd_comm; reflexivity|].
  split; [apply (interp_val e d0 d1 q He F0 F1 Fq B0 B1); lra|]. split; [apply interp_bounded; auto; lra|].
  pose proof (interp_accurate e d0 d1 q He F0 F1 Fq B0 B1 ltac:(lra)) as AC. rewrite Vq in AC.
  assert (PA : polyline (map fval pts) (fval x) = fval d0 + (fval x - IZR i) * (fval d1 - fval d0)).
  { destruct (Z.eq_dec i (zlen pts - 1)) as [EI|NI].
    - assert (EX : fval x = M). { apply Rle_antisym; [lra|]. rewrite EI in TB. lra. } rewrite EX at 1. rewrite <- (map_zlen pts). rewrite (poly_end _ (fval d0)); [rewrite EX, EI; ring| |rewrite map_zlen; apply map_nth; rewrite <- EI; exact H0]. destruct pts; [rewrite znth_nil in H0; discriminate|discriminate].
    - apply poly_at; [apply map_nth; exact H0| |exact TB]. rewrite Z.mod_small in H1 by lia. apply map_nth. exact H1. }
  rewrite <- PA in AC. replace (fval (finterpolate d0 d1 q) - polyline (map fval pts) (fval phase * M)) with ((fval (finterpolate d0 d1 q) - polyline (map fval pts) (fval x)) + (polyline (map fval pts) (fval x) - polyline (map fval pts) (fval phase * M))) by ring.
  apply Rle_trans with (1 := Rabs_triang _ _). pose proof (poly_lip L _ (fval phase * M) (fval x) HL HS) as PL. pose proof (Rmult_le_compat_l L _ _ HL DX). lra.
Qed.
End Acc.
