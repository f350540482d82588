From Coq Require Import Reals Lra ZArith Floats.SpecFloat.
From Flocq Require Import Core Plus_error.
From Coq Require Import Bool.
From Verif.Common Require Import Base Lemmas Lists F32 F32Order F32Real.
From Verif.Model Require Import Table.
From Verif.Proofs Require Table.
Open Scope Z_scope.

Lemma cast_val x n : ffinite x = true -> Ztrunc (fval x) = n -> 0 <= n < 2 ^ 32 -> f32_to_uint 32 x = Ok n.
Proof. intros F E Hn. unfold f32_to_uint. rewrite trunc_val, E by exact F. destruct (Z.leb_spec 0 n), (Z.ltb_spec n (2 ^ 32)); try lia. reflexivity. Qed.
Lemma trunc_range x a b : (IZR a <= x)%R -> (x < IZR b)%R -> 0 <= a -> a <= Ztrunc x < b.
Proof.
  intros H1 H2 Ha. assert (0 <= IZR a)%R by (apply IZR_le; lia). rewrite Ztrunc_floor by lra. split; [apply Zfloor_lub; exact H1|]. apply lt_IZR. apply Rle_lt_trans with x; [apply Zfloor_lb|exact H2].
Qed.

Definition table_index (pts : list f32) (mn mx val : f32) : f32 := fmul (fdiv (fsub val mn) (fsub mx mn)) (f32_of_int (zlen pts - 1)).
Lemma index_valid pts mn mx val : valid_f32 mn -> valid_f32 mx -> valid_f32 val -> valid_f32 (table_index pts mn mx val).
Proof. intros. apply fmul_valid; [apply fdiv_valid; apply fsub_valid; assumption|apply f32_of_int_valid]. Qed.
Lemma lookup_float pts mn mx val : 2 <= zlen pts <= 2 ^ 24 -> valid_f32 mn -> valid_f32 mx -> valid_f32 val ->
  if is_nan_f32 (table_index pts mn mx val) then Flookup pts mn mx val = UB BadCast else exists r, Flookup pts mn mx val = Ok r.
Proof.
  intros HN Vn Vx Vv. pose proof (index_valid pts mn mx val Vn Vx Vv) as VI. unfold Flookup, lookup. fold (table_index pts mn mx val). set (idx := table_index pts mn mx val) in *. clearbody idx.
  destruct (f32_of_int_val (zlen pts - 1)) as [E1 F1]; [lia|]. pose proof (f32_of_int_valid (zlen pts - 1)) as V1. change (f32_of_int 0) with (S754_zero false).
  destruct (znth_some pts 0) as [a Ha]; [lia|]. destruct (znth_some pts (zlen pts - 1)) as [b Hb]; [lia|].
  destruct idx as [s|s| |s m e]; cbn [is_nan_f32].
  - rewrite (rd_ok _ _ _ Ha). eexists. reflexivity.
  - destruct s; cbn; [rewrite (rd_ok _ _ _ Ha); eexists; reflexivity|]. assert (EI : SFleb (f32_of_int (zlen pts - 1)) (S754_infinity false) = true) by (destruct (f32_of_int (zlen pts - 1)) as [| | |[]]; try discriminate F1; reflexivity).
    rewrite EI, (rd_ok _ _ _ Hb). eexists. reflexivity.
  - change (SFleb S754_nan (S754_zero false)) with false. assert (EI : SFleb (f32_of_int (zlen pts - 1)) S754_nan = false) by (destruct (f32_of_int (zlen pts - 1)) as [| | |[]]; reflexivity). rewrite EI. reflexivity.
  - set (x := S754_finite s m e) in *. assert (Fx : ffinite x = true) by reflexivity. clearbody x.
    destruct (SFleb x (S754_zero false)) eqn:C0; [rewrite (rd_ok _ _ _ Ha); eexists; reflexivity|].
    destruct (SFleb (f32_of_int (zlen pts - 1)) x) eqn:C1; [rewrite (rd_ok _ _ _ Hb); eexists; reflexivity|].
    assert (H0 : (0 < fval x)%R). { destruct (Rle_lt_dec (fval x) 0) as [HL|HL]; [|exact HL]. assert (HT : SFleb x (S754_zero false) = true) by (apply fleb_val; auto; reflexivity). congruence. }
    assert (H1 : (fval x < IZR (zlen pts - 1))%R). { destruct (Rle_lt_dec (IZR (zlen pts - 1)) (fval x)) as [HL|HL]; [|exact HL]. assert (HT : SFleb (f32_of_int (zlen pts - 1)) x = true) by (apply fleb_val; auto; rewrite E1; exact HL). congruence. }
    destruct (trunc_range (fval x) 0 (zlen pts - 1)) as [T1 T2]; [lra|exact H1|lia|]. set (t := Ztrunc (fval x)) in *.
    rewrite (cast_val x t Fx eq_refl) by lia. cbn [bind]. destruct (znth_some pts t) as [lo Hlo]; [lia|]. destruct (znth_some pts (t + 1)) as [up Hup]; [lia|].
    rewrite (rd_ok _ _ _ Hlo). cbn [bind]. rewrite word_small by lia. rewrite (rd_ok _ _ _ Hup). cbn [bind]. eexists. reflexivity.
Qed.

Definition leb_trans : forall x y z, valid_f32 x -> valid_f32 y -> valid_f32 z -> is_nan_f32 x = false -> is_nan_f32 y = false -> is_nan_f32 z = false -> SFleb x y = true -> SFleb y z = true -> SFleb x z = true.
Proof. intros x y z Vx Vy Vz Nx Ny Nz H1 H2. rewrite SFleb_key in * by assumption. apply Z.leb_le in H1, H2. apply Z.leb_le. lia. Qed.
Lemma sub_nonzero a b : in_f32 a -> in_f32 b -> (a < b)%R -> (0 < RN (b - a))%R.
Proof.
  intros Ha Hb H. pose proof (RN_le 0 (b - a) ltac:(lra)) as HM. rewrite RN_0 in HM.
  assert (HN : RN (b + - a) <> 0%R). { unfold RN. change fexp32 with (FLT_exp (-149) 24). apply round_plus_neq_0; auto with typeclass_instances; [apply generic_format_opp; exact Ha|lra]. }
  unfold Rminus in *. lra.
Qed.
Lemma lookup_float_clamps pts mn mx val : 2 <= zlen pts <= 2 ^ 24 -> valid_f32 mn -> valid_f32 mx -> valid_f32 val -> ffinite mn = true -> ffinite mx = true -> ffinite val = true ->
  SFltb mn mx = true -> ffinite (fsub mx mn) = true ->
  (SFleb val mn = true -> Flookup pts mn mx val = rd pts 0) /\ (SFleb mx val = true -> Flookup pts mn mx val = rd pts (zlen pts - 1)).
Proof.
  intros HN Vn Vx Vv Fn Fx Fv Hlt FD. pose proof (fsub_valid _ _ Vx Vn) as VD. destruct (f32_of_int_val (zlen pts - 1)) as [E1 F1]; [lia|]. pose proof (f32_of_int_valid (zlen pts - 1)) as V1.
  apply fltb_val in Hlt; auto. pose proof (sub_nonzero _ _ (fval_in _ Vn) (fval_in _ Vx) Hlt) as HD.
  assert (ED : fval (fsub mx mn) = RN (fval mx - fval mn)). { destruct (fsub_rounds mx mn Vx Vn Fx Fn) as [(_ & E & _)|(_ & E)]; [exact E|]. rewrite E in FD. discriminate. }
  pose proof (fsub_valid _ _ Vv Vn) as VS. pose proof (fdiv_valid _ _ VS VD) as VQ. pose proof (fmul_valid _ _ VQ V1) as VI.
  set (d := fsub mx mn) in *. set (s := fsub val mn) in *. set (q := fdiv s d) in *. set (n1 := f32_of_int (zlen pts - 1)) in *.
  assert (HDp : (0 < fval d)%R) by (rewrite ED; exact HD). assert (Hn1 : (1 <= fval n1)%R) by (rewrite E1; apply IZR_le; lia).
  assert (Vz : valid_f32 (S754_zero false)) by reflexivity. assert (V1' : valid_f32 f32_one) by reflexivity. destruct (f32_of_int_val 1 ltac:(lia)) as [Eone Fone]. fold f32_one in Eone, Fone.
  split; intros Hv.
  - apply fleb_val in Hv; auto. unfold Flookup, lookup. fold s d q n1. change (f32_of_int 0) with (S754_zero false).
    assert (HS : SFleb s (S754_zero false) = true) by (apply (frounds_le _ (fval val - fval mn) _ VS (fsub_rounds _ _ Vv Vn Fv Fn)); auto; cbn; lra).
    assert (HQ : SFleb q (S754_zero false) = true).
    { destruct (ffinite s) eqn:FS.
      - apply fleb_val in HS; auto. apply (frounds_le _ (fval s / fval d)%R _ VQ); auto; [apply fdiv_rounds; auto; lra|]. change (fval (S754_zero false)) with 0%R in *.
        apply Rmult_le_reg_r with (fval d); [exact HDp|]. unfold Rdiv. rewrite Rmult_assoc, Rinv_l by lra. lra.
      - destruct s as [|[]| |]; try discriminate FS; try discriminate HS. unfold q. clear - HDp FD. destruct d as [| | |[] m e]; try discriminate FD; try reflexivity; exfalso; cbn in HDp; [lra|].
        assert (F2R (Float radix2 (Z.neg m) e) < 0)%R by (apply F2R_lt_0; reflexivity). lra. }
    assert (HI : SFleb (fmul q n1) (S754_zero false) = true).
    { destruct (ffinite q) eqn:FQ.
      - apply fleb_val in HQ; auto. change (fval (S754_zero false)) with 0%R in *. apply (frounds_le _ (fval q * fval n1)%R _ VI); auto; [apply fmul_rounds; auto|]. change (fval (S754_zero false)) with 0%R. nra.
      - destruct q as [|[]| |]; try discriminate FQ; try discriminate HQ. clear - Hn1 F1. destruct n1 as [| | |[] m e]; try discriminate F1; try reflexivity; exfalso; cbn in Hn1; [lra|].
        assert (F2R (Float radix2 (Z.neg m) e) < 0)%R by (apply F2R_lt_0; reflexivity). lra. }
    rewrite HI. reflexivity.
  - apply fleb_val in Hv; auto. unfold Flookup, lookup. fold s d q n1. change (f32_of_int 0) with (S754_zero false).
    assert (HS : SFleb d s = true).
    { destruct (fsub_rounds val mn Vv Vn Fv Fn) as [(HB & E & F)|(HB & E)]; fold s in E.
      - fold s in F. apply fleb_val; auto. rewrite E, ED. apply RN_le. lra.
      - rewrite Rlt_bool_false in E by lra. rewrite E. destruct d as [| | |[]]; try discriminate FD; reflexivity. }
    assert (HQ : SFleb f32_one q = true).
    { destruct (ffinite s) eqn:FS.
      - apply fleb_val in HS; auto. apply (frounds_ge _ (fval s / fval d)%R _ VQ); auto; [apply fdiv_rounds; auto; lra|]. rewrite Eone.
        apply Rmult_le_reg_r with (fval d); [exact HDp|]. unfold Rdiv. rewrite Rmult_assoc, Rinv_l by lra. lra.
      - assert (Es : s = S754_infinity false). { destruct s as [|[]| |]; try discriminate FS; try reflexivity; exfalso; clear - HS FD HDp; destruct d as [| | |[] m e]; try discriminate FD; discriminate HS. }
        unfold q. rewrite Es. clear - HDp FD. destruct d as [| | |[] m e]; try discriminate FD; try reflexivity; exfalso; cbn in HDp; [lra|].
        assert (F2R (Float radix2 (Z.neg m) e) < 0)%R by (apply F2R_lt_0; reflexivity). lra. }
    assert (HI : SFleb n1 (fmul q n1) = true).
    { destruct (ffinite q) eqn:FQ.
      - apply fleb_val in HQ; auto. rewrite Eone in HQ. apply (frounds_ge _ (fval q * fval n1)%R _ VI); auto; [apply fmul_rounds; auto|]. nra.
      - assert (Eq : q = S754_infinity false). { destruct q as [|[]| |]; try discriminate FQ; try reflexivity; exfalso; discriminate HQ. }
        rewrite Eq. clear - Hn1 F1. destruct n1 as [| | |[] m e]; try discriminate F1; try reflexivity; exfalso; cbn in Hn1; [lra|].
        assert (F2R (Float radix2 (Z.neg m) e) < 0)%R by (apply F2R_lt_0; reflexivity). lra. }
    assert (H0 : SFleb (fmul q n1) (S754_zero false) = false).
    { apply not_true_is_false. intros HT. assert (HX : SFleb n1 (S754_zero false) = true).
      { apply leb_trans with (fmul q n1); auto; [destruct n1 as [| | |[]]; try discriminate F1; reflexivity|]. destruct (fmul q n1) as [| | |[]]; try reflexivity. discriminate HT. }
      apply fleb_val in HX; auto. cbn in HX. lra. }
    rewrite H0, HI. reflexivity.
Qed.
Lemma lookup_float_degenerate pts mn : 2 <= zlen pts <= 2 ^ 24 -> valid_f32 mn -> Flookup pts mn mn mn = UB BadCast.
Proof.
  intros HN Vn. pose proof (lookup_float pts mn mn mn HN Vn Vn Vn) as H. assert (E : table_index pts mn mn mn = S754_nan); [|rewrite E in H; exact H].
  unfold table_index. assert (E0 : fdiv (fsub mn mn) (fsub mn mn) = S754_nan); [|rewrite E0; reflexivity].
  destruct mn as [[]|[]| |s m e]; try reflexivity. cbn [fsub SFsub]. rewrite Z.min_id. 
  assert (EZ : fsub (S754_finite s m e) (S754_finite s m e) = S754_zero false). { unfold fsub, SFsub. rewrite Z.sub_diag. reflexivity. }
  unfold fsub in EZ. cbn [SFsub] in EZ. rewrite Z.min_id in EZ. rewrite EZ. reflexivity.
Qed.

(** InterpArray *)
Section Interp.
Context (data : list f32).
Let S := zlen data.
Lemma index_range phase k : 0 <= k <= 2 ^ 24 -> valid_f32 phase -> ffinite phase = true -> (0 <= fval phase <= 1)%R ->
  let x := fmul phase (f32_of_int k) in ffinite x = true /\ (0 <= fval x <= IZR k)%R.
Proof.
  intros Hk Vp Fp Hp x. destruct (f32_of_int_val k) as [E1 F1]; [lia|]. pose proof (f32_of_int_valid k) as V1.
  assert (H0 : (0 <= IZR k)%R) by (apply IZR_le; lia).
  destruct (frounds_between x (fval phase * fval (f32_of_int k)) 0 (IZR k)) as (A & B & C).
  - apply fmul_rounds; assumption.
  - exact (in_int 0 ltac:(lia)).
  - apply in_int. lia.
  - rewrite Rabs_R0. exact fmax_pos.
  - apply small_int_bound. lia.
  - rewrite E1. split; [nra|]. nra.
  - split; [exact A|exact C].
Qed.
Lemma blend_ok i phase : 0 <= i < S -> S < 2 ^ 32 -> exists r, blend fadd fsub fmul f32_of_int data i phase = Ok r.
Proof.
  intros Hi HS. unfold blend. fold S. rewrite Table.next_mod by lia. pose proof (Z.mod_pos_bound (i + 1) S ltac:(lia)).
  destruct (znth_some data ((i + 1) mod S)) as [y Hy]; [fold S; lia|]. destruct (znth_some data i) as [x Hx]; [fold S; lia|]. rewrite (rd_ok _ _ _ Hy), (rd_ok _ _ _ Hx). cbn [bind]. eexists. reflexivity.
Qed.
Lemma interp_in_bounds phase : 1 <= S <= 2 ^ 24 -> valid_f32 phase -> ffinite phase = true -> (0 <= fval phase <= 1)%R ->
  (exists r, Finterp data phase = Ok r) /\ (exists r, Fclosest data phase = Ok r).
Proof.
  intros HS Vp Fp Hp. destruct (index_range phase (S - 1) ltac:(lia) Vp Fp Hp) as [FI HI]. cbn zeta in FI, HI.
  assert (HT : 0 <= Ztrunc (fval (fmul phase (f32_of_int (S - 1)))) < S) by (apply trunc_range; [apply HI| |lia]; apply Rle_lt_trans with (IZR (S - 1)); [apply HI|apply IZR_lt; lia]).
  set (t := Ztrunc _) in HT. unfold Finterp, interp, interp_by_index, Fclosest, closest. fold S. rewrite (cast_val _ t FI eq_refl) by lia. cbn [bind]. split.
  - apply blend_ok; lia.
  - destruct (znth_some data t) as [x Hx]; [fold S; lia|]. rewrite (rd_ok _ _ _ Hx). eexists. reflexivity.
Qed.
Lemma wrap_in_bounds fuel phase : 1 <= S <= 2 ^ 24 -> valid_f32 phase -> ffinite phase = true -> (0 <= fval phase)%R -> (RN (fval phase * IZR S) < IZR (2 ^ 32))%R -> 2 ^ 32 <= Z.of_nat fuel ->
  (exists r, Finterp_wrap fuel data phase = Ok r) /\ (exists r, Fclosest_wrap fuel data phase = Ok r).
Proof.
  intros HS Vp Fp Hp HB HF. destruct (f32_of_int_val S) as [E1 F1]; [lia|]. pose proof (f32_of_int_valid S) as V1. assert (H0 : (0 <= IZR S)%R) by (apply IZR_le; lia).
  assert (H32 : (IZR (2 ^ 32) < fmax)%R) by (unfold fmax; change (IZR (2 ^ 32)) with (bpow radix2 32); apply bpow_lt; lia).
  pose proof (RN_le 0 (fval phase * IZR S) ltac:(nra)) as HM. rewrite RN_0 in HM.
  destruct (fmul_val phase (f32_of_int S) Vp V1 Fp F1) as [EV FV]; [rewrite E1, Rabs_right by lra; lra|]. rewrite E1 in EV.
  set (x := fmul phase (f32_of_int S)) in *. assert (HT : 0 <= Ztrunc (fval x) < 2 ^ 32) by (apply trunc_range; [rewrite EV; exact HM|rewrite EV; exact HB|lia]). set (t := Ztrunc (fval x)) in HT.
  unfold Finterp_wrap, interp_wrap, interp_by_index_wrap, Fclosest_wrap, closest_wrap. fold S. fold x. rewrite (cast_val x t FV eq_refl) by lia. cbn [bind].
  assert (HD : t / S <= Z.of_nat fuel) by (apply Z.le_trans with t; [apply Z.div_le_upper_bound; nia|lia]).
  rewrite Table.wrap_loop_mod by lia. cbn [bind]. pose proof (Z.mod_pos_bound t S ltac:(lia)). split.
  - apply blend_ok; lia.
  - destruct (znth_some data (t mod S)) as [y Hy]; [fold S; lia|]. rewrite (rd_ok _ _ _ Hy). eexists. reflexivity.
Qed.
Lemma wrap_too_big fuel phase : 1 <= S <= 2 ^ 24 -> valid_f32 phase -> ffinite phase = true -> (IZR (2 ^ 32) <= RN (fval phase * IZR S))%R ->
  Finterp_wrap fuel data phase = UB BadCast /\ Fclosest_wrap fuel data phase = UB BadCast.
Proof.
  intros HS Vp Fp HB. destruct (f32_of_int_val S) as [E1 F1]; [lia|]. pose proof (f32_of_int_valid S) as V1.
  assert (EC : f32_to_uint 32 (fmul phase (f32_of_int S)) = UB BadCast).
  { pose proof (fmul_rounds phase (f32_of_int S) Vp V1 Fp F1) as HR. rewrite E1 in HR. unfold f32_to_uint. destruct HR as [(_ & EV & FV)|(_ & E)]; [|rewrite E; reflexivity].
    rewrite trunc_val by exact FV. rewrite EV. assert (H0 : (0 <= IZR (2 ^ 32))%R) by (apply IZR_le; lia). rewrite Ztrunc_floor by lra. assert (2 ^ 32 <= Zfloor (RN (fval phase * IZR S))) by (apply Zfloor_lub; exact HB).
    destruct (Z.ltb_spec (Zfloor (RN (fval phase * IZR S))) (2 ^ 32)); [lia|]. rewrite Bool.andb_false_r. reflexivity. }
  unfold Finterp_wrap, interp_wrap, interp_by_index_wrap, Fclosest_wrap, closest_wrap. fold S. rewrite EC. split; reflexivity.
Qed.
End Interp.

(** multiplication and addition with zero and one *)
Lemma fmul_one x : valid_f32 x -> ffinite x = true -> fval (fmul x f32_one) = fval x /\ ffinite (fmul x f32_one) = true.
Proof.
  intros Vx Fx. destruct (f32_of_int_val 1 ltac:(lia)) as [E F]. fold f32_one in E, F. assert (V : valid_f32 f32_one) by reflexivity.
  destruct (fmul_val x f32_one Vx V Fx F) as [A B]; rewrite E, Rmult_1_r, RN_id in * by (apply fval_in; exact Vx); [apply fval_bound; exact Vx|]. auto.
Qed.
Lemma fzero_cases x : ffinite x = true -> valid_f32 x -> fval x = 0%R -> exists s, x = S754_zero s.
Proof.
  destruct x as [s| | |s m e]; intros F V E; try discriminate F; [eexists; reflexivity|]. exfalso. cbn in E. destruct s; cbn in E.
  - assert (F2R (Float radix2 (Z.neg m) e) < 0)%R by (apply F2R_lt_0; reflexivity). lra.
  - assert (0 < F2R (Float radix2 (Z.pos m) e))%R by (apply F2R_gt_0; reflexivity). lra.
Qed.
Lemma fsub_self_val x y : valid_f32 x -> valid_f32 y -> ffinite x = true -> ffinite y = true -> fval x = fval y -> exists s, fsub x y = S754_zero s.
Proof.
  intros Vx Vy Fx Fy E. destruct (fsub_val x y Vx Vy Fx Fy) as [A B]; rewrite E, Rminus_diag_eq, RN_0 in * by reflexivity; [rewrite Rabs_R0; exact fmax_pos|].
  apply fzero_cases; auto. apply fsub_valid; assumption.
Qed.
Lemma interp_one data first last : 1 <= zlen data <= 2 ^ 24 -> znth data 0 = Some first -> znth data (zlen data - 1) = Some last -> valid_f32 first -> valid_f32 last ->
  exists r, Finterp data f32_one = Ok r /\
    (if ffinite first then ffinite last = true -> fval r = fval last else r = S754_nan).
Proof.
  intros HS Hf Hl Vf Vl. set (S := zlen data) in *. destruct (f32_of_int_val (S - 1)) as [E1 F1]; [lia|]. pose proof (f32_of_int_valid (S - 1)) as V1. destruct (f32_of_int_val 1 ltac:(lia)) as [Eo Fo]. fold f32_one in Eo, Fo. assert (Vo : valid_f32 f32_one) by reflexivity.
  unfold Finterp, interp, interp_by_index. fold S. set (x := fmul f32_one (f32_of_int (S - 1))) in *.
  assert (HX : fval x = IZR (S - 1) /\ ffinite x = true). { destruct (fmul_val f32_one (f32_of_int (S - 1)) Vo V1 Fo F1) as [A B]; rewrite Eo, E1, Rmult_1_l, RN_id in * by (apply in_int; lia); [apply small_int_bound; lia|]. auto. }
  destruct HX as [EX FX]. assert (VX : valid_f32 x) by (apply fmul_valid; assumption). rewrite (cast_val x (S - 1) FX) by (try (rewrite EX; apply Ztrunc_IZR); lia). cbn [bind]. unfold blend. fold S. rewrite Z.eqb_refl.
  rewrite (rd_ok _ _ _ Hf), (rd_ok _ _ _ Hl). cbn [bind]. eexists. split; [reflexivity|].
  destruct (fsub_self_val x (f32_of_int (S - 1)) VX V1 FX F1 ltac:(lra)) as [s Es]. rewrite Es. assert (E2 : fsub (f32_of_int 1) (S754_zero s) = f32_one) by (destruct s; reflexivity). rewrite E2.
  destruct (ffinite first) eqn:Ff.
  - intros Fl. assert (HZ : exists s', fmul first (S754_zero s) = S754_zero s') by (destruct first; try discriminate Ff; eexists; reflexivity). destruct HZ as [s' ->].
    destruct (fmul_one last Vl Fl) as [EL FL]. assert (VL : valid_f32 (fmul last f32_one)) by (apply fmul_valid; assumption).
    destruct (fadd_val (S754_zero s') (fmul last f32_one) eq_refl VL eq_refl FL) as [A _]; change (fval (S754_zero s')) with 0%R in *; rewrite EL, Rplus_0_l, RN_id in * by (apply fval_in; exact Vl); [apply fval_bound; exact Vl|]. exact A.
  - assert (HZ : fmul first (S754_zero s) = S754_nan) by (destruct first as [|[]| |]; try discriminate Ff; reflexivity). rewrite HZ. destruct (fmul last f32_one) as [| | |[]]; reflexivity.
Qed.
