(* Single precision arithmetic as rounded real arithmetic, through Flocq. *)
From Coq Require Import Reals Lra Lia ZArith Floats.SpecFloat.
From Flocq Require Import Core IEEE754.BinarySingleNaN.
From Verif.Common Require Import Base F32 F32Order.
Open Scope R_scope.

Definition Hprec24 : Prec_gt_0 24 := eq_refl.
Definition Hemax128 : Prec_lt_emax 24 128 := eq_refl.
#[global] Existing Instance Hprec24.
#[global] Existing Instance Hemax128.
Notation B32 := (binary_float 24 128).

(** the real value of a finite number *)
Definition fval (x : f32) : R := SF2R radix2 x.
Definition ffinite (x : f32) : bool := match x with S754_zero _ | S754_finite _ _ _ => true | _ => false end.
Definition finite_f32 (x : f32) : Prop := valid_f32 x /\ ffinite x = true.
(** rounding to nearest, ties to even, without bound on the exponent *)
Definition fexp32 : Z -> Z := SpecFloat.fexp 24 128.
Definition RN (x : R) : R := round radix2 fexp32 ZnearestE x.
Definition fmax : R := bpow radix2 128.

#[global] Instance valid_exp32 : Valid_exp fexp32.
Proof. exact (FLT_exp_valid (-149) 24). Qed.

Definition toB (x : f32) (H : valid_f32 x) : B32 := SF2B x H.
Lemma toB_SF x H : B2SF (toB x H) = x. Proof. apply B2SF_SF2B. Qed.
Lemma toB_R x H : B2R (toB x H) = fval x. Proof. apply B2R_SF2B. Qed.
Lemma toB_fin x H : is_finite (toB x H) = ffinite x. Proof. unfold toB. rewrite is_finite_SF2B. destruct x; reflexivity. Qed.
Lemma valid_B (b : B32) : valid_f32 (B2SF b). Proof. apply valid_binary_B2SF. Qed.
Lemma fval_B (b : B32) : fval (B2SF b) = B2R b. Proof. apply SF2R_B2SF. Qed.
Lemma ffin_B (b : B32) : ffinite (B2SF b) = is_finite b. Proof. destruct b; reflexivity. Qed.

Lemma round_aux_eq sx mx ex lx : SpecFloat.binary_round_aux 24 128 sx mx ex lx = binary_round_aux 24 128 mode_NE sx mx ex lx.
Proof.
  unfold SpecFloat.binary_round_aux, binary_round_aux. destruct (shr_fexp 24 128 mx ex lx) as [mrs' e']. cbn.
  assert (E : forall m l, round_nearest_even m l = choice_mode mode_NE sx m l) by (intros m [|[]]; try reflexivity; cbn; unfold Round.cond_incr; destruct (Z.even m); reflexivity).
  rewrite E. reflexivity.
Qed.
Lemma round_eq s m e : SpecFloat.binary_round 24 128 s m e = binary_round 24 128 mode_NE s m e.
Proof. unfold SpecFloat.binary_round, binary_round, shl_align_fexp. destruct (shl_align _ _ _). apply round_aux_eq. Qed.
Lemma normalize_eq m e z : SpecFloat.binary_normalize 24 128 m e z = B2SF (binary_normalize 24 128 _ _ mode_NE m e z).
Proof. destruct m as [|p|p]; [reflexivity| |]; cbn [SpecFloat.binary_normalize binary_normalize]; rewrite B2SF_SF2B; apply round_eq. Qed.
Lemma mul_eq (x y : B32) : fmul (B2SF x) (B2SF y) = B2SF (Bmult mode_NE x y).
Proof. destruct x as [sx|sx| |sx mx ex Bx], y as [sy|sy| |sy my ey By]; try reflexivity. cbn. rewrite B2SF_SF2B. apply round_aux_eq. Qed.
Lemma add_eq (x y : B32) : fadd (B2SF x) (B2SF y) = B2SF (Bplus mode_NE x y).
Proof. destruct x as [sx|sx| |sx mx ex Bx], y as [sy|sy| |sy my ey By]; try reflexivity; try (cbn; destruct (Bool.eqb sx sy); reflexivity). apply normalize_eq. Qed.
Lemma sub_eq (x y : B32) : fsub (B2SF x) (B2SF y) = B2SF (Bminus mode_NE x y).
Proof.
  destruct x as [sx|sx| |sx mx ex Bx], y as [sy|sy| |sy my ey By]; try reflexivity; try (cbn; destruct sx, sy; reflexivity).
  cbn -[Z.sub Z.add SpecFloat.binary_normalize binary_normalize]. unfold Z.sub. rewrite <- cond_Zopp_negb. apply normalize_eq.
Qed.
Lemma div_eq (x y : B32) : fdiv (B2SF x) (B2SF y) = B2SF (Bdiv mode_NE x y).
Proof.
  destruct x as [sx|sx| |sx mx ex Bx], y as [sy|sy| |sy my ey By]; try reflexivity. cbn -[SFdiv_core_binary]. rewrite B2SF_SF2B. destruct (SFdiv_core_binary _ _ _ _ _ _) as [[mz ez] lz]. apply round_aux_eq.
Qed.

Lemma fmul_valid x y : valid_f32 x -> valid_f32 y -> valid_f32 (fmul x y).
Proof. intros Hx Hy. rewrite <- (toB_SF x Hx), <- (toB_SF y Hy), mul_eq. apply valid_B. Qed.
Lemma fadd_valid x y : valid_f32 x -> valid_f32 y -> valid_f32 (fadd x y).
Proof. intros Hx Hy. rewrite <- (toB_SF x Hx), <- (toB_SF y Hy), add_eq. apply valid_B. Qed.
Lemma fsub_valid x y : valid_f32 x -> valid_f32 y -> valid_f32 (fsub x y).
Proof. intros Hx Hy. rewrite <- (toB_SF x Hx), <- (toB_SF y Hy), sub_eq. apply valid_B. Qed.
Lemma fdiv_valid x y : valid_f32 x -> valid_f32 y -> valid_f32 (fdiv x y).
Proof. intros Hx Hy. rewrite <- (toB_SF x Hx), <- (toB_SF y Hy), div_eq. apply valid_B. Qed.
Lemma f32_of_valid m e : valid_f32 (f32_of m e).
Proof. unfold f32_of. rewrite normalize_eq. apply valid_B. Qed.

Lemma fmul_val x y : valid_f32 x -> valid_f32 y -> ffinite x = true -> ffinite y = true -> Rabs (RN (fval x * fval y)) < fmax ->
  fval (fmul x y) = RN (fval x * fval y) /\ ffinite (fmul x y) = true.
Proof.
  intros Hx Hy Fx Fy HB. pose proof (Bmult_correct 24 128 _ _ mode_NE (toB x Hx) (toB y Hy)) as HC. rewrite !toB_R in HC.
  rewrite Rlt_bool_true in HC by exact HB. destruct HC as (H1 & H2 & _). rewrite !toB_fin, Fx, Fy in H2. rewrite <- fval_B, <- mul_eq, !toB_SF in H1. rewrite <- ffin_B, <- mul_eq, !toB_SF in H2. split; assumption.
Qed.
Lemma fadd_val x y : valid_f32 x -> valid_f32 y -> ffinite x = true -> ffinite y = true -> Rabs (RN (fval x + fval y)) < fmax ->
  fval (fadd x y) = RN (fval x + fval y) /\ ffinite (fadd x y) = true.
Proof.
  intros Hx Hy Fx Fy HB. pose proof (Bplus_correct 24 128 _ _ mode_NE (toB x Hx) (toB y Hy)) as HC. rewrite !toB_fin in HC. specialize (HC Fx Fy). rewrite !toB_R in HC.
  rewrite Rlt_bool_true in HC by exact HB. destruct HC as (H1 & H2 & _). rewrite <- fval_B, <- add_eq, !toB_SF in H1. rewrite <- ffin_B, <- add_eq, !toB_SF in H2. split; assumption.
Qed.
Lemma fsub_val x y : valid_f32 x -> valid_f32 y -> ffinite x = true -> ffinite y = true -> Rabs (RN (fval x - fval y)) < fmax ->
  fval (fsub x y) = RN (fval x - fval y) /\ ffinite (fsub x y) = true.
Proof.
  intros Hx Hy Fx Fy HB. pose proof (Bminus_correct 24 128 _ _ mode_NE (toB x Hx) (toB y Hy)) as HC. rewrite !toB_fin in HC. specialize (HC Fx Fy). rewrite !toB_R in HC.
  rewrite Rlt_bool_true in HC by exact HB. destruct HC as (H1 & H2 & _). rewrite <- fval_B, <- sub_eq, !toB_SF in H1. rewrite <- ffin_B, <- sub_eq, !toB_SF in H2. split; assumption.
Qed.
Lemma fdiv_val x y : valid_f32 x -> valid_f32 y -> ffinite x = true -> fval y <> 0 -> Rabs (RN (fval x / fval y)) < fmax ->
  fval (fdiv x y) = RN (fval x / fval y) /\ ffinite (fdiv x y) = true.
Proof.
  intros Hx Hy Fx Ny HB. pose proof (Bdiv_correct 24 128 _ _ mode_NE (toB x Hx) (toB y Hy)) as HC. rewrite !toB_R in HC. specialize (HC Ny).
  rewrite Rlt_bool_true in HC by exact HB. destruct HC as (H1 & H2 & _). rewrite !toB_fin, Fx in H2. rewrite <- fval_B, <- div_eq, !toB_SF in H1. rewrite <- ffin_B, <- div_eq, !toB_SF in H2. split; assumption.
Qed.
Lemma f32_of_val m e : Rabs (RN (IZR m * bpow radix2 e)) < fmax ->
  fval (f32_of m e) = RN (IZR m * bpow radix2 e) /\ ffinite (f32_of m e) = true.
Proof.
  intros HB. pose proof (binary_normalize_correct 24 128 _ _ mode_NE m e false) as HC. cbn zeta in HC. unfold F2R in HC. cbn [Fnum Fexp] in HC.
  rewrite Rlt_bool_true in HC by exact HB. destruct HC as (H1 & H2 & _). unfold f32_of. rewrite normalize_eq, fval_B, ffin_B. split; assumption.
Qed.

(** facts on rounding *)
Lemma RN_le x y : x <= y -> RN x <= RN y.
Proof. apply round_le; auto with typeclass_instances. Qed.
Lemma RN_0 : RN 0 = 0. Proof. apply round_0; auto with typeclass_instances. Qed.
Definition in_f32 (x : R) : Prop := generic_format radix2 fexp32 x.
Lemma RN_id x : in_f32 x -> RN x = x.
Proof. apply round_generic; auto with typeclass_instances. Qed.
Lemma RN_in x : in_f32 (RN x).
Proof. apply generic_format_round; auto with typeclass_instances. Qed.
Lemma fval_in x : valid_f32 x -> in_f32 (fval x).
Proof. intros H. rewrite <- (toB_R x H). apply generic_format_B2R. Qed.
Lemma fval_bound x : valid_f32 x -> Rabs (fval x) < fmax.
Proof. intros H. rewrite <- (toB_R x H). apply abs_B2R_lt_emax. Qed.
Lemma RN_abs x : Rabs (RN x) = RN (Rabs x).
Proof. symmetry. apply round_NE_abs. auto with typeclass_instances. Qed.
Lemma RN_opp x : RN (- x) = - RN x.
Proof. apply round_NE_opp. Qed.
Lemma RN_between a b x : in_f32 a -> in_f32 b -> a <= x <= b -> a <= RN x <= b.
Proof. intros Ha Hb Hx. rewrite <- (RN_id a Ha), <- (RN_id b Hb). split; apply RN_le; lra. Qed.
Lemma in_int n : (Z.abs n <= 2 ^ 24)%Z -> in_f32 (IZR n).
Proof.
  intros Hn. destruct (Z.eq_dec (Z.abs n) (2 ^ 24)) as [E|E].
  - assert (HX : in_f32 (bpow radix2 24)) by (apply generic_format_bpow; cbn; lia). change (bpow radix2 24) with (IZR (2 ^ 24)) in HX.
    destruct (Z.abs_eq_or_opp n) as [H|H]; [replace n with (2 ^ 24)%Z by lia; exact HX|]. replace n with (- 2 ^ 24)%Z by lia. rewrite opp_IZR. apply generic_format_opp. exact HX.
  - change fexp32 with (FLT_exp (-149) 24). apply (generic_format_FLT radix2 (-149) 24). exists (Float radix2 n 0); cbn; [unfold F2R; cbn; lra|lia|lia].
Qed.
Lemma fmax_big : IZR (2 ^ 24) < fmax.
Proof. unfold fmax. change (IZR (2 ^ 24)) with (bpow radix2 24). apply bpow_lt. lia. Qed.
Lemma f32_of_int_val n : (Z.abs n <= 2 ^ 24)%Z -> fval (f32_of_int n) = IZR n /\ ffinite (f32_of_int n) = true.
Proof.
  intros Hn. unfold f32_of_int. pose proof (in_int n Hn) as HI. assert (E : IZR n * bpow radix2 0 = IZR n) by (cbn; lra).
  destruct (f32_of_val n 0) as [H1 H2].
  - rewrite E, RN_id by exact HI. rewrite <- abs_IZR. apply Rle_lt_trans with (IZR (2 ^ 24)); [apply IZR_le; exact Hn|exact fmax_big].
  - rewrite H1, E, RN_id by exact HI. auto.
Qed.
Lemma f32_of_int_valid n : valid_f32 (f32_of_int n).
Proof. apply f32_of_valid. Qed.

(** comparisons and truncation *)
Lemma fleb_val x y : valid_f32 x -> valid_f32 y -> ffinite x = true -> ffinite y = true -> (SFleb x y = true <-> fval x <= fval y).
Proof.
  intros Hx Hy Fx Fy. pose proof (Bleb_correct 24 128 (toB x Hx) (toB y Hy)) as HC. rewrite !toB_fin in HC. specialize (HC Fx Fy). unfold Bleb in HC. rewrite !toB_SF, !toB_R in HC. rewrite HC.
  destruct (Rle_bool_spec (fval x) (fval y)); split; intros; try lra; try reflexivity; discriminate.
Qed.
Lemma fltb_val x y : valid_f32 x -> valid_f32 y -> ffinite x = true -> ffinite y = true -> (SFltb x y = true <-> fval x < fval y).
Proof.
  intros Hx Hy Fx Fy. pose proof (Bltb_correct 24 128 (toB x Hx) (toB y Hy)) as HC. rewrite !toB_fin in HC. specialize (HC Fx Fy). unfold Bltb in HC. rewrite !toB_SF, !toB_R in HC. rewrite HC.
  destruct (Rlt_bool_spec (fval x) (fval y)); split; intros; try lra; try reflexivity; discriminate.
Qed.
Lemma trunc_val x : ffinite x = true -> f32_trunc x = Some (Ztrunc (fval x)).
Proof.
  destruct x as [s|s| |s m e]; intros H; try discriminate H; cbn [f32_trunc fval SF2R].
  - rewrite Ztrunc_IZR || (change 0 with (IZR 0); rewrite Ztrunc_IZR). reflexivity.
  - f_equal. assert (HP : Ztrunc (F2R (Float radix2 (Z.pos m) e)) = if (0 <=? e)%Z then (Z.pos m * 2 ^ e)%Z else (Z.pos m / 2 ^ (- e))%Z).
    { destruct (Z.leb_spec 0 e) as [He|He].
      - unfold F2R. cbn [Fnum Fexp]. rewrite <- IZR_Zpower by exact He. rewrite <- mult_IZR, Ztrunc_IZR. reflexivity.
      - unfold F2R. cbn [Fnum Fexp]. rewrite <- (Z.opp_involutive e) at 1. rewrite bpow_opp, <- IZR_Zpower by lia. rewrite Ztrunc_floor; [|apply Rmult_le_pos; [apply IZR_le; lia|left; apply Rinv_0_lt_compat; rewrite IZR_Zpower by lia; apply bpow_gt_0]].
        apply Zfloor_div. assert (0 < radix2 ^ (- e))%Z by (apply Zpower_gt_0; lia). lia. }
    destruct s; cbn [cond_Zopp]; rewrite <- HP; [|reflexivity]. change (Z.neg m) with (- Z.pos m)%Z. rewrite F2R_Zopp. rewrite Ztrunc_opp. reflexivity.
Qed.

(** the result of an operation with exact result [r]: rounded, or infinite *)
Definition frounds (o : f32) (r : R) : Prop :=
  (Rabs (RN r) < fmax /\ fval o = RN r /\ ffinite o = true) \/ (fmax <= Rabs (RN r) /\ o = S754_infinity (Rlt_bool r 0)).
Lemma sign_val x (H : valid_f32 x) : fval x <> 0 -> Bsign (toB x H) = Rlt_bool (fval x) 0.
Proof.
  intros HN. unfold toB. rewrite Bsign_SF2B. destruct x as [s|s| |s m e]; cbn [fval SF2R] in *; try congruence. cbn [sign_SF].
  destruct s; cbn [cond_Zopp]; symmetry; [apply Rlt_bool_true; apply F2R_lt_0; reflexivity|apply Rlt_bool_false; left; apply F2R_gt_0; reflexivity].
Qed.
Lemma fmax_pos : 0 < fmax. Proof. apply bpow_gt_0. Qed.
Lemma RN_big r : fmax <= Rabs (RN r) -> r <> 0.
Proof. intros H E. rewrite E, RN_0, Rabs_R0 in H. pose proof fmax_pos. lra. Qed.
Lemma xorb_sign a b : a <> 0 -> b <> 0 -> xorb (Rlt_bool a 0) (Rlt_bool b 0) = Rlt_bool (a * b) 0.
Proof.
  intros Ha Hb. destruct (Rlt_bool_spec a 0) as [A|A], (Rlt_bool_spec b 0) as [B|B]; cbn; symmetry.
  - apply Rlt_bool_false. nra.
  - apply Rlt_bool_true. nra.
  - apply Rlt_bool_true. nra.
  - apply Rlt_bool_false. nra.
Qed.
Lemma fmul_rounds x y : valid_f32 x -> valid_f32 y -> ffinite x = true -> ffinite y = true -> frounds (fmul x y) (fval x * fval y).
Proof.
  intros Hx Hy Fx Fy. destruct (Rlt_le_dec (Rabs (RN (fval x * fval y))) fmax) as [HB|HB].
  - left. split; [exact HB|]. apply fmul_val; assumption.
  - right. split; [exact HB|]. pose proof (Bmult_correct 24 128 _ _ mode_NE (toB x Hx) (toB y Hy)) as HC. rewrite !toB_R in HC. rewrite Rlt_bool_false in HC by exact HB.
    rewrite <- mul_eq, !toB_SF in HC. rewrite HC. cbn. f_equal. pose proof (RN_big _ HB) as HN. assert (fval x <> 0) by (intros E; apply HN; rewrite E; ring). assert (fval y <> 0) by (intros E; apply HN; rewrite E; ring).
    rewrite !sign_val by assumption. apply xorb_sign; assumption.
Qed.
Lemma fdiv_rounds x y : valid_f32 x -> valid_f32 y -> ffinite x = true -> fval y <> 0 -> frounds (fdiv x y) (fval x / fval y).
Proof.
  intros Hx Hy Fx Ny. destruct (Rlt_le_dec (Rabs (RN (fval x / fval y))) fmax) as [HB|HB].
  - left. split; [exact HB|]. apply fdiv_val; assumption.
  - right. split; [exact HB|]. pose proof (Bdiv_correct 24 128 _ _ mode_NE (toB x Hx) (toB y Hy)) as HC. rewrite !toB_R in HC. specialize (HC Ny). rewrite Rlt_bool_false in HC by exact HB.
    rewrite <- div_eq, !toB_SF in HC. rewrite HC. cbn. f_equal. pose proof (RN_big _ HB) as HN. assert (fval x <> 0) by (intros E; apply HN; rewrite E; unfold Rdiv; ring).
    rewrite !sign_val by assumption. unfold Rdiv. rewrite <- xorb_sign by (try assumption; apply Rinv_neq_0_compat; assumption). f_equal.
    destruct (Rlt_bool_spec (fval y) 0) as [A|A]; symmetry; [apply Rlt_bool_true; apply Rinv_lt_0_compat; exact A|apply Rlt_bool_false; left; apply Rinv_0_lt_compat; lra].
Qed.
Lemma fadd_rounds x y : valid_f32 x -> valid_f32 y -> ffinite x = true -> ffinite y = true -> frounds (fadd x y) (fval x + fval y).
Proof.
  intros Hx Hy Fx Fy. destruct (Rlt_le_dec (Rabs (RN (fval x + fval y))) fmax) as [HB|HB].
  - left. split; [exact HB|]. apply fadd_val; assumption.
  - right. split; [exact HB|]. pose proof (Bplus_correct 24 128 _ _ mode_NE (toB x Hx) (toB y Hy)) as HC. rewrite !toB_fin, !toB_R in HC. specialize (HC Fx Fy). rewrite Rlt_bool_false in HC by exact HB.
    rewrite <- add_eq, !toB_SF in HC. destruct HC as [HC HS]. rewrite HC. cbn. f_equal. pose proof (fval_bound x Hx) as Bx. pose proof (fval_bound y Hy) as By_.
    assert (NX : fval x <> 0). { intros E. rewrite E, Rplus_0_l in HB. rewrite RN_id in HB by (apply fval_in; assumption). lra. }
    assert (NY : fval y <> 0). { intros E. rewrite E, Rplus_0_r in HB. rewrite RN_id in HB by (apply fval_in; assumption). lra. }
    rewrite !sign_val in * by assumption. destruct (Rlt_bool_spec (fval x) 0) as [A|A], (Rlt_bool_spec (fval y) 0) as [B|B]; try discriminate; symmetry; [apply Rlt_bool_true|apply Rlt_bool_false]; lra.
Qed.
Lemma fsub_rounds x y : valid_f32 x -> valid_f32 y -> ffinite x = true -> ffinite y = true -> frounds (fsub x y) (fval x - fval y).
Proof.
  intros Hx Hy Fx Fy. destruct (Rlt_le_dec (Rabs (RN (fval x - fval y))) fmax) as [HB|HB].
  - left. split; [exact HB|]. apply fsub_val; assumption.
  - right. split; [exact HB|]. pose proof (Bminus_correct 24 128 _ _ mode_NE (toB x Hx) (toB y Hy)) as HC. rewrite !toB_fin, !toB_R in HC. specialize (HC Fx Fy). rewrite Rlt_bool_false in HC by exact HB.
    rewrite <- sub_eq, !toB_SF in HC. destruct HC as [HC HS]. rewrite HC. cbn. f_equal. pose proof (fval_bound x Hx) as Bx. pose proof (fval_bound y Hy) as By_.
    assert (NX : fval x <> 0). { intros E. rewrite E in HB. unfold Rminus in HB. rewrite Rplus_0_l, RN_opp, Rabs_Ropp, RN_id in HB by (apply fval_in; assumption). lra. }
    assert (NY : fval y <> 0). { intros E. rewrite E, Rminus_0_r in HB. rewrite RN_id in HB by (apply fval_in; assumption). lra. }
    rewrite !sign_val in * by assumption. destruct (Rlt_bool_spec (fval x) 0) as [A|A], (Rlt_bool_spec (fval y) 0) as [B|B]; try discriminate; symmetry; [apply Rlt_bool_true|apply Rlt_bool_false]; lra.
Qed.
Lemma f32_of_rounds m e : frounds (f32_of m e) (IZR m * bpow radix2 e).
Proof.
  destruct (Rlt_le_dec (Rabs (RN (IZR m * bpow radix2 e))) fmax) as [HB|HB].
  - left. split; [exact HB|]. apply f32_of_val; assumption.
  - right. split; [exact HB|]. pose proof (binary_normalize_correct 24 128 _ _ mode_NE m e false) as HC. cbn zeta in HC. unfold F2R in HC. cbn [Fnum Fexp] in HC.
    rewrite Rlt_bool_false in HC by exact HB. unfold f32_of. rewrite normalize_eq. exact HC.
Qed.
(** rounding does not cross a number *)
Lemma frounds_ge o r z : valid_f32 o -> frounds o r -> valid_f32 z -> ffinite z = true -> fval z <= r -> SFleb z o = true.
Proof.
  intros Ho [(HB & E & F)|(HB & E)] Hz Fz Hr; pose proof (RN_le _ _ Hr) as HM; rewrite (RN_id (fval z)) in HM by (apply fval_in; assumption).
  - apply fleb_val; auto. rewrite E. exact HM.
  - pose proof (fval_bound z Hz) as Bz. assert (HP : 0 < RN r). { destruct (Rle_lt_dec (RN r) 0) as [HN|HN]; [|exact HN]. rewrite Rabs_left1 in HB by exact HN. apply Rabs_def2 in Bz. lra. }
    assert (0 <= r) by (destruct (Rle_lt_dec 0 r); [assumption|]; pose proof (RN_le r 0 ltac:(lra)) as HX; rewrite RN_0 in HX; lra).
    rewrite Rlt_bool_false in E by assumption. subst o. destruct z as [| | |[]]; try discriminate Fz; reflexivity.
Qed.
Lemma frounds_le o r z : valid_f32 o -> frounds o r -> valid_f32 z -> ffinite z = true -> r <= fval z -> SFleb o z = true.
Proof.
  intros Ho [(HB & E & F)|(HB & E)] Hz Fz Hr; pose proof (RN_le _ _ Hr) as HM; rewrite (RN_id (fval z)) in HM by (apply fval_in; assumption).
  - apply fleb_val; auto. rewrite E. exact HM.
  - pose proof (fval_bound z Hz) as Bz. assert (HP : RN r < 0). { destruct (Rle_lt_dec 0 (RN r)) as [HN|HN]; [|exact HN]. rewrite Rabs_right in HB by lra. apply Rabs_def2 in Bz. lra. }
    assert (r < 0) by (destruct (Rle_lt_dec 0 r); [|assumption]; pose proof (RN_le 0 r ltac:(lra)) as HX; rewrite RN_0 in HX; lra).
    rewrite Rlt_bool_true in E by assumption. subst o. destruct z as [| | |[]]; try discriminate Fz; reflexivity.
Qed.
(** between two numbers there is no overflow *)
Lemma frounds_between o r a b : frounds o r -> in_f32 a -> in_f32 b -> Rabs a < fmax -> Rabs b < fmax -> a <= r <= b ->
  ffinite o = true /\ fval o = RN r /\ a <= fval o <= b.
Proof.
  intros HR Ha Hb Ba Bb Hr. pose proof (RN_between a b r Ha Hb Hr) as HM.
  destruct HR as [(HB & E & F)|(HB & E)]; [rewrite E; auto|]. exfalso. apply Rabs_def2 in Ba, Bb. unfold Rabs in HB. destruct (Rcase_abs (RN r)); lra.
Qed.
Lemma small_int_bound n : (Z.abs n <= 2 ^ 24)%Z -> Rabs (IZR n) < fmax.
Proof. intros H. rewrite <- abs_IZR. apply Rle_lt_trans with (IZR (2 ^ 24)); [apply IZR_le; exact H|exact fmax_big]. Qed.
