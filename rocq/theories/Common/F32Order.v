(* The order of single precision numbers. *)
From Coq Require Import Floats.SpecFloat.
From Verif.Common Require Import Base Lemmas F32.

Definition valid_f32 (x : f32) : Prop := valid_binary 24 128 x = true.
Definition is_nan_f32 (x : f32) : bool := match x with S754_nan => true | _ => false end.
(** position in the order: the value in units of 2^-149, infinities beyond all of them *)
Definition fkey (x : f32) : Z :=
  match x with
  | S754_zero _ => 0
  | S754_infinity s => if s then - 2 ^ 300 else 2 ^ 300
  | S754_nan => 0
  | S754_finite s m e => (if s then -1 else 1) * (Z.pos m * 2 ^ (e + 149))
  end.
Lemma digits_bounds m : 2 ^ (Z.pos (digits2_pos m) - 1) <= Z.pos m < 2 ^ Z.pos (digits2_pos m).
Proof.
  induction m as [m IH|m IH|]; cbn [digits2_pos]; [| |cbn; lia].
  - rewrite Pos2Z.inj_succ. unfold Z.succ. rewrite Z.add_simpl_r. replace (Z.pos (digits2_pos m)) with (1 + (Z.pos (digits2_pos m) - 1)) at 1 by lia.
    rewrite Z.pow_add_r, (Z.pow_add_r 2 (Z.pos _)) by lia. lia.
  - rewrite Pos2Z.inj_succ. unfold Z.succ. rewrite Z.add_simpl_r. replace (Z.pos (digits2_pos m)) with (1 + (Z.pos (digits2_pos m) - 1)) at 1 by lia.
    rewrite Z.pow_add_r, (Z.pow_add_r 2 (Z.pos _)) by lia. lia.
Qed.
Lemma valid_finite s m e : valid_f32 (S754_finite s m e) ->
  -149 <= e <= 104 /\ Z.pos m < 2 ^ 24 /\ (-149 < e -> 2 ^ 23 <= Z.pos m).
Proof.
  unfold valid_f32, valid_binary, bounded, canonical_mantissa, fexp, emin. intros H. apply andb_prop in H as [H1 H2].
  apply Zeq_bool_eq in H1. apply Zle_bool_imp_le in H2. change (3 - 128 - 24) with (-149) in H1. pose proof (digits_bounds m) as HD.
  assert (HL : Z.pos (digits2_pos m) <= 24) by lia.
  split; [lia|]. split.
  - assert (2 ^ Z.pos (digits2_pos m) <= 2 ^ 24) by (apply Z.pow_le_mono_r; lia). lia.
  - intros He. assert (E : Z.pos (digits2_pos m) = 24) by lia. rewrite E in HD. change (24 - 1) with 23 in HD. lia.
Qed.
Lemma mag_lt m1 e1 m2 e2 : valid_f32 (S754_finite false m1 e1) -> valid_f32 (S754_finite false m2 e2) -> e1 < e2 ->
  Z.pos m1 * 2 ^ (e1 + 149) < Z.pos m2 * 2 ^ (e2 + 149).
Proof.
  intros H1 H2 He. apply valid_finite in H1 as (A1 & A2 & A3). apply valid_finite in H2 as (B1 & B2 & B3).
  specialize (B3 ltac:(lia)). replace (e2 + 149) with (1 + (e1 + 149) + (e2 - e1 - 1)) by lia.
  rewrite (Z.pow_add_r 2 (1 + (e1 + 149))), (Z.pow_add_r 2 1) by lia. assert (0 < 2 ^ (e1 + 149)) by (apply Z.pow_pos_nonneg; lia). assert (0 < 2 ^ (e2 - e1 - 1)) by (apply Z.pow_pos_nonneg; lia).
  change (2 ^ 1) with 2. set (a := 2 ^ (e1 + 149)) in *. set (b := 2 ^ (e2 - e1 - 1)) in *. clearbody a b.
  apply Z.lt_le_trans with (2 ^ 24 * a); [apply Z.mul_lt_mono_pos_r; lia|]. change (2 ^ 24) with (2 * 2 ^ 23).
  apply Z.le_trans with (2 * Z.pos m2 * a); [apply Z.mul_le_mono_nonneg_r; lia|].
  replace (Z.pos m2 * (2 * a * b)) with (2 * Z.pos m2 * a * b) by ring. assert (0 < 2 * Z.pos m2 * a) by (apply Z.mul_pos_pos; lia).
  generalize dependent (2 * Z.pos m2 * a). intros. nia.
Qed.
Lemma mag_compare m1 e1 m2 e2 : valid_f32 (S754_finite false m1 e1) -> valid_f32 (S754_finite false m2 e2) ->
  match Z.compare e1 e2 with Eq => Pos.compare_cont Eq m1 m2 | c => c end = (Z.pos m1 * 2 ^ (e1 + 149) ?= Z.pos m2 * 2 ^ (e2 + 149)).
Proof.
  intros H1 H2. destruct (Z.compare_spec e1 e2) as [->|L|L].
  - apply valid_finite in H2 as (B1 & _). assert (0 < 2 ^ (e2 + 149)) by (apply Z.pow_pos_nonneg; lia).
    change (Pos.compare_cont Eq m1 m2) with (Z.pos m1 ?= Z.pos m2). rewrite <- Zmult_compare_compat_r by lia. reflexivity.
  - symmetry. apply Z.compare_lt_iff. apply mag_lt; assumption.
  - symmetry. apply Z.compare_gt_iff. apply mag_lt; assumption.
Qed.
Lemma mag_bound m e : valid_f32 (S754_finite false m e) -> 0 < Z.pos m * 2 ^ (e + 149) < 2 ^ 300.
Proof.
  intros H. apply valid_finite in H as (A1 & A2 & _). assert (0 < 2 ^ (e + 149)) by (apply Z.pow_pos_nonneg; lia).
  assert (2 ^ (e + 149) <= 2 ^ 253) by (apply Z.pow_le_mono_r; lia). split; [nia|].
  assert (HX : Z.pos m * 2 ^ (e + 149) < 2 ^ 24 * 2 ^ 253) by (apply Z.lt_le_trans with (2 ^ 24 * 2 ^ (e + 149)); [apply Z.mul_lt_mono_pos_r; lia|apply Z.mul_le_mono_nonneg_l; lia]). rewrite <- Z.pow_add_r in HX by lia. assert (2 ^ (24 + 253) <= 2 ^ 300) by (apply Z.pow_le_mono_r; lia). lia.
Qed.
Lemma valid_sign s s' m e : valid_f32 (S754_finite s m e) -> valid_f32 (S754_finite s' m e).
Proof. exact (fun H => H). Qed.
Lemma SFcompare_key x y : valid_f32 x -> valid_f32 y -> is_nan_f32 x = false -> is_nan_f32 y = false ->
  SFcompare x y = Some (fkey x ?= fkey y).
Proof.
  intros Hx Hy Nx Ny. assert (H300 : 0 < 2 ^ 300) by (apply Z.pow_pos_nonneg; lia).
  destruct x as [sx|sx| |sx mx ex]; try discriminate Nx; destruct y as [sy|sy| |sy my ey]; try discriminate Ny;
    try (apply (valid_sign _ false) in Hx; pose proof (mag_bound _ _ Hx) as Bx); try (apply (valid_sign _ false) in Hy; pose proof (mag_bound _ _ Hy) as By_);
    cbn [SFcompare fkey].
  all: try (destruct sx); try (destruct sy); f_equal.
  all: try (symmetry; first [apply Z.compare_eq_iff; lia | apply Z.compare_lt_iff; lia | apply Z.compare_gt_iff; lia]).
  all: pose proof (mag_compare _ _ _ _ Hx Hy) as HC; pose proof (mag_compare _ _ _ _ Hy Hx) as HC'.
  -
    replace (-1 * (Z.pos mx * 2 ^ (ex + 149))) with (- (Z.pos mx * 2 ^ (ex + 149))) by lia. replace (-1 * (Z.pos my * 2 ^ (ey + 149))) with (- (Z.pos my * 2 ^ (ey + 149))) by lia.
    replace (- (Z.pos mx * 2 ^ (ex + 149)) ?= - (Z.pos my * 2 ^ (ey + 149))) with (Z.pos my * 2 ^ (ey + 149) ?= Z.pos mx * 2 ^ (ex + 149)) by (rewrite Z.compare_opp; reflexivity || (symmetry; apply Z.compare_opp) || apply Z.compare_opp).
    rewrite <- HC'. rewrite (Z.compare_antisym ey ex). destruct (ey ?= ex); cbn [CompOpp]; try reflexivity. symmetry. apply Pos.compare_antisym.
  - rewrite !Z.mul_1_l. rewrite <- HC. reflexivity.
Qed.
Lemma SFltb_key x y : valid_f32 x -> valid_f32 y -> is_nan_f32 x = false -> is_nan_f32 y = false -> SFltb x y = (fkey x <? fkey y).
Proof. intros. unfold SFltb. rewrite SFcompare_key by assumption. reflexivity. Qed.
Lemma SFleb_key x y : valid_f32 x -> valid_f32 y -> is_nan_f32 x = false -> is_nan_f32 y = false -> SFleb x y = (fkey x <=? fkey y).
Proof. intros. unfold SFleb. rewrite SFcompare_key by assumption. reflexivity. Qed.
Lemma SFltb_nan_l y : SFltb S754_nan y = false. Proof. reflexivity. Qed.
Lemma SFltb_nan_r x : SFltb x S754_nan = false. Proof. destruct x as [| | |[]]; reflexivity. Qed.
