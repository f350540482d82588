From Coq Require Import Reals Lra ZArith Bool Floats.SpecFloat.
From Flocq Require Import Core.
From Verif.Common Require Import Base Lemmas Lists F32 F32Order F32Real F32Arith.
From Verif.Model Require Import MathInt CircularMix Audio.
Open Scope Z_scope.

Lemma ipow_pow n : (n <= 31)%nat -> ipow 2 n = 2 ^ Z.of_nat n.
Proof.
  induction n as [|n IH]; intros H; [reflexivity|]. cbn [ipow]. rewrite IH by lia. rewrite Nat2Z.inj_succ, Z.pow_succ_r by lia. apply word_small.
  assert (2 ^ Z.of_nat n <= 2 ^ 30) by (apply Z.pow_le_mono_r; lia). assert (0 < 2 ^ Z.of_nat n) by (apply Z.pow_pos_nonneg; lia). lia.
Qed.
Lemma os_val u : 1 <= u <= 32 -> fval (out_scaling u) = bpow radix2 (u - 1) /\ ffinite (out_scaling u) = true /\ valid_f32 (out_scaling u).
Proof.
  intros Hu. unfold out_scaling. rewrite ipow_pow by lia. rewrite Z2Nat.id by lia. destruct (pow_int_val (u - 1) ltac:(lia)) as [A B]. repeat split; auto. apply f32_of_int_valid.
Qed.
Lemma pow_IZR k : 0 <= k -> bpow radix2 k = IZR (2 ^ k). Proof. intros H. rewrite <- IZR_Zpower by exact H. reflexivity. Qed.
Lemma in_frac n k : Z.abs n <= 2 ^ 24 -> 0 <= k <= 125 -> in_f32 (IZR n * bpow radix2 (- k)).
Proof.
  intros Hn Hk. destruct (Z.eq_dec (Z.abs n) (2 ^ 24)) as [E|E].
  - assert (HP : in_f32 (bpow radix2 (24 - k))) by (apply in_pow; lia). assert (EB : (bpow radix2 24 * bpow radix2 (- k) = bpow radix2 (24 - k))%R) by (rewrite <- bpow_plus; reflexivity). change (bpow radix2 24) with (IZR (2 ^ 24)) in EB.
    destruct (Z.abs_eq_or_opp n) as [H|H]; [replace n with (2 ^ 24) by lia; rewrite EB; exact HP|]. replace n with (- 2 ^ 24) by lia. rewrite opp_IZR. rewrite Ropp_mult_distr_l_reverse, EB. apply generic_format_opp. exact HP.
  - change in_f32 with (generic_format radix2 (FLT_exp (-149) 24)). apply generic_format_FLT. exists (Float radix2 n (- k)); cbn; [reflexivity|lia|lia].
Qed.
Lemma cast_s w x n : ffinite x = true -> Ztrunc (fval x) = n -> - 2 ^ (w - 1) <= n < 2 ^ (w - 1) -> f32_to_sint w x = Ok n.
Proof. intros F E Hn. unfold f32_to_sint. rewrite trunc_val, E by exact F. destruct (Z.leb_spec (- 2 ^ (w - 1)) n), (Z.ltb_spec n (2 ^ (w - 1))); try lia. reflexivity. Qed.
Lemma cast_s_ub w x n : ffinite x = true -> Ztrunc (fval x) = n -> ~ (- 2 ^ (w - 1) <= n < 2 ^ (w - 1)) -> f32_to_sint w x = UB BadCast.
Proof. intros F E Hn. unfold f32_to_sint. rewrite trunc_val, E by exact F. destruct (Z.leb_spec (- 2 ^ (w - 1)) n), (Z.ltb_spec n (2 ^ (w - 1))); try lia; reflexivity. Qed.
Lemma ltb_spec x y : valid_f32 x -> valid_f32 y -> ffinite x = true -> ffinite y = true -> Bool.reflect (fval x < fval y)%R (SFltb x y).
Proof. intros. apply Bool.iff_reflect. symmetry. apply fltb_val; assumption. Qed.
Lemma constrain_val x a b : finite_f32 x -> finite_f32 a -> finite_f32 b -> (fval a <= fval b)%R ->
  finite_f32 (constrain_f x a b) /\ fval (constrain_f x a b) = Rmax (fval a) (Rmin (fval b) (fval x)).
Proof.
  intros [Vx Fx] [Va Fa] [Vb Fb] H. unfold constrain_f. destruct (ltb_spec x a); auto; [split; [split; auto|]; unfold Rmax, Rmin; destruct (Rle_dec (fval b) (fval x)), (Rle_dec (fval a) _); lra|].
  destruct (ltb_spec b x); auto; (split; [split; auto|]); unfold Rmax, Rmin; destruct (Rle_dec (fval b) (fval x)), (Rle_dec (fval a) _); lra.
Qed.
Lemma trunc_int_range x a b : (IZR a <= x <= IZR b)%R -> a <= Ztrunc x <= b.
Proof. intros [H1 H2]. split; [rewrite <- (Ztrunc_IZR a); apply Ztrunc_le; exact H1|rewrite <- (Ztrunc_IZR b); apply Ztrunc_le; exact H2]. Qed.

Section Scale.
Context (u : Z).
Hypothesis Hu : 1 <= u <= 24.
Let K := bpow radix2 (u - 1).
Lemma K_int : K = IZR (2 ^ (u - 1)). Proof using Hu. apply pow_IZR. lia. Qed.
Lemma K_pos : (1 <= K)%R. Proof using Hu. rewrite K_int. apply IZR_le. assert (0 < 2 ^ (u - 1)) by (apply Z.pow_pos_nonneg; lia). lia. Qed.
Lemma K_bound : 1 <= 2 ^ (u - 1) <= 2 ^ 23. Proof using Hu. split; [assert (0 < 2 ^ (u - 1)) by (apply Z.pow_pos_nonneg; lia); lia|apply Z.pow_le_mono_r; lia]. Qed.
Lemma top_val : let t := fdiv (fsub (out_scaling u) f32_one) (out_scaling u) in finite_f32 t /\ fval t = ((K - 1) / K)%R.
Proof using Hu.
  cbn zeta. destruct (os_val u ltac:(lia)) as (E & F & V). fold K in E. pose proof K_bound as KB. pose proof K_pos as KP. pose proof K_int as KI. destruct (f32_of_int_val 1 ltac:(lia)) as [E1 F1]. fold f32_one in E1, F1. assert (V1 : valid_f32 f32_one) by reflexivity.
  assert (ES : RN (K - 1) = (K - 1)%R) by (rewrite KI, <- minus_IZR; apply RN_id, in_int; lia).
  destruct (fsub_val (out_scaling u) f32_one V V1 F F1) as [A B]; rewrite E, E1, ES in *; [rewrite KI, <- minus_IZR; apply small_int_bound; lia|].
  pose proof (fsub_valid _ _ V V1) as VS. set (s := fsub (out_scaling u) f32_one) in *.
  assert (ED : ((K - 1) / K = IZR (2 ^ (u - 1) - 1) * bpow radix2 (- (u - 1)))%R) by (rewrite bpow_opp; fold K; rewrite minus_IZR, <- KI; unfold Rdiv; ring).
  assert (EQ : RN ((K - 1) / K) = ((K - 1) / K)%R) by (rewrite ED; apply RN_id, in_frac; lia).
  assert (HR : (0 <= (K - 1) / K <= 1)%R). { split; [apply Rmult_le_pos; [lra|left; apply Rinv_0_lt_compat; lra]|]. apply Rmult_le_reg_r with K; [lra|]. unfold Rdiv. rewrite Rmult_assoc, Rinv_l by lra. lra. }
  destruct (fdiv_val s (out_scaling u) VS V B) as [C D]; rewrite ?E, ?A, ?EQ in *; [lra|rewrite Rabs_pos_eq by lra; apply Rle_lt_trans with 1%R; [lra|]; change 1%R with (bpow radix2 0); apply bpow_lt; lia|].
  repeat split; auto. apply fdiv_valid; assumption.
Qed.
Lemma input_val w sgn v : Z.abs (sign_extend w u sgn v) <= 2 ^ 24 -> finite_f32 (scale_input w u sgn v) /\ fval (scale_input w u sgn v) = (IZR (sign_extend w u sgn v) / K)%R.
Proof using Hu.
  intros Hv. unfold scale_input. set (n := sign_extend w u sgn v) in *. destruct (os_val u ltac:(lia)) as (E & F & V). fold K in E. pose proof K_pos as KP. destruct (f32_of_int_val n Hv) as [En Fn]. pose proof (f32_of_int_valid n) as Vn.
  assert (ED : (IZR n / K = IZR n * bpow radix2 (- (u - 1)))%R) by (rewrite bpow_opp; fold K; reflexivity).
  assert (EQ : RN (IZR n / K) = (IZR n / K)%R) by (rewrite ED; apply RN_id, in_frac; lia).
  destruct (fdiv_val (f32_of_int n) (out_scaling u) Vn V Fn) as [C D]; rewrite ?E, ?En, ?EQ in *; [lra| |].
  - unfold Rdiv. rewrite Rabs_mult. apply Rle_lt_trans with (Rabs (IZR n) * 1)%R; [|rewrite Rmult_1_r; apply small_int_bound; lia]. apply Rmult_le_compat_l; [apply Rabs_pos|]. rewrite Rabs_pos_eq by (left; apply Rinv_0_lt_compat; lra). rewrite <- Rinv_1. apply Rinv_le_contravar; lra.
  - repeat split; auto. apply fdiv_valid; assumption.
Qed.
(** multiplication by the scaling is exact *)
Lemma scaled x : finite_f32 x -> (Rabs (fval x * K) < fmax)%R -> finite_f32 (fmul x (out_scaling u)) /\ fval (fmul x (out_scaling u)) = (fval x * K)%R.
Proof using Hu.
  intros [Vx Fx] HB. destruct (os_val u ltac:(lia)) as (E & F & V). fold K in E. assert (EQ : RN (fval x * K) = (fval x * K)%R) by (apply RN_id, scale_in; [apply fval_in; exact Vx|lia]).
  destruct (fmul_val x (out_scaling u) Vx V Fx F) as [A B]; rewrite E, EQ in *; [exact HB|]. repeat split; auto. apply fmul_valid; assumption.
Qed.
Definition clamped (x : R) : R := Rmax (- K) (Rmin (K - 1) (x * K)).
Lemma mulmax a b : (Rmax a b * K = Rmax (a * K) (b * K))%R.
Proof using Hu. pose proof K_pos. unfold Rmax. destruct (Rle_dec a b), (Rle_dec (a * K) (b * K)); nra. Qed.
Lemma mulmin a b : (Rmin a b * K = Rmin (a * K) (b * K))%R.
Proof using Hu. pose proof K_pos. unfold Rmin. destruct (Rle_dec a b), (Rle_dec (a * K) (b * K)); nra. Qed.
Lemma clamped_range x : (IZR (- 2 ^ (u - 1)) <= clamped x <= IZR (2 ^ (u - 1) - 1))%R.
Proof using Hu. pose proof K_pos. rewrite opp_IZR, minus_IZR, <- K_int. unfold clamped, Rmax, Rmin. destruct (Rle_dec (K - 1) (x * K)), (Rle_dec (- K) _); lra. Qed.
Lemma neg1 : finite_f32 (f32_of_int (-1)) /\ fval (f32_of_int (-1)) = (-1)%R.
Proof using. destruct (f32_of_int_val (-1) ltac:(lia)) as [A B]. repeat split; auto. Qed.
Lemma output_full val : finite_f32 val -> scale_output u u true val = Ok (Ztrunc (clamped (fval val))).
Proof using Hu.
  intros Hx. unfold scale_output. rewrite (proj2 (Z.gtb_ltb u u) ltac:(apply Z.ltb_irrefl)) || (replace (u >? u) with false by (symmetry; rewrite Z.gtb_ltb; apply Z.ltb_irrefl)).
  destruct top_val as [FT ET]. cbn zeta in FT, ET. destruct neg1 as [FN EN]. pose proof K_pos as KP. set (t := fdiv _ _) in *.
  assert (HT : (0 <= (K - 1) / K)%R) by (apply Rmult_le_pos; [lra|left; apply Rinv_0_lt_compat; lra]).
  destruct (constrain_val val (f32_of_int (-1)) t Hx FN FT ltac:(lra)) as [FC EC]. rewrite EN, ET in EC. set (c := constrain_f _ _ _) in *.
  assert (EK : (fval c * K = clamped (fval val))%R). { rewrite EC, mulmax, mulmin. unfold clamped. f_equal; [ring|]. f_equal. field. lra. }
  pose proof (clamped_range (fval val)) as CR.
  destruct (scaled c FC) as [FS ES]. { rewrite EK. apply Rle_lt_trans with (IZR (2 ^ 24)); [|exact fmax_big]. rewrite opp_IZR, minus_IZR, <- K_int in CR. apply Rabs_le. assert (K <= IZR (2 ^ 24))%R by (rewrite K_int; apply IZR_le; pose proof K_bound; lia). lra. }
  pose proof (trunc_int_range _ _ _ CR). apply cast_s; [apply FS|rewrite ES, EK; reflexivity|lia].
Qed.
Lemma output_full_inf s : scale_output u u true (S754_infinity s) = Ok (if s then - 2 ^ (u - 1) else 2 ^ (u - 1) - 1).
Proof using Hu.
  unfold scale_output. replace (u >? u) with false by (symmetry; rewrite Z.gtb_ltb; apply Z.ltb_irrefl).
  destruct top_val as [[VT FT] ET]. cbn zeta in VT, FT, ET. destruct neg1 as [FN EN]. pose proof K_pos as KP. set (t := fdiv _ _) in *. pose proof K_bound as KB.
  destruct s; cbn [constrain_f].
  - change (constrain_f (S754_infinity true) (f32_of_int (-1)) t) with (f32_of_int (-1)). destruct (scaled (f32_of_int (-1)) FN) as [FS ES]; [rewrite EN, K_int, <- mult_IZR; apply small_int_bound; lia|].
    apply cast_s; [apply FS| |lia]. rewrite ES, EN, K_int, <- mult_IZR, Ztrunc_IZR. ring.
  - assert (EC : constrain_f (S754_infinity false) (f32_of_int (-1)) t = t) by (unfold constrain_f; destruct t as [| | |[]]; try discriminate FT; reflexivity). rewrite EC.
    assert (EK : (fval t * K = IZR (2 ^ (u - 1) - 1))%R) by (rewrite ET, minus_IZR, <- K_int; field; lra).
    destruct (scaled t (conj VT FT)) as [FS ES]; [rewrite EK; apply small_int_bound; lia|]. apply cast_s; [apply FS| |lia]. rewrite ES, EK, Ztrunc_IZR. reflexivity.
Qed.
(** a wider sample type: no clamp before the conversion, then 24-bit saturation *)
Lemma output_wide w val : u < w <= 32 -> finite_f32 val ->
  scale_output w u true val = (let n := Ztrunc (fval val * K) in if (- 2 ^ (w - 1) <=? n) && (n <? 2 ^ (w - 1)) then Ok (sword w (signed_saturate n 24)) else UB BadCast).
Proof using Hu.
  intros Hw Hx. unfold scale_output. replace (w >? u) with true by (symmetry; rewrite Z.gtb_ltb; apply Z.ltb_lt; lia). cbn zeta.
  destruct (Rlt_le_dec (Rabs (fval val * K)) fmax) as [HB|HB].
  - destruct (scaled val Hx HB) as [[VS FS] ES]. unfold f32_to_sint. rewrite trunc_val by exact FS. rewrite ES. destruct (_ && _); reflexivity.
  - destruct (os_val u ltac:(lia)) as (E & F & V). fold K in E. destruct Hx as [Vx Fx]. pose proof (fmul_rounds val (out_scaling u) Vx V Fx F) as HR. rewrite E in HR.
    assert (EQ : RN (fval val * K) = (fval val * K)%R) by (apply RN_id, scale_in; [apply fval_in; exact Vx|lia]). unfold frounds in HR. rewrite EQ in HR. destruct HR as [(HL & _)|(_ & EI)]; [lra|]. rewrite EI. cbn [f32_to_sint f32_trunc bind].
    assert (H32 : (IZR (2 ^ 32) <= Rabs (fval val * K))%R) by (apply Rle_trans with fmax; [|exact HB]; change (IZR (2 ^ 32)) with (bpow radix2 32); left; apply bpow_lt; lia).
    assert (HP : 2 ^ (w - 1) <= 2 ^ 31) by (apply Z.pow_le_mono_r; lia).
    assert (HA : 2 ^ 32 <= Z.abs (Ztrunc (fval val * K))). { rewrite <- Ztrunc_abs. rewrite <- (Ztrunc_IZR (2 ^ 32)). apply Ztrunc_le. exact H32. }
    destruct (Z.leb_spec (- 2 ^ (w - 1)) (Ztrunc (fval val * K))), (Z.ltb_spec (Ztrunc (fval val * K)) (2 ^ (w - 1))); try reflexivity; lia.
Qed.
Lemma sign_extend_id w v : 1 <= u <= w -> - 2 ^ (u - 1) <= v < 2 ^ (u - 1) -> sign_extend w u true v = v.
Proof using Hu.
  intros Hw Hv. unfold sign_extend. destruct (Z.eqb_spec w u); [reflexivity|]. assert (HS : forall k, u <= k -> sword k v = v).
  { intros k Hk. unfold sword. assert (2 ^ (u - 1) <= 2 ^ (k - 1)) by (apply Z.pow_le_mono_r; lia). assert (2 ^ k = 2 * 2 ^ (k - 1)) by (rewrite <- Z.pow_succ_r by lia; f_equal; lia). rewrite Z.mod_small by lia. ring. }
  rewrite !HS by lia. reflexivity.
Qed.
Lemma round_trip w v : u <= w <= 32 -> - 2 ^ (u - 1) <= v < 2 ^ (u - 1) ->
  fval (scale_input w u true v) = (IZR v / K)%R /\ scale_output w u true (scale_input w u true v) = Ok v.
Proof using Hu.
  intros Hw Hv. pose proof K_bound as KB. pose proof K_pos as KP. pose proof (sign_extend_id w v ltac:(lia) Hv) as ES. destruct (input_val w true v) as [FI EI]; [rewrite ES; lia|]. rewrite ES in EI. split; [exact EI|].
  assert (EK : (IZR v / K * K = IZR v)%R) by (field; lra).
  destruct (Z.eq_dec w u) as [->|Hn].
  - rewrite output_full by exact FI. f_equal. rewrite EI. unfold clamped. rewrite EK. assert (- K <= IZR v <= K - 1)%R by (rewrite K_int, <- opp_IZR, <- minus_IZR; split; apply IZR_le; lia).
    unfold Rmax, Rmin. destruct (Rle_dec (K - 1) (IZR v)), (Rle_dec (- K) _); try lra; try (rewrite Ztrunc_IZR; reflexivity). replace (K - 1)%R with (IZR v) by lra. apply Ztrunc_IZR.
  - rewrite output_wide by (lia || exact FI). cbn zeta. rewrite EI, EK, Ztrunc_IZR. assert (HP : 2 ^ (u - 1) <= 2 ^ (w - 1)) by (apply Z.pow_le_mono_r; lia).
    destruct (Z.leb_spec (- 2 ^ (w - 1)) v), (Z.ltb_spec v (2 ^ (w - 1))); try lia. cbn [andb].
    assert (ESat : signed_saturate v 24 = v). { unfold signed_saturate. cbn [Z.leb Z.compare andb]. repeat match goal with |- context [if ?b then _ else _] => destruct b eqn:? end; try reflexivity; exfalso; change (2 ^ 23) with 8388608 in *; cbn in *; lia. }
    rewrite ESat. f_equal. unfold sword. assert (2 ^ w = 2 * 2 ^ (w - 1)) by (rewrite <- Z.pow_succ_r by lia; f_equal; lia). rewrite Z.mod_small by lia. ring.
Qed.
Lemma wide_loud w val : u < w <= 32 -> finite_f32 val ->
  ((bpow radix2 (w - u) <= fval val)%R -> scale_output w u true val = UB BadCast) /\
  ((1 <= fval val < bpow radix2 (Z.min 24 w - u))%R -> exists n, scale_output w u true val = Ok n /\ 2 ^ (u - 1) <= n).
Proof using Hu.
  intros Hw Hx. rewrite output_wide by assumption. cbn zeta. pose proof K_pos as KP.
  assert (HK : forall e, u <= e -> (bpow radix2 (e - u) * K = IZR (2 ^ (e - 1)))%R).
  { intros e He. unfold K. rewrite <- bpow_plus. replace (e - u + (u - 1)) with (e - 1) by lia. rewrite <- (IZR_Zpower radix2) by lia. reflexivity. }
  assert (H1 : K = IZR (2 ^ (u - 1))) by (unfold K; rewrite <- (IZR_Zpower radix2) by lia; reflexivity). split.
  - intros HB. assert (HL : 2 ^ (w - 1) <= Ztrunc (fval val * K)). { rewrite <- (Ztrunc_IZR (2 ^ (w - 1))). apply Ztrunc_le. rewrite <- HK by lia. apply Rmult_le_compat_r; lra. }
    replace (Ztrunc (fval val * K) <? 2 ^ (w - 1)) with false by lia. rewrite andb_false_r. reflexivity.
  - intros [HB1 HB2]. assert (HL : 2 ^ (u - 1) <= Ztrunc (fval val * K)). { rewrite <- (Ztrunc_IZR (2 ^ (u - 1))). apply Ztrunc_le. rewrite <- H1. nra. }
    assert (HZ : u <= Z.min 24 w). { destruct (Z.le_gt_cases u (Z.min 24 w)); [assumption|lia]. }
    assert (HU : Ztrunc (fval val * K) < 2 ^ (Z.min 24 w - 1)).
    { apply lt_IZR. apply Rle_lt_trans with (fval val * K)%R.
      - rewrite Ztrunc_floor by nra. apply Zfloor_lb.
      - rewrite <- HK by exact HZ. apply Rmult_lt_compat_r; lra. }
    assert (HP : 2 ^ (Z.min 24 w - 1) <= 2 ^ (w - 1)) by (apply Z.pow_le_mono_r; lia). assert (HQ : 2 ^ (Z.min 24 w - 1) <= 2 ^ 23) by (apply Z.pow_le_mono_r; lia).
    assert (H0 : 0 < 2 ^ (u - 1)) by (apply Z.pow_pos_nonneg; lia). set (n := Ztrunc (fval val * K)) in *. clearbody n.
    exists n. split; [|exact HL]. destruct (Z.leb_spec (- 2 ^ (w - 1)) n), (Z.ltb_spec n (2 ^ (w - 1))); try lia. cbn [andb].
    assert (ESat : signed_saturate n 24 = n). { unfold signed_saturate. cbn [Z.leb Z.compare andb]. repeat match goal with |- context [if ?b then _ else _] => destruct b eqn:? end; try reflexivity; exfalso; change (2 ^ 23) with 8388608 in *; cbn in *; lia. }
    rewrite ESat. f_equal. unfold sword. assert (2 ^ w = 2 * 2 ^ (w - 1)) by (rewrite <- Z.pow_succ_r by lia; f_equal; lia). rewrite Z.mod_small by lia. ring.
Qed.
(** writing and reading back loses less than one step *)
Lemma quantised val : finite_f32 val -> (-1 <= fval val <= (K - 1) / K)%R ->
  exists n, scale_output u u true val = Ok n /\ (Rabs (fval (scale_input u u true n) - fval val) < / K)%R.
Proof using Hu.
  intros Hx Hr. eexists. split; [apply output_full; exact Hx|]. pose proof K_pos as KP. pose proof K_bound as KB. set (c := clamped (fval val)).
  assert (HR2 : (fval val * K <= K - 1)%R). { apply Rle_trans with ((K - 1) / K * K)%R; [apply Rmult_le_compat_r; lra|]. right. field. lra. }
  assert (EC : c = (fval val * K)%R). { unfold c, clamped, Rmax, Rmin. assert (- K <= fval val * K)%R by nra. destruct (Rle_dec (K - 1) (fval val * K)), (Rle_dec (- K) _); try lra. }
  pose proof (clamped_range (fval val)) as CR. fold c in CR. pose proof (trunc_int_range _ _ _ CR) as HN. destruct (input_val u true (Ztrunc c)) as [_ EI]; [rewrite sign_extend_id by lia; lia|]. rewrite sign_extend_id in EI by lia. rewrite EI. fold K.
  replace (IZR (Ztrunc c) / K - fval val)%R with ((IZR (Ztrunc c) - c) / K)%R by (rewrite EC; field; lra).
  unfold Rdiv. rewrite Rabs_mult, (Rabs_pos_eq (/ K)) by (left; apply Rinv_0_lt_compat; lra). rewrite <- (Rmult_1_l (/ K)) at 2. apply Rmult_lt_compat_r; [apply Rinv_0_lt_compat; lra|].
  destruct (Rle_lt_dec 0 c) as [H|H].
  - rewrite Ztrunc_floor by exact H. pose proof (Zfloor_lb c). pose proof (Zfloor_ub c). apply Rabs_def1; lra.
  - rewrite Ztrunc_ceil by lra. pose proof (Zceil_ub c). pose proof (Zceil_lb c). apply Rabs_def1; lra.
Qed.
Lemma output_monotone w a b na nb : u <= w <= 32 -> finite_f32 a -> finite_f32 b -> (fval a <= fval b)%R -> scale_output w u true a = Ok na -> scale_output w u true b = Ok nb -> na <= nb.
Proof using Hu.
  intros Hw Ha Hb Hab Ea Eb. pose proof K_pos as KP. destruct (Z.eq_dec w u) as [->|Hn].
  - rewrite output_full in Ea, Eb by assumption. injection Ea as <-. injection Eb as <-. apply Ztrunc_le. unfold clamped. assert (fval a * K <= fval b * K)%R by nra. apply Rle_max_compat_l. apply Rle_min_compat_l. assumption.
  - rewrite output_wide in Ea, Eb by (lia || assumption). cbn zeta in *. assert (HM : Ztrunc (fval a * K) <= Ztrunc (fval b * K)) by (apply Ztrunc_le; nra). set (x := Ztrunc (fval a * K)) in *. set (y := Ztrunc (fval b * K)) in *. clearbody x y.
    destruct (_ && _) eqn:C1 in Ea; [|discriminate]. destruct (_ && _) eqn:C2 in Eb; [|discriminate]. injection Ea as <-. injection Eb as <-. apply andb_true_iff in C1 as [C1 C1'], C2 as [C2 C2']. apply Z.leb_le in C1, C2. apply Z.ltb_lt in C1', C2'.
    assert (HS : forall z, signed_saturate z 24 = Z.max (-8388608) (Z.min 8388607 z)) by (intros z; unfold signed_saturate; cbn [Z.leb Z.compare andb]; repeat match goal with |- context [if ?b then _ else _] => destruct b eqn:? end; cbn in *; lia).
    assert (HI : forall z, - 2 ^ (w - 1) <= z < 2 ^ (w - 1) -> sword w (signed_saturate z 24) = signed_saturate z 24).
    { intros z Hz. rewrite HS. unfold sword. assert (2 ^ w = 2 * 2 ^ (w - 1)) by (rewrite <- Z.pow_succ_r by lia; f_equal; lia). rewrite Z.mod_small by lia. ring. }
    rewrite !HI by lia. rewrite !HS. lia.
Qed.
End Scale.

Lemma output_nan w u : scale_output w u true S754_nan = UB BadCast.
Proof.
  unfold scale_output. destruct (w >? u); [reflexivity|]. assert (E : forall a b, constrain_f S754_nan a b = S754_nan) by (intros a b; unfold constrain_f; rewrite SFltb_nan_l, SFltb_nan_r; reflexivity). rewrite E. reflexivity.
Qed.
(** sign extension *)
Lemma sword_spec k v : 1 <= k -> - 2 ^ (k - 1) <= sword k v < 2 ^ (k - 1) /\ sword k v mod 2 ^ k = v mod 2 ^ k.
Proof.
  intros Hk. unfold sword. assert (E : 2 ^ k = 2 * 2 ^ (k - 1)) by (rewrite <- Z.pow_succ_r by lia; f_equal; lia). assert (0 < 2 ^ (k - 1)) by (apply Z.pow_pos_nonneg; lia). pose proof (Z.mod_pos_bound (v + 2 ^ (k - 1)) (2 ^ k) ltac:(lia)). split; [lia|].
  rewrite Zminus_mod_idemp_l. f_equal. ring.
Qed.
Lemma sign_extend_signed w u v : 1 <= u < w -> - 2 ^ (u - 1) <= sign_extend w u true v < 2 ^ (u - 1) /\ sign_extend w u true v mod 2 ^ u = v mod 2 ^ u.
Proof.
  intros Hu. pose proof (sword_spec u v ltac:(lia)) as [H1 H2]. unfold sign_extend. destruct (Z.eqb_spec w u); [lia|].
  assert (E : sword w (sword u v) = sword u v). { unfold sword at 1. assert (2 ^ (u - 1) <= 2 ^ (w - 1)) by (apply Z.pow_le_mono_r; lia). assert (2 ^ w = 2 * 2 ^ (w - 1)) by (rewrite <- Z.pow_succ_r by lia; f_equal; lia). rewrite Z.mod_small by lia. ring. }
  rewrite E. auto.
Qed.
Lemma sign_extend_unsigned w u v : 1 <= u < w -> 2 ^ (u - 1) <= v mod 2 ^ u -> sign_extend w u false v = 2 ^ w - 2 ^ u + v mod 2 ^ u.
Proof.
  intros Hu Hv. unfold sign_extend. destruct (Z.eqb_spec w u); [lia|]. pose proof (sword_spec u v ltac:(lia)) as [H1 H2].
  assert (P : 2 ^ u = 2 * 2 ^ (u - 1)) by (rewrite <- Z.pow_succ_r by lia; f_equal; lia). assert (0 < 2 ^ (u - 1)) by (apply Z.pow_pos_nonneg; lia).
  assert (2 ^ u < 2 ^ w) by (apply Z.pow_lt_mono_r; lia). pose proof (Z.mod_pos_bound v (2 ^ u) ltac:(lia)).
  assert (E : sword u v = v mod 2 ^ u - 2 ^ u).
  { pose proof (Z.div_mod (sword u v) (2 ^ u) ltac:(lia)) as D. rewrite H2 in D. assert (sword u v / 2 ^ u = -1); [|nia]. nia. }
  rewrite E. unfold word. symmetry. apply (Z.mod_unique _ _ (-1)); [left|]; lia.
Qed.
(** frames *)
Lemma frame_set w u chan n val v : 0 <= n < zlen chan -> scale_output w u true val = Ok v ->
  exists chan', set_scaled_output w u true chan n val = Ok chan' /\ zlen chan' = zlen chan /\ znth chan' n = Some v /\ (forall m, m <> n -> znth chan' m = znth chan m) /\
    scale_input_chan w u true chan' n = Ok (scale_input w u true v) /\ sign_extend_chan w u true chan' n = Ok (sign_extend w u true v).
Proof.
  intros Hn E. unfold set_scaled_output. rewrite E. cbn [bind]. rewrite wr_ok by exact Hn. eexists. split; [reflexivity|]. rewrite zlen_zupd. assert (EN : znth (zupd chan n v) n = Some v) by (apply znth_zupd_eq; exact Hn). repeat split; auto.
  - intros m Hm. apply znth_zupd_ne. congruence.
  - unfold scale_input_chan. rewrite (rd_ok _ _ _ EN). reflexivity.
  - unfold sign_extend_chan. rewrite (rd_ok _ _ _ EN). reflexivity.
Qed.
(** 32 used bits *)
Lemma full32_ub val : finite_f32 val -> (1 <= fval val)%R -> scale_output 32 32 true val = UB BadCast.
Proof.
  intros [Vx Fx] H. unfold scale_output. change (32 >? 32) with false. cbv iota. change (fdiv (fsub (out_scaling 32) f32_one) (out_scaling 32)) with f32_one.
  destruct (f32_of_int_val 1 ltac:(lia)) as [E1 F1]. fold f32_one in E1, F1. destruct neg1 as [[VN FN] EN].
  assert (EC : exists c, constrain_f val (f32_of_int (-1)) f32_one = c /\ finite_f32 c /\ fval c = 1%R).
  { destruct (constrain_val val (f32_of_int (-1)) f32_one (conj Vx Fx) (conj VN FN) (conj eq_refl F1) ltac:(rewrite EN, E1; lra)) as [A B]. eexists. split; [reflexivity|]. split; [exact A|]. rewrite B, EN, E1. unfold Rmax, Rmin. destruct (Rle_dec 1 (fval val)), (Rle_dec (-1) _); lra. }
  destruct EC as (c & -> & [Vc Fc] & Ec). destruct (os_val 32 ltac:(lia)) as (E & F & V).
  assert (EQ : RN (fval c * fval (out_scaling 32)) = bpow radix2 31) by (rewrite E, Ec, Rmult_1_l; apply RN_id, in_pow; lia).
  destruct (fmul_val c (out_scaling 32) Vc V Fc F) as [A B]; rewrite ?EQ in *; [apply pow_bound; lia|]. apply (cast_s_ub 32 _ (2 ^ 31) B); [|lia]. rewrite A. change (bpow radix2 31) with (IZR (2 ^ 31)). apply Ztrunc_IZR.
Qed.
(** the unsigned sample types *)
Lemma div2_bound x : (Rabs x < fmax)%R -> (Rabs (x * / 2) <= bpow radix2 127)%R.
Proof. intros H. rewrite Rabs_mult, (Rabs_pos_eq (/ 2)) by lra. unfold fmax in H. change (bpow radix2 128) with (bpow radix2 (127 + 1)) in H. rewrite bpow_plus in H. change (bpow radix2 1) with 2%R in H. lra. Qed.
Lemma RN_3_126 r : (Rabs r <= IZR 3 * bpow radix2 126 -> Rabs (RN r) < fmax)%R.
Proof.
  intros H. rewrite RN_abs. apply Rle_lt_trans with (RN (IZR 3 * bpow radix2 126)); [apply RN_le; exact H|]. rewrite RN_id by (apply scale_in; [apply in_int; lia|lia]).
  unfold fmax. change 128%Z with (2 + 126)%Z. rewrite bpow_plus. change (bpow radix2 2) with 4%R. pose proof (bpow_gt_0 radix2 126). lra.
Qed.
Definition half_up (x : R) : R := RN (RN (x * / 2) + / 2).
Lemma half_up_le x y : (x <= y -> half_up x <= half_up y)%R.
Proof. intros H. apply RN_le. apply Rplus_le_compat_r. apply RN_le. lra. Qed.
Lemma half_up_val x : finite_f32 x -> let r := fadd (fmul x (f32_of 1 (-1))) (f32_of 1 (-1)) in finite_f32 r /\ fval r = half_up (fval x).
Proof.
  intros Hx. cbn zeta. destruct half_b as [FH EH]. pose proof (div2_bound _ (fval_bound x (proj1 Hx))) as HB. destruct (fmul_b x _ Hx FH) as [FM EM]; [rewrite EH; exact HB|]. rewrite EH in EM. set (h := f32_of 1 (-1)) in *. set (m := fmul x h) in *.
  assert (HM : (Rabs (fval m) <= bpow radix2 127)%R). { rewrite EM, RN_abs. rewrite <- (RN_id (bpow radix2 127)) by (apply in_pow; lia). apply RN_le. exact HB. }
  destruct FM as [VM FM], FH as [VH FH]. destruct (fadd_val m h VM VH FM FH) as [A B].
  - apply RN_3_126. rewrite EH. pose proof (Rabs_triang (fval m) (/ 2)) as HT. rewrite (Rabs_pos_eq (/ 2)) in HT by lra. assert (1 <= bpow radix2 126)%R by (change 1%R with (bpow radix2 0); apply bpow_le; lia). assert (bpow radix2 127 = 2 * bpow radix2 126)%R by (change 127 with (1 + 126); rewrite bpow_plus; reflexivity). lra.
  - split; [split; [apply fadd_valid; assumption|exact B]|]. rewrite A, EM, EH. reflexivity.
Qed.
Lemma cast_u w x n : ffinite x = true -> Ztrunc (fval x) = n -> 0 <= n < 2 ^ w -> f32_to_uint w x = Ok n.
Proof. intros F E Hn. unfold f32_to_uint. rewrite trunc_val, E by exact F. destruct (Z.leb_spec 0 n), (Z.ltb_spec n (2 ^ w)); try lia. reflexivity. Qed.
Section Unsigned.
Context (w u : Z).
Hypothesis Hu : 1 <= u <= 24.
Hypothesis Hw : u <= w.
Let M := 2 ^ u - 1.
Lemma M_bound : 1 <= M < 2 ^ 24. Proof using Hu. unfold M. assert (2 ^ 1 <= 2 ^ u) by (apply Z.pow_le_mono_r; lia). assert (2 ^ u <= 2 ^ 24) by (apply Z.pow_le_mono_r; lia). lia. Qed.
Lemma M_eq : word 32 (ipow 2 (Z.to_nat u) - 1) = M. Proof using Hu. rewrite ipow_pow by lia. rewrite Z2Nat.id by lia. pose proof M_bound. apply word_small. lia. Qed.
Definition uval (x : R) : Z := Ztrunc (RN (Rmax 0 (Rmin 1 (half_up x)) * IZR M)).
Lemma clamp01 c : (0 <= c <= 1)%R -> 0 <= Ztrunc (RN (c * IZR M)) <= M.
Proof using Hu.
  intros Hc. pose proof M_bound as HM. assert (0 < IZR M)%R by (apply IZR_lt; lia). assert (HR : (IZR 0 <= RN (c * IZR M) <= IZR M)%R) by (apply RN_between; [apply in_int; lia|apply in_int; lia|split; nra]). apply trunc_int_range. exact HR.
Qed.
Lemma max01 x : (0 <= Rmax 0 (Rmin 1 x) <= 1)%R. Proof using. unfold Rmax, Rmin. destruct (Rle_dec 1 x), (Rle_dec 0 _); lra. Qed.
Lemma umul c : finite_f32 c -> (0 <= fval c <= 1)%R -> f32_to_uint w (fmul c (f32_of_int (word 32 (ipow 2 (Z.to_nat u) - 1)))) = Ok (Ztrunc (RN (fval c * IZR M))).
Proof using Hu Hw.
  intros Fc Hc. rewrite M_eq. pose proof M_bound as HM. destruct (int_b M ltac:(lia)) as [FM EM]. assert (0 < IZR M <= IZR (2 ^ 24))%R by (split; [apply IZR_lt|apply IZR_le]; lia).
  destruct (fmul_b c (f32_of_int M) Fc FM) as [FP EP]; [apply (small_le_127 24); [lia|]; rewrite EM, Rabs_pos_eq; nra|]. rewrite EM in EP. pose proof (clamp01 _ Hc). apply cast_u; [apply FP|rewrite EP; reflexivity|]. assert (2 ^ u <= 2 ^ w) by (apply Z.pow_le_mono_r; lia). unfold M in *. lia.
Qed.
Lemma output_unsigned val : finite_f32 val -> scale_output w u false val = Ok (uval (fval val)).
Proof using Hu Hw.
  intros Hx. unfold scale_output. destruct (half_up_val val Hx) as [FA EA]. cbn zeta in FA, EA. destruct zero_b as [FZ EZ], one_b as [FO EO]. destruct (constrain_val _ f32_zero f32_one FA FZ FO ltac:(lra)) as [FC EC]. rewrite EZ, EO, EA in EC. set (c := constrain_f _ _ _) in *. rewrite umul; [unfold uval; rewrite EC; reflexivity|exact FC|rewrite EC; apply max01].
Qed.
Lemma output_unsigned_inf s : scale_output w u false (S754_infinity s) = Ok (if s then 0 else M).
Proof using Hu Hw.
  unfold scale_output. destruct s.
  - change (constrain_f _ f32_zero f32_one) with f32_zero. destruct zero_b as [FZ EZ]. rewrite umul by (try exact FZ; lra). rewrite EZ, Rmult_0_l, RN_0. rewrite Ztrunc_IZR. reflexivity.
  - change (constrain_f _ f32_zero f32_one) with f32_one. destruct one_b as [FO EO]. rewrite umul by (try exact FO; lra). rewrite EO, Rmult_1_l, RN_id by (apply in_int; pose proof M_bound; lia). rewrite Ztrunc_IZR. reflexivity.
Qed.
Lemma uval_range x : 0 <= uval x <= M. Proof using Hu. apply clamp01, max01. Qed.
Lemma uval_mono x y : (x <= y)%R -> uval x <= uval y.
Proof using Hu.
  intros H. apply Ztrunc_le, RN_le. apply Rmult_le_compat_r; [apply IZR_le; pose proof M_bound; lia|]. apply Rle_max_compat_l, Rle_min_compat_l, half_up_le. exact H.
Qed.
Lemma uval_top x : (1 <= x)%R -> uval x = M.
Proof using Hu.
  intros H. assert (HH : (1 <= half_up x)%R). { unfold half_up. rewrite <- (RN_id 1) by (apply (in_int 1); lia). apply RN_le. apply Rle_trans with (/ 2 + / 2)%R; [lra|]. apply Rplus_le_compat_r. pose proof (RN_le (/ 2) (x * / 2) ltac:(lra)) as HL. rewrite (RN_id (/ 2)) in HL by (apply (in_pow (-1)); lia). exact HL. }
  unfold uval. replace (Rmax 0 (Rmin 1 (half_up x))) with 1%R by (unfold Rmax, Rmin; destruct (Rle_dec 1 (half_up x)), (Rle_dec 0 _); lra). rewrite Rmult_1_l, RN_id by (apply in_int; pose proof M_bound; lia). apply Ztrunc_IZR.
Qed.
Lemma uval_bottom x : (x <= -1)%R -> uval x = 0.
Proof using Hu.
  intros H. assert (HH : (half_up x <= 0)%R). { unfold half_up. rewrite <- RN_0. apply RN_le. apply Rle_trans with (- / 2 + / 2)%R; [|lra]. apply Rplus_le_compat_r. pose proof (RN_le (x * / 2) (- / 2) ltac:(lra)) as HL. rewrite (RN_id (- / 2)) in HL by (apply generic_format_opp, (in_pow (-1)); lia). exact HL. }
  unfold uval. replace (Rmax 0 (Rmin 1 (half_up x))) with 0%R by (unfold Rmax, Rmin; destruct (Rle_dec 1 (half_up x)), (Rle_dec 0 _); lra). rewrite Rmult_0_l, RN_0. apply Ztrunc_IZR.
Qed.
Lemma uval_zero : uval 0 = 2 ^ (u - 1) - 1.
Proof using Hu.
  pose proof M_bound as HM. assert (HH : half_up 0 = (/ 2)%R). { unfold half_up. rewrite Rmult_0_l, RN_0, Rplus_0_l. apply RN_id, (in_pow (-1)). lia. }
  unfold uval. rewrite HH. replace (Rmax 0 (Rmin 1 (/ 2))) with (/ 2)%R by (unfold Rmax, Rmin; destruct (Rle_dec 1 (/ 2)), (Rle_dec 0 _); lra).
  assert (EM : M = 2 * 2 ^ (u - 1) - 1) by (unfold M; f_equal; rewrite <- Z.pow_succ_r by lia; f_equal; lia).
  replace (/ 2 * IZR M)%R with (IZR M * bpow radix2 (- (1)))%R by (change (bpow radix2 (- (1))) with (/ 2)%R; ring). rewrite RN_id by (apply in_frac; lia). change (bpow radix2 (- (1))) with (/ 2)%R.
  rewrite EM, minus_IZR, mult_IZR. assert (HP : (1 <= IZR (2 ^ (u - 1)))%R) by (apply IZR_le; lia). rewrite Ztrunc_floor by lra. apply Zfloor_imp. rewrite plus_IZR, minus_IZR. lra.
Qed.
End Unsigned.
Lemma unsigned_nan w u : scale_output w u false S754_nan = UB BadCast.
Proof.
  unfold scale_output. assert (E : forall a b, constrain_f S754_nan a b = S754_nan) by (intros a b; unfold constrain_f; rewrite SFltb_nan_l, SFltb_nan_r; reflexivity). change (fadd (fmul S754_nan _) _) with S754_nan. rewrite E. reflexivity.
Qed.
(** an unsigned sample read as a number is v / 2^(u-1), and written back it is lost *)
Lemma unsigned_trip u v : 1 <= u <= 24 -> 2 ^ (u - 1) <= v < 2 ^ u -> scale_output u u false (scale_input u u false v) = Ok (2 ^ u - 1).
Proof.
  intros Hu Hv. assert (E2 : 2 ^ u = 2 * 2 ^ (u - 1)) by (rewrite <- Z.pow_succ_r by lia; f_equal; lia). assert (HP : 2 ^ u <= 2 ^ 24) by (apply Z.pow_le_mono_r; lia). assert (ES : sign_extend u u false v = v) by (unfold sign_extend; rewrite Z.eqb_refl; reflexivity).
  destruct (input_val u Hu u false v) as [FI EI]; [rewrite ES; lia|]. rewrite ES in EI. rewrite output_unsigned by (lia || exact FI). f_equal. apply uval_top; [exact Hu|]. rewrite EI. rewrite pow_IZR by lia. assert (0 < IZR (2 ^ (u - 1)))%R by (apply IZR_lt; lia).
  apply Rmult_le_reg_r with (IZR (2 ^ (u - 1))); [assumption|]. unfold Rdiv. rewrite Rmult_assoc, Rinv_l by lra. rewrite Rmult_1_l, Rmult_1_r. apply IZR_le. lia.
Qed.
Lemma unsigned_trip_zero u : 1 <= u <= 24 -> scale_output u u false (scale_input u u false 0) = Ok (2 ^ (u - 1) - 1).
Proof.
  intros Hu. assert (ES : sign_extend u u false 0 = 0) by (unfold sign_extend; rewrite Z.eqb_refl; reflexivity). destruct (input_val u Hu u false 0) as [FI EI]; [rewrite ES; lia|]. rewrite ES in EI. rewrite output_unsigned by (lia || exact FI). rewrite EI. unfold Rdiv. rewrite Rmult_0_l. f_equal. apply uval_zero. exact Hu.
Qed.
Lemma input_range_signed w u v : 1 <= u <= 24 -> u < w -> finite_f32 (scale_input w u true v) /\ (-1 <= fval (scale_input w u true v) < 1)%R.
Proof.
  intros Hu Hw. destruct (sign_extend_signed w u v ltac:(lia)) as [HS _]. pose proof (K_bound u Hu) as KB. destruct (input_val u Hu w true v) as [FI EI]; [lia|]. split; [exact FI|]. rewrite EI, pow_IZR by lia. assert (0 < IZR (2 ^ (u - 1)))%R by (apply IZR_lt; lia). set (n := sign_extend w u true v) in *.
  assert (IZR (- 2 ^ (u - 1)) <= IZR n)%R by (apply IZR_le; lia). assert (IZR n < IZR (2 ^ (u - 1)))%R by (apply IZR_lt; lia). rewrite opp_IZR in *. split.
  - apply Rmult_le_reg_r with (IZR (2 ^ (u - 1))); [assumption|]. unfold Rdiv. rewrite Rmult_assoc, Rinv_l by lra. lra.
  - apply Rmult_lt_reg_r with (IZR (2 ^ (u - 1))); [assumption|]. unfold Rdiv. rewrite Rmult_assoc, Rinv_l by lra. lra.
Qed.
