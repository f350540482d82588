(* The tables of math_tables.cc against the functions they tabulate. *)
From Coq Require Import Reals Lra Lia ZArith List Floats.SpecFloat.
From Flocq Require Import Core IEEE754.BinarySingleNaN Sterbenz.
From Verif.Common Require Import Base Lemmas Lists F32 F32Order F32Real F32Arith.
From Verif.Model Require Import MathFloat Table MathTables.
From Verif.Proofs Require Import Trig MathFloat TableF.
From Verif.Proofs Require Table.
Import ListNotations.
Open Scope R_scope.

Lemma fadd_comm x y : fadd x y = fadd y x.
Proof.
  destruct x as [[]|[]| |s m e], y as [[]|[]| |s' m' e']; try reflexivity. unfold fadd, SFadd. rewrite (Z.min_comm e' e). rewrite Z.add_comm. reflexivity.
Qed.
Lemma div_pos_val s p d : Rabs (RN (IZR (cond_Zopp s (Z.pos p)) / IZR (Z.pos d))) < fmax ->
  let z := fdiv (S754_finite s p 0) (S754_finite false d 0) in finite_f32 z /\ fval z = RN (IZR (cond_Zopp s (Z.pos p)) / IZR (Z.pos d)).
Proof.
  intros HB. pose proof (Bdiv_correct_aux 24 128 _ _ mode_NE s p 0 false d 0) as H. cbn zeta in H. unfold F2R in H. cbn [Fnum Fexp cond_Zopp] in H. change (bpow radix2 0) with 1 in H. rewrite !Rmult_1_r in H.
  cbn zeta. unfold fdiv, SFdiv. destruct (SFdiv_core_binary 24 128 (Z.pos p) 0 (Z.pos d) 0) as [[mz ez] lz]. rewrite round_aux_eq. destruct H as [HV H]. rewrite Rlt_bool_true in H by exact HB. destruct H as (H1 & H2 & _).
  repeat split; [exact HV| |exact H1]. revert H2. destruct (binary_round_aux _ _ _ _ _ _ _); auto.
Qed.
Lemma micro_b n : (Z.abs n <= 2 ^ 60)%Z -> finite_f32 (micro n) /\ fval (micro n) = RN (IZR n / 1000000).
Proof.
  intros Hn. assert (HB : Rabs (RN (IZR n / 1000000)) < fmax).
  { apply RN_pow_bound. apply (small_le_127 60); [lia|]. unfold Rdiv. rewrite Rabs_mult. rewrite (Rabs_right (/ 1000000)) by lra. rewrite <- abs_IZR. apply IZR_le in Hn. pose proof (Rabs_pos (IZR n)). rewrite <- abs_IZR in *. lra. }
  destruct n as [|p|p].
  - repeat split. cbn. rewrite <- RN_0 at 1. f_equal. lra.
  - apply (div_pos_val false p 1000000 HB).
  - apply (div_pos_val true p 1000000 HB).
Qed.

(* interp_wrap on a table whose size is a power of two *)
Lemma wrap_index (data : list f32) phase k : zlen data = (2 ^ k)%Z -> (0 <= k <= 24)%Z -> finite_f32 phase -> 0 <= fval phase < bpow radix2 (32 - k) ->
  let x := fmul phase (f32_of_int (zlen data)) in let y := fval phase * IZR (zlen data) in let i := Ztrunc y in
  finite_f32 x /\ fval x = y /\ f32_to_uint 32 x = Ok i /\ (0 <= i < 2 ^ 32)%Z /\ IZR i <= y < IZR i + 1.
Proof.
  intros Hz Hk Hp Hr x y i. assert (EZ : IZR (zlen data) = bpow radix2 k) by (rewrite Hz; change 2%Z with (radix_val radix2); apply IZR_Zpower; lia).
  assert (Hy : 0 <= y < bpow radix2 32). { unfold y. rewrite EZ. pose proof (bpow_gt_0 radix2 k). replace (bpow radix2 32) with (bpow radix2 (32 - k) * bpow radix2 k) by (rewrite <- bpow_plus; f_equal; lia). split; [nra|]. apply Rmult_lt_compat_r; lra. }
  assert (HI : (Z.abs (zlen data) <= 2 ^ 24)%Z). { rewrite Hz, Z.abs_eq by (apply Z.pow_nonneg; lia). apply Z.pow_le_mono_r; lia. }
  destruct (int_b (zlen data) HI) as [FI EI].
  destruct (fmul_b phase (f32_of_int (zlen data)) Hp FI) as [FX EX]; [rewrite EI; apply (le_127 32); [lia|]; apply Rabs_le; fold y; lra|].
  assert (Ey : fval x = y). { unfold x. rewrite EX, EI. apply RN_id. fold y. unfold y. rewrite EZ. apply scale_in; [|lia]. apply fval_in, Hp. }
  assert (HT : (0 <= i < 2 ^ 32)%Z) by (unfold i; apply trunc_range; [lra| |lia]; change (IZR (2 ^ 32)) with (bpow radix2 32); lra).
  repeat split; try tauto; try apply FX.
  - apply cast_val; [apply FX|rewrite Ey; reflexivity|exact HT].
  - unfold i. rewrite Ztrunc_floor by lra. apply Zfloor_lb.
  - unfold i. rewrite Ztrunc_floor by lra. apply Zfloor_ub.
Qed.
(* the fractional part of an index is computed exactly *)
Lemma frac_exact x i : finite_f32 x -> (0 <= i < 2 ^ 32)%Z -> IZR i <= fval x < IZR i + 1 -> 
  finite_f32 (fsub x (f32_of_int i)) /\ fval (fsub x (f32_of_int i)) = fval x - IZR i.
Proof.
  intros Hx Hi Hr. assert (H32 : 0 <= IZR i < bpow radix2 32) by (split; [apply IZR_le; lia|]; change (bpow radix2 32) with (IZR (2 ^ 32)); apply IZR_lt; lia).
  assert (HI : in_f32 (IZR i) /\ in_f32 (fval x - IZR i)).
  { destruct (Z_le_gt_dec i (2 ^ 24)) as [L|L].
    - split; [apply in_int; lia|]. destruct (Z.eq_dec i 0) as [->|Hn]; [rewrite Rminus_0_r; apply fval_in, Hx|].
      destruct (Rle_lt_dec (fval x) (2 * IZR i)) as [L2|L2].
      + change in_f32 with (generic_format radix2 (FLT_exp (-149) 24)). apply sterbenz; try apply _; [apply fval_in, Hx|apply in_int; lia|]. lra.
      + exfalso. assert (1 <= IZR i) by (apply IZR_le; lia). lra.
    - (* from 2^24 on every float is an integer *)
      assert (HG : exists n, fval x = IZR n).
      { pose proof (fval_in x (proj1 Hx)) as HF. change in_f32 with (generic_format radix2 (FLT_exp (-149) 24)) in HF. 
        assert (HM : bpow radix2 24 <= fval x) by (apply Rle_trans with (IZR i); [change (bpow radix2 24) with (IZR (2 ^ 24)); apply IZR_le; lia|lra]).
        unfold generic_format in HF. set (m := Ztrunc (scaled_mantissa radix2 (FLT_exp (-149) 24) (fval x))) in HF.
        assert (HE : (0 <= cexp radix2 (FLT_exp (-149) 24) (fval x))%Z). { unfold cexp, FLT_exp. assert (25 <= mag radix2 (fval x))%Z by (apply mag_ge_bpow; rewrite Rabs_right; [exact HM|pose proof (bpow_ge_0 radix2 24); lra]). lia. }
        exists (m * 2 ^ (cexp radix2 (FLT_exp (-149) 24) (fval x)))%Z. rewrite mult_IZR. change 2%Z with (radix_val radix2). rewrite IZR_Zpower by exact HE. exact HF. }
      destruct HG as [n Hn]. rewrite Hn in Hr. assert (n = i) by (destruct Hr as [R1 R2]; apply le_IZR in R1; rewrite <- plus_IZR in R2; apply lt_IZR in R2; lia). subst n. rewrite <- Hn. split; [apply fval_in, Hx|]. rewrite Rminus_diag_eq by reflexivity. change in_f32 with (generic_format radix2 (FLT_exp (-149) 24)). apply generic_format_0. }
  destruct HI as [I1 I2].
  assert (FI : finite_f32 (f32_of_int i) /\ fval (f32_of_int i) = IZR i).
  { destruct (f32_of_val i 0) as [A B]; change (bpow radix2 0) with 1 in *; rewrite Rmult_1_r in *; rewrite RN_id in * by exact I1; [rewrite Rabs_right by lra; apply Rlt_trans with (1 := proj2 H32); apply bpow_lt; lia|]. repeat split; auto. apply f32_of_int_valid. }
  destruct FI as [FI EI]. destruct (fsub_b x (f32_of_int i) Hx FI) as [FS ES]; [rewrite EI; apply (small_le_127 0); [lia|]; apply Rabs_le; cbn; lra|]. rewrite EI, RN_id in ES by exact I2. auto.
Qed.
Lemma interp_wrap_val fuel (data : list f32) phase k i : zlen data = (2 ^ k)%Z -> (0 <= k <= 24)%Z -> finite_f32 phase -> 0 <= fval phase < bpow radix2 (32 - k) -> fval phase < IZR (Z.of_nat fuel + 1) ->
  i = Ztrunc (fval phase * IZR (zlen data)) -> forall d0 d1, znth data (i mod 2 ^ k) = Some d0 -> znth data ((i + 1) mod 2 ^ k) = Some d1 ->
  exists p, finite_f32 p /\ fval p = fval phase * IZR (zlen data) - IZR i /\ 0 <= fval p < 1 /\ Finterp_wrap fuel data phase = Ok (finterpolate d0 d1 p) /\ Fclosest_wrap fuel data phase = Ok d0.
Proof.
  intros Hz Hk Hp Hr Hf -> d0 d1 H0 H1. destruct (wrap_index data phase k Hz Hk Hp Hr) as (FX & EX & EU & HI & HB). set (i := Ztrunc (fval phase * IZR (zlen data))) in *. set (x := fmul phase (f32_of_int (zlen data))) in *.
  destruct (frac_exact x i FX HI) as [FS ES]; [rewrite EX; exact HB|]. exists (fsub x (f32_of_int i)).
  assert (Hpos : (0 < 2 ^ k)%Z) by (apply Z.pow_pos_nonneg; lia).
  assert (HD : (i / zlen data <= Z.of_nat fuel)%Z).
  { rewrite Hz in *. apply Z.lt_succ_r, Z.div_lt_upper_bound; [lia|]. apply lt_IZR. rewrite mult_IZR. assert (0 < IZR (2 ^ k)) by (apply IZR_lt; lia). unfold Z.succ. nra. }
  assert (HW : wrap_loop fuel (zlen data) i = Ok (i mod zlen data)) by (apply Table.wrap_loop_mod; rewrite ?Hz in *; lia).
  split; [exact FS|]. split; [rewrite ES, EX; reflexivity|]. split; [rewrite ES, EX; lra|]. split.
  - unfold Finterp_wrap, interp_wrap, interp_by_index_wrap. fold x. rewrite EU. cbn [bind]. rewrite HW. cbn [bind]. unfold blend. rewrite Table.next_mod by (rewrite ?Hz; try (apply Z.mod_pos_bound; lia); assert (2 ^ k <= 2 ^ 24)%Z by (apply Z.pow_le_mono_r; lia); lia).
    rewrite Hz. rewrite Zplus_mod_idemp_l. rewrite (rd_ok _ _ _ H0), (rd_ok _ _ _ H1). cbn [bind]. unfold finterpolate. rewrite fadd_comm. reflexivity.
  - unfold Fclosest_wrap, closest_wrap. fold x. rewrite EU. cbn [bind]. rewrite HW. cbn [bind]. rewrite Hz, (rd_ok _ _ _ H0). reflexivity.
Qed.

(* a check of every entry of a table *)
Fixpoint all_ok (f : Z -> Z -> bool) (i : Z) (l : list Z) : bool := match l with [] => true | n :: r => f i n && all_ok f (i + 1) r end.
Lemma all_ok_nth f l : forall i k n, all_ok f i l = true -> znth l k = Some n -> f (i + k)%Z n = true.
Proof.
  induction l as [|x r IH]; intros i k n H E; [rewrite znth_nil in E; discriminate|]. cbn [all_ok] in H. apply andb_prop in H. destruct H as [H1 H2].
  destruct (Z.eq_dec k 0) as [->|Hk].
  - rewrite znth_cons_0 in E. injection E as <-. rewrite Z.add_0_r. exact H1.
  - pose proof (znth_some_range _ _ _ E). rewrite znth_cons_pos in E by lia. replace (i + k)%Z with (i + 1 + (k - 1))%Z by lia. apply IH; assumption.
Qed.

Lemma wrap_negative_ub fuel (data : list f32) ph : (1 <= zlen data <= 2 ^ 24)%Z -> finite_f32 ph -> fval ph * IZR (zlen data) <= -1 ->
  Finterp_wrap fuel data ph = UB BadCast /\ Fclosest_wrap fuel data ph = UB BadCast.
Proof.
  intros HS [Vp Fp] HB. destruct (int_b (zlen data) ltac:(lia)) as [[V1 F1] E1].
  assert (EC : f32_to_uint 32 (fmul ph (f32_of_int (zlen data))) = UB BadCast).
  { pose proof (fmul_rounds ph _ Vp V1 Fp F1) as HR. rewrite E1 in HR. unfold f32_to_uint. destruct HR as [(_ & EV & FV)|(_ & E)]; [|rewrite E; reflexivity].
    rewrite trunc_val by exact FV. rewrite EV. assert (HM : RN (fval ph * IZR (zlen data)) <= -1). { pose proof (RN_le _ _ HB) as H. rewrite (RN_id (-1)) in H by (apply (in_int (-1)); lia). exact H. }
    rewrite Ztrunc_ceil by lra. assert (Zceil (RN (fval ph * IZR (zlen data))) <= -1)%Z by (apply Zceil_glb; exact HM).
    destruct (Z.leb_spec 0 (Zceil (RN (fval ph * IZR (zlen data))))); [lia|]. reflexivity. }
  unfold Finterp_wrap, interp_wrap, interp_by_index_wrap, Fclosest_wrap, closest_wrap. rewrite EC. split; reflexivity.
Qed.
Lemma wrap_not_finite_ub fuel (data : list f32) ph : (1 <= zlen data <= 2 ^ 24)%Z -> ffinite ph = false -> Finterp_wrap fuel data ph = UB BadCast /\ Fclosest_wrap fuel data ph = UB BadCast.
Proof.
  intros HS Fp. assert (EC : f32_to_uint 32 (fmul ph (f32_of_int (zlen data))) = UB BadCast).
  { destruct (int_b (zlen data) ltac:(lia)) as [[V1 F1] E1]. destruct ph as [|s| |]; try discriminate Fp; destruct (f32_of_int (zlen data)); try discriminate F1; reflexivity. }
  unfold Finterp_wrap, interp_wrap, interp_by_index_wrap, Fclosest_wrap, closest_wrap. rewrite EC. split; reflexivity.
Qed.
Lemma RN_half_le x m k : x <= IZR m * bpow radix2 (- k) -> (Z.abs m <= 2 ^ 24)%Z -> (0 <= k <= 125)%Z -> RN x <= IZR m * bpow radix2 (- k).
Proof. intros H Hm Hk. pose proof (RN_le _ _ H) as R. rewrite (RN_id (_ * _)) in R by (apply in_grid; assumption). exact R. Qed.
