From Coq Require Import Reals Lra ZArith Floats.SpecFloat.
From Flocq Require Import Core IEEE754.BinarySingleNaN.
From Verif.Common Require Import Base Lemmas Lists F32 F32Order F32Real.
From Verif.Model Require Import CircularExt CircularMix.
From Verif.Spec Require Import AccessSpec.
From Verif.Proofs Require CircularExt TableF.
Open Scope Z_scope.

Lemma znth_In {A} (l : list A) i x : znth l i = Some x -> In x l.
Proof. unfold znth. destruct (i <? 0); [discriminate|]. apply nth_error_In. Qed.
Lemma fval_inj x y : valid_f32 x -> valid_f32 y -> ffinite x = true -> ffinite y = true -> fval x <> 0%R -> fval x = fval y -> x = y.
Proof.
  intros Vx Vy Fx Fy Hn E. rewrite <- (toB_SF x Vx), <- (toB_SF y Vy). f_equal. assert (Hz : fval y <> 0%R) by congruence. apply B2R_inj.
  - rewrite <- (toB_R x Vx) in Hn. rewrite <- (toB_fin x Vx) in Fx. destruct (toB x Vx); try discriminate Fx; [|reflexivity]. exfalso. apply Hn. reflexivity.
  - rewrite <- (toB_R y Vy) in Hz. rewrite <- (toB_fin y Vy) in Fy. destruct (toB y Vy); try discriminate Fy; [|reflexivity]. exfalso. apply Hz. reflexivity.
  - rewrite !toB_R. exact E.
Qed.
Lemma one_minus_one : fsub f32_one f32_one = S754_zero false. Proof. reflexivity. Qed.
(** phase 1 with a finite old value: the value is stored, up to the sign of zero *)
Lemma mix_one d old : valid_f32 d -> valid_f32 old -> ffinite d = true -> ffinite old = true ->
  let r := mix_f32 f32_one d old in valid_f32 r /\ ffinite r = true /\ fval r = fval d.
Proof.
  intros Vd Vo Fd Fo. cbn zeta. unfold mix_f32. rewrite one_minus_one. assert (HZ : exists s, fmul old (S754_zero false) = S754_zero s) by (destruct old; try discriminate Fo; eexists; reflexivity). destruct HZ as [s ->].
  destruct (TableF.fmul_one d Vd Fd) as [E F]. assert (V : valid_f32 (fmul d f32_one)) by (apply fmul_valid; [exact Vd|reflexivity]).
  destruct (fadd_val (fmul d f32_one) (S754_zero s) V eq_refl F eq_refl) as [A B]; change (fval (S754_zero s)) with 0%R in *; rewrite E, Rplus_0_r, RN_id in * by (apply fval_in; exact Vd); [apply fval_bound; exact Vd|].
  repeat split; auto. apply fadd_valid; [exact V|reflexivity].
Qed.
Lemma mix_one_exact d old : valid_f32 d -> valid_f32 old -> ffinite d = true -> ffinite old = true -> (forall s, d <> S754_zero s) -> mix_f32 f32_one d old = d.
Proof.
  intros Vd Vo Fd Fo Hn. destruct (mix_one d old Vd Vo Fd Fo) as (A & B & C). apply fval_inj; auto. rewrite C. intros E. destruct (TableF.fzero_cases d Fd Vd E) as [s ->]. exact (Hn s eq_refl).
Qed.
(** a slot that is infinite or not a number stays so, whatever is written with whatever phase *)
Lemma mix_nonfinite phase d old : ffinite old = false -> ffinite (mix_f32 phase d old) = false.
Proof.
  intros Ho. unfold mix_f32. set (p := fsub f32_one phase). assert (H : ffinite (fmul old p) = false) by (destruct old, p; try discriminate Ho; reflexivity).
  set (y := fmul old p) in *. clearbody y. destruct y as [|sy| |]; try discriminate H; destruct (fmul d phase) as [sx|sx| |sx]; try reflexivity. cbn. destruct (Bool.eqb sx sy); reflexivity.
Qed.
Lemma mix_one_nonfinite d old : ffinite old = false -> mix_f32 f32_one d old = S754_nan.
Proof.
  intros Ho. unfold mix_f32. rewrite one_minus_one. assert (H : fmul old (S754_zero false) = S754_nan) by (destruct old; try discriminate Ho; reflexivity). rewrite H. destruct (fmul d f32_one) as [| | |[]]; reflexivity.
Qed.

Definition bad (s : acc f32) (j : Z) : Prop := exists x, znth (a_buf s) j = Some x /\ ffinite x = false.
Lemma bad_upd phase s i j d old b : bad s j -> rd (a_buf s) i = Ok old -> wr (a_buf s) i (mix_f32 phase d old) = Ok b -> forall z r p, bad (Acc b z r p) j.
Proof.
  intros (x & Hx & Hb) Hr Hw z r p. unfold rd in Hr. destruct (znth (a_buf s) i) as [o|] eqn:Ei; [|discriminate]. injection Hr as ->. pose proof (znth_some_range _ _ _ Ei).
  rewrite wr_ok in Hw by lia. injection Hw as <-. unfold bad. cbn [a_buf]. destruct (Z.eq_dec j i) as [->|Hji]; [|rewrite znth_zupd_ne by lia; eauto]. rewrite Hx in Ei. injection Ei as ->. rewrite znth_zupd_eq by lia. eexists. split; [reflexivity|]. apply mix_nonfinite. exact Hb.
Qed.
Lemma bad_write W phase data : forall s w s' w' j, bad s j -> write_loop W (mix_f32 phase) data s w = Ok (s', w') -> bad s' j.
Proof.
  induction data as [|d ds IH]; intros s w s' w' j Hb E; cbn [write_loop] in E; [injection E as <- _; exact Hb|].
  apply bind_inv in E as (old & Eo & E). apply bind_inv in E as (b & Ebb & E). destruct (if word W (a_wr s + 1) >=? a_sz s then _ else _) as [p w1] in E. eapply IH; [|exact E]. eapply bad_upd; eauto.
Qed.
Lemma bad_write_rev W phase data : forall s w s' w' j, bad s j -> write_reverse_loop W (mix_f32 phase) data s w = Ok (s', w') -> bad s' j.
Proof.
  induction data as [|d ds IH]; intros s w s' w' j Hb E; cbn [write_reverse_loop] in E; [injection E as <- _; exact Hb|].
  apply bind_inv in E as (old & Eo & E). apply bind_inv in E as (b & Ebb & E). destruct (if word W (a_wr s - 1) >=? a_sz s then _ else _) as [p w1] in E. eapply IH; [|exact E]. eapply bad_upd; eauto.
Qed.
Lemma read_buf W n : forall (s : acc f32) w s' ds w', read_loop W n s w = Ok (s', ds, w') -> a_buf s' = a_buf s.
Proof.
  induction n as [|n IH]; intros s w s' ds w' E; cbn [read_loop] in E; [injection E as <- _ _; reflexivity|].
  apply bind_inv in E as (d & _ & E). destruct (if _ >=? _ then _ else _) as [p w1] in E. apply bind_inv in E as (((s1 & ds1) & w2) & E1 & E). injection E as <- _ _. apply IH in E1. exact E1.
Qed.
Lemma read_rev_buf W n : forall (s : acc f32) w s' ds w', read_reverse_loop W n s w = Ok (s', ds, w') -> a_buf s' = a_buf s.
Proof.
  induction n as [|n IH]; intros s w s' ds w' E; cbn [read_reverse_loop] in E; [injection E as <- _ _; reflexivity|].
  apply bind_inv in E as (d & _ & E). destruct (if _ >=? _ then _ else _) as [p w1] in E. apply bind_inv in E as (((s1 & ds1) & w2) & E1 & E). injection E as <- _ _. apply IH in E1. exact E1.
Qed.
Lemma bad_step W s o s' r j : snd o <> AClear -> bad s j -> mix_step W s o = Ok (s', r) -> bad s' j.
Proof.
  intros Hc Hb E. unfold mix_step in E. destruct o as [phase o]; cbn [fst snd] in *.
  assert (HB : forall t, a_buf t = a_buf s -> bad t j) by (intros t Et; unfold bad; rewrite Et; exact Hb).
  destruct o; cbn [acc_step] in E; try (injection E as <- _; apply HB; reflexivity); try congruence.
  - apply bind_inv in E as (((s1 & ds) & w) & E1 & E). injection E as <- _. apply HB. eapply read_buf. exact E1.
  - apply bind_inv in E as (((s1 & ds) & w) & E1 & E). injection E as <- _. apply HB. eapply read_rev_buf. exact E1.
  - apply bind_inv in E as ((s1 & w) & E1 & E). injection E as <- _. eapply bad_write; eauto.
  - apply bind_inv in E as ((s1 & w) & E1 & E). injection E as <- _. eapply bad_write_rev; eauto.
  - apply bind_inv in E as (((s1 & ds) & w) & E1 & E). injection E as <- _. unfold acc_read_check in E1. apply bind_inv in E1 as (((s2 & ds2) & w2) & E2 & E1). injection E1 as <- _ _. apply HB. eapply read_buf. exact E2.
  - apply bind_inv in E as (((s1 & ds) & w) & E1 & E). injection E as <- _. unfold acc_read_reverse_check in E1. apply bind_inv in E1 as (((s2 & ds2) & w2) & E2 & E1). injection E1 as <- _ _. apply HB. eapply read_rev_buf. exact E2.
  - apply bind_inv in E as ((s1 & w) & E1 & E). injection E as <- _. unfold acc_write_check in E1. apply bind_inv in E1 as ((s2 & w2) & E2 & E1). injection E1 as <- _. eapply bad_write; eauto.
Qed.
Lemma bad_forever W ops : forall s s' outs j x, Forall (fun o => snd o <> AClear) ops -> znth (a_buf s) j = Some x -> ffinite x = false -> run (mix_step W) s ops = Ok (s', outs) ->
  exists y, znth (a_buf s') j = Some y /\ ffinite y = false.
Proof.
  induction ops as [|o ops IH]; intros s s' outs j x HF Hx Hb E; cbn [run] in E.
  - injection E as <- _. eauto.
  - inversion HF; subst. apply bind_inv in E as ((s1 & r) & E1 & E). apply bind_inv in E as ((s2 & rs) & E2 & E). injection E as <- _.
    destruct (bad_step W s o s1 r j) as (y & Hy & Hyb); auto; [exists x; auto|]. eapply IH; eauto.
Qed.

(** whole writes *)
Lemma write_stores W (s : acc f32) data : acc_ok W s -> Forall finite_f32 data -> Forall finite_f32 (a_buf s) -> zlen data <= a_sz s ->
  exists s', acc_write W (mix_f32 f32_one) s data = Ok (s', a_sz s <=? a_wr s + zlen data) /\
    forall i d, znth data i = Some d -> exists x, znth (a_buf s') ((a_wr s + i) mod a_sz s) = Some x /\ finite_f32 x /\ fval x = fval d /\ ((forall b, d <> S754_zero b) -> x = d).
Proof.
  intros HA HD HS HL. destruct (CircularExt.write_ok W (mix_f32 f32_one) s data HA) as (s' & E & HW). exists s'. split; [exact E|]. intros i d Hd. pose proof (znth_some_range _ _ _ Hd).
  destruct HW as (_ & _ & _ & _ & HM & _). destruct HA as (Hz & Hz2 & _). pose proof (Z.mod_pos_bound (a_wr s + i) (a_sz s) ltac:(lia)).
  destruct (znth_some (a_buf s) ((a_wr s + i) mod a_sz s)) as [old Ho]; [rewrite <- Hz; lia|]. specialize (HM HL i d old Hd). rewrite Z.mul_1_l in HM. specialize (HM Ho).
  assert (HDd : finite_f32 d). { apply znth_In in Hd. rewrite Forall_forall in HD. auto. }
  assert (HDo : finite_f32 old). { apply znth_In in Ho. rewrite Forall_forall in HS. auto. }
  destruct HDd as [V F], HDo as [Vo Fo]. destruct (mix_one d old V Vo F Fo) as (A & B & C). eexists. split; [exact HM|]. split; [split; assumption|]. split; [exact C|]. intros Hn. apply mix_one_exact; auto.
Qed.
Lemma write_reverse_stores W (s : acc f32) data : acc_ok W s -> Forall finite_f32 data -> Forall finite_f32 (a_buf s) -> zlen data <= a_sz s ->
  exists s', acc_write_reverse W (mix_f32 f32_one) s data = Ok (s', a_wr s - zlen data <? 0) /\
    forall i d, znth data i = Some d -> exists x, znth (a_buf s') ((a_wr s - i) mod a_sz s) = Some x /\ finite_f32 x /\ fval x = fval d /\ ((forall b, d <> S754_zero b) -> x = d).
Proof.
  intros HA HD HS HL. destruct (CircularExt.write_reverse_ok W (mix_f32 f32_one) s data HA) as (s' & E & HW). exists s'. split; [exact E|]. intros i d Hd. pose proof (znth_some_range _ _ _ Hd).
  destruct HW as (_ & _ & _ & _ & HM & _). destruct HA as (Hz & Hz2 & _). pose proof (Z.mod_pos_bound (a_wr s - i) (a_sz s) ltac:(lia)).
  destruct (znth_some (a_buf s) ((a_wr s - i) mod a_sz s)) as [old Ho]; [rewrite <- Hz; lia|]. specialize (HM HL i d old Hd). replace (a_wr s + -1 * i) with (a_wr s - i) in HM by ring. specialize (HM Ho).
  assert (HDd : finite_f32 d). { apply znth_In in Hd. rewrite Forall_forall in HD. auto. }
  assert (HDo : finite_f32 old). { apply znth_In in Ho. rewrite Forall_forall in HS. auto. }
  destruct HDd as [V F], HDo as [Vo Fo]. destruct (mix_one d old V Vo F Fo) as (A & B & C). eexists. split; [exact HM|]. split; [split; assumption|]. split; [exact C|]. intros Hn. apply mix_one_exact; auto.
Qed.

(** integers *)
Lemma int_any_finite n : Z.abs n <= 2 ^ 64 -> ffinite (f32_of_int n) = true.
Proof.
  intros H. destruct (f32_of_val n 0) as [_ F]; [|exact F]. rewrite Rmult_1_r. apply Rle_lt_trans with (bpow radix2 64); [|apply bpow_lt; lia].
  rewrite RN_abs, <- abs_IZR. assert (HG : in_f32 (bpow radix2 64)) by (apply generic_format_bpow; cbv; discriminate). rewrite <- (RN_id _ HG). apply RN_le. change (bpow radix2 64) with (IZR (2 ^ 64)). apply IZR_le. exact H.
Qed.
Lemma mix_int_exact w d old : 25 < w <= 64 \/ Z.abs d < 2 ^ (w - 1) -> 0 < w <= 64 -> Z.abs d <= 2 ^ 24 -> Z.abs old <= 2 ^ 64 -> mix_int w f32_one d old = Ok d.
Proof.
  intros Hw Hw0 Hd Ho. unfold mix_int. destruct (f32_of_int_val d Hd) as [E F]. destruct (mix_one (f32_of_int d) (f32_of_int old)) as (A & B & C); try apply f32_of_int_valid; auto; [apply int_any_finite; exact Ho|].
  unfold f32_to_sint. rewrite trunc_val by exact B. rewrite C, E, Ztrunc_IZR. assert (HP : Z.abs d < 2 ^ (w - 1)). { destruct Hw as [Hw|Hw]; [|exact Hw]. apply Z.le_lt_trans with (2 ^ 24); [exact Hd|]. apply Z.pow_lt_mono_r; lia. }
  destruct (Z.leb_spec (- 2 ^ (w - 1)) d), (Z.ltb_spec d (2 ^ (w - 1))); try lia. reflexivity.
Qed.

(** any integer: stored as the nearest float, if that is in range *)
Lemma mix_int_any w d old : Z.abs d <= 2 ^ 64 -> Z.abs old <= 2 ^ 64 ->
  mix_int w f32_one d old = let n := Ztrunc (RN (IZR d)) in if (- 2 ^ (w - 1) <=? n) && (n <? 2 ^ (w - 1)) then Ok n else UB BadCast.
Proof.
  intros Hd Ho. unfold mix_int. destruct (mix_one (f32_of_int d) (f32_of_int old)) as (A & B & C); try apply f32_of_int_valid; try (apply int_any_finite; assumption).
  assert (E : fval (f32_of_int d) = RN (IZR d)).
  { destruct (f32_of_val d 0) as [E _]; [|unfold f32_of_int; rewrite E; cbn [bpow]; rewrite Rmult_1_r; reflexivity].
    cbn [bpow]. rewrite Rmult_1_r. apply Rle_lt_trans with (bpow radix2 64); [|apply bpow_lt; lia].
    rewrite RN_abs, <- abs_IZR. assert (HG : in_f32 (bpow radix2 64)) by (apply generic_format_bpow; cbv; discriminate). rewrite <- (RN_id _ HG). apply RN_le. change (bpow radix2 64) with (IZR (2 ^ 64)). apply IZR_le. exact Hd. }
  unfold f32_to_sint. rewrite trunc_val by exact B. rewrite C, E. cbn zeta. destruct (_ && _); reflexivity.
Qed.
Lemma big_float_even x : in_f32 x -> (IZR (2 ^ 24) <= Rabs x)%R -> exists m, x = IZR (2 * m).
Proof.
  intros HX HB. change in_f32 with (generic_format radix2 (FLT_exp (-149) 24)) in HX. rewrite HX. unfold F2R. cbn [Fnum Fexp]. set (m := Ztrunc _). 
  assert (HM : (25 <= mag radix2 x)%Z). { apply mag_ge_bpow. exact HB. }
  unfold cexp, FLT_exp. set (e := Z.max _ _). assert (HE : (1 <= e)%Z) by (unfold e; lia). exists (m * 2 ^ (e - 1)).
  rewrite <- (IZR_Zpower radix2 e) by lia. rewrite <- mult_IZR. f_equal. change (Zpower radix2 e) with (2 ^ e). replace e with (Z.succ (e - 1)) at 1 by lia. rewrite Z.pow_succ_r by lia. ring.
Qed.
Lemma RN_big d : 2 ^ 24 <= Z.abs d -> (IZR (2 ^ 24) <= Rabs (RN (IZR d)))%R.
Proof.
  intros H. rewrite RN_abs, <- abs_IZR. assert (HG : in_f32 (IZR (2 ^ 24))) by (change (IZR (2 ^ 24)) with (bpow radix2 24); apply generic_format_bpow; cbv; discriminate).
  rewrite <- (RN_id _ HG). apply RN_le. apply IZR_le. exact H.
Qed.
Lemma mix_int_odd w d old : Z.odd d = true -> 2 ^ 24 <= Z.abs d <= 2 ^ 64 -> Z.abs old <= 2 ^ 64 -> mix_int w f32_one d old <> Ok d.
Proof.
  intros Hodd Hd Ho. rewrite mix_int_any by lia. cbn zeta. destruct (big_float_even (RN (IZR d))) as [m Hm]; [apply generic_format_round; [apply FLT_exp_valid; reflexivity|apply valid_rnd_N]|apply RN_big; lia|].
  rewrite Hm, Ztrunc_IZR. destruct (_ && _); [|discriminate]. intros E. assert (E2 : d = 2 * m) by congruence. rewrite E2, Z.odd_mul in Hodd. discriminate.
Qed.
Lemma mix_int_top d old : 2 ^ 31 - 64 <= d < 2 ^ 31 -> Z.abs old <= 2 ^ 64 -> mix_int 32 f32_one d old = UB BadCast.
Proof.
  intros Hd Ho. rewrite mix_int_any by lia. cbn zeta.
  assert (HT : RN (IZR (2 ^ 31 - 64)) = IZR (2 ^ 31)).
  { destruct (f32_of_val (2 ^ 31 - 64) 0) as [E _].
    - cbn [bpow]. rewrite Rmult_1_r. apply Rle_lt_trans with (bpow radix2 64); [|apply bpow_lt; lia].
      rewrite RN_abs, <- abs_IZR. assert (HG : in_f32 (bpow radix2 64)) by (apply generic_format_bpow; cbv; discriminate). rewrite <- (RN_id _ HG). apply RN_le. change (bpow radix2 64) with (IZR (2 ^ 64)). apply IZR_le. lia.
    - cbn [bpow] in E. rewrite Rmult_1_r in E. rewrite <- E. replace (f32_of (2 ^ 31 - 64) 0) with (S754_finite false 8388608 8) by (vm_compute; reflexivity). cbv [fval SF2R F2R cond_Zopp Fnum Fexp]. change (bpow radix2 8) with 256%R. rewrite <- mult_IZR. reflexivity. }
  assert (HL : 2 ^ 31 <= Ztrunc (RN (IZR d))). { rewrite <- (Ztrunc_IZR (2 ^ 31)), <- HT. apply Ztrunc_le, RN_le, IZR_le. lia. }
  change (32 - 1) with 31. replace (Ztrunc (RN (IZR d)) <? 2 ^ 31) with false by lia. rewrite andb_false_r. reflexivity.
Qed.
