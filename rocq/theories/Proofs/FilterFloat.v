(* HysteresisFilter and QuadraticOnePoleLp in single precision. *)
From Coq Require Import ZArith Reals Lra Lia List Floats.SpecFloat.
From Flocq Require Import Core.
From Verif.Common Require Import Base F32 F32Order F32Real F32Arith F32Err.
From Verif.Model Require Import FilterF.
From Verif.Proofs Require Import MathFloat TableAcc.
Import ListNotations.
Open Scope R_scope.

Lemma opp_b x : finite_f32 x -> finite_f32 (SFopp x) /\ fval (SFopp x) = - fval x.
Proof.
  intros [V F]. split; [split; [destruct x; exact V|destruct x; exact F]|]. destruct x as [s|s| |s m ex]; try discriminate F; [cbn; lra|].
  change (fval (S754_finite s m ex)) with (F2R (Float radix2 (if s then Zneg m else Zpos m) ex)). rewrite <- F2R_Zopp. destruct s; reflexivity.
Qed.
Lemma abs_b x : finite_f32 x -> finite_f32 (SFabs x) /\ fval (SFabs x) = Rabs (fval x).
Proof.
  intros [V F]. split; [split; [destruct x; exact V|destruct x; exact F]|]. destruct x as [s|s| |s m ex]; try discriminate F; [cbn; rewrite Rabs_R0; reflexivity|].
  change (fval (S754_finite s m ex)) with (F2R (Float radix2 (if s then Zneg m else Zpos m) ex)). rewrite <- F2R_Zabs. destruct s; reflexivity.
Qed.
Lemma pow_up e k : bpow radix2 (e + k) = bpow radix2 k * bpow radix2 e. Proof. rewrite bpow_plus. apply Rmult_comm. Qed.
Lemma add_tiny_zero x z : finite_f32 x -> finite_f32 z -> fval z = 0 -> finite_f32 (fadd x z) /\ fval (fadd x z) = fval x.
Proof. intros Fx [Vz Fz] Z0. destruct z as [s| | |s m ex]; try discriminate; [apply add_zero; exact Fx|]. exfalso. revert Z0. change (fval (S754_finite s m ex)) with (F2R (Float radix2 (if s then Zneg m else Zpos m) ex)). apply F2R_neq_0. destruct s; discriminate. Qed.

Section Hyst.
Variables (e n dv : Z).
Hypotheses (He : (-100 <= e <= 120)%Z) (Hn : (0 <= n <= 2 ^ 24)%Z) (Hd : (1 <= dv <= 2 ^ 24)%Z).
Notation E := (bpow radix2 e).
Notation flat := (hysteresis_flat n dv).
Lemma flat_b : finite_f32 flat /\ 0 <= fval flat.
Proof.
  destruct (int_b n ltac:(lia)) as [Fn Vn]. destruct (int_b dv ltac:(lia)) as [Fd Vd]. assert (1 <= IZR dv) by (apply IZR_le; lia). assert (0 <= IZR n <= IZR (2 ^ 24)) by (split; apply IZR_le; lia). assert (0 < / IZR dv <= 1) by (split; [apply Rinv_0_lt_compat; lra|rewrite <- Rinv_1; apply Rinv_le_contravar; lra]).
  assert (Q : 0 <= IZR n / IZR dv <= IZR (2 ^ 24)) by (unfold Rdiv; split; [apply Rmult_le_pos; lra|pose proof (Rmult_le_compat_l (IZR n) (/ IZR dv) 1 ltac:(lra) ltac:(lra)); lra]).
  destruct (fdiv_b _ _ Fn Fd) as [F V]; [rewrite Vd; lra|rewrite Vn, Vd; apply (small_le_127 24); [lia|apply Rabs_le; lra]|]. rewrite Vn, Vd in V. split; [exact F|]. unfold hysteresis_flat. rewrite V. pose proof (RN_le 0 _ (proj1 Q)) as G. rewrite RN_0 in G. exact G.
Qed.
Lemma flat_val : Rabs (fval flat - IZR n / IZR dv) <= / 16777216 * (IZR n / IZR dv).
Proof.
  destruct (int_b n ltac:(lia)) as [Fn Vn]. destruct (int_b dv ltac:(lia)) as [Fd Vd]. assert (1 <= IZR dv) by (apply IZR_le; lia). assert (0 <= IZR n <= IZR (2 ^ 24)) by (split; apply IZR_le; lia). assert (0 < / IZR dv <= 1) by (split; [apply Rinv_0_lt_compat; lra|rewrite <- Rinv_1; apply Rinv_le_contravar; lra]).
  assert (Q : 0 <= IZR n / IZR dv <= IZR (2 ^ 24)) by (unfold Rdiv; split; [apply Rmult_le_pos; lra|pose proof (Rmult_le_compat_l (IZR n) (/ IZR dv) 1 ltac:(lra) ltac:(lra)); lra]).
  destruct (fdiv_b _ _ Fn Fd) as [F V]; [rewrite Vd; lra|rewrite Vn, Vd; apply (small_le_127 24); [lia|apply Rabs_le; lra]|]. rewrite Vn, Vd in V. unfold hysteresis_flat. rewrite V. destruct (Z.eq_dec n 0) as [Z|Z].
  - rewrite Z. replace (0 / IZR dv) with 0 by (field; lra). rewrite RN_0, Rminus_0_r, Rabs_R0. lra.
  - assert (1 <= IZR n) by (apply IZR_le; lia). assert (IZR dv <= IZR (2 ^ 24)) by (apply IZR_le; lia).
    assert (LB : bpow radix2 (-126) <= IZR n / IZR dv).
    { apply Rle_trans with (bpow radix2 (-24)); [apply bpow_le; lia|]. change (bpow radix2 (-24)) with (/ IZR (2 ^ 24)). unfold Rdiv. apply Rle_trans with (1 * / IZR dv); [|apply Rmult_le_compat_r; lra]. rewrite Rmult_1_l. apply Rinv_le_contravar; lra. }
    pose proof (RN_rel (IZR n / IZR dv)) as R. rewrite (Rabs_pos_eq (IZR n / IZR dv)) in R by lra. exact (R LB).
Qed.
Variables (st x : f32).
Hypotheses (Fs : finite_f32 st) (Fx : finite_f32 x) (Bs : Rabs (fval st) <= E) (Bx : Rabs (fval x) <= E).
Lemma diff_b : finite_f32 (fsub x st) /\ fval (fsub x st) = RN (fval x - fval st) /\ Rabs (fval x - fval st) <= bpow radix2 (e + 1) /\ Rabs (fval (fsub x st) - (fval x - fval st)) <= bpow radix2 (e - 24).
Proof.
  assert (B : Rabs (fval x - fval st) <= bpow radix2 (e + 1)) by (rewrite pow_step; apply Rabs_le_inv in Bs, Bx; apply Rabs_le; lra).
  destruct (fsub_b x st Fx Fs (le_127 (e + 1) _ ltac:(lia) B)) as [F V]. split; [exact F|]. split; [exact V|]. split; [exact B|]. rewrite V. replace (e - 24)%Z with (e + 1 - 25)%Z by lia. apply RN_err; [lia|exact B].
Qed.
Lemma clamp_val d lo hi : finite_f32 d -> finite_f32 lo -> finite_f32 hi -> fval lo <= fval hi -> clamp_f d lo hi = (if Rlt_dec (fval d) (fval lo) then lo else if Rlt_dec (fval hi) (fval d) then hi else d).
Proof.
  intros Fd Fl Fh H. unfold clamp_f. pose proof (fltb_val d lo (proj1 Fd) (proj1 Fl) (proj2 Fd) (proj2 Fl)) as A. pose proof (fltb_val hi d (proj1 Fh) (proj1 Fd) (proj2 Fh) (proj2 Fd)) as B.
  destruct (Rlt_dec (fval d) (fval lo)) as [C|C]; destruct (SFltb d lo); try (exfalso; intuition congruence); [reflexivity|]. destruct (Rlt_dec (fval hi) (fval d)), (SFltb hi d); try (exfalso; intuition congruence); reflexivity.
Qed.
Lemma sub_self d : finite_f32 d -> finite_f32 (fsub d d) /\ fval (fsub d d) = 0.
Proof. intros F. destruct (fsub_b d d F F) as [G V]; [rewrite Rminus_diag_eq, Rabs_R0 by reflexivity; apply bpow_ge_0|]. rewrite Rminus_diag_eq, RN_0 in V by reflexivity. auto. Qed.
Lemma dead : Rabs (fval x - fval st) <= fval flat -> finite_f32 (hysteresis_step n dv st x) /\ fval (hysteresis_step n dv st x) = fval st.
Proof.
  intros H. destruct flat_b as [Ff Pf]. destruct diff_b as (Fd & Vd & _). destruct (opp_b flat Ff) as [Fo Vo]. unfold hysteresis_step, one_pole_f, transfer_hysteresis_f. rewrite clamp_val by (assumption || lra).
  assert (B : Rabs (fval (fsub x st)) <= fval flat). { rewrite Vd, RN_abs. pose proof (RN_le _ _ H) as G. rewrite (RN_id (fval flat)) in G by (apply fval_in, Ff). exact G. } apply Rabs_le_inv in B.
  destruct (Rlt_dec _ _); [lra|]. destruct (Rlt_dec _ _); [lra|]. destruct (sub_self _ Fd) as [G Z]. apply add_tiny_zero; assumption.
Qed.
Lemma above : fval flat < fval x - fval st -> let r := hysteresis_step n dv st x in
  finite_f32 r /\ Rabs (fval r - (fval x - fval flat)) <= 3 * bpow radix2 (e - 24) /\ fval st <= fval r /\ (bpow radix2 (e - 23) <= fval flat -> fval r <= fval x).
Proof.
  intros H r. destruct flat_b as [Ff Pf]. destruct diff_b as (Fd & Vd & Bd & Ed). destruct (opp_b flat Ff) as [Fo Vo]. set (d := fsub x st) in *.
  assert (GE : fval flat <= fval d). { rewrite Vd. pose proof (RN_le _ _ (Rlt_le _ _ H)) as G. rewrite (RN_id (fval flat)) in G by (apply fval_in, Ff). exact G. }
  assert (D1 : fval d <= bpow radix2 (e + 1)). { rewrite Vd. apply Rle_trans with (1 := Rle_abs _). apply RN_le_pow; [lia|exact Bd]. }
  assert (TB : Rabs (fval d - fval flat) <= bpow radix2 (e + 1)) by (apply Rabs_le; pose proof (bpow_ge_0 radix2 (e + 1)); lra).
  destruct (fsub_b d flat Fd Ff (le_127 (e + 1) _ ltac:(lia) TB)) as [Ft Vt]. pose proof (RN_err (e + 1) _ ltac:(lia) TB) as Et. replace (e + 1 - 25)%Z with (e - 24)%Z in Et by lia. rewrite <- Vt in Et.
  assert (TR : exists t, transfer_hysteresis_f n dv d = t /\ finite_f32 t /\ 0 <= fval t /\ Rabs (fval t - (fval d - fval flat)) <= bpow radix2 (e - 24)).
  { exists (transfer_hysteresis_f n dv d). split; [reflexivity|]. unfold transfer_hysteresis_f. rewrite clamp_val by (assumption || lra). destruct (Rlt_dec _ _); [lra|]. destruct (Rlt_dec _ _) as [G|G].
    - split; [exact Ft|]. split; [|exact Et]. rewrite Vt. pose proof (RN_le 0 (fval d - fval flat) ltac:(lra)) as Q. rewrite RN_0 in Q. exact Q.
    - destruct (sub_self d Fd) as [S Z]. split; [exact S|]. rewrite Z. split; [lra|]. assert (EQ : fval d = fval flat) by lra. rewrite EQ. replace (0 - (fval flat - fval flat)) with 0 by ring. rewrite Rabs_R0. apply bpow_ge_0. }
  destruct TR as (t & ET & FT & PT & AT). unfold r, hysteresis_step, one_pole_f. fold d. rewrite ET. clear ET r.
  assert (U : bpow radix2 (e - 24) = / 16777216 * E) by (replace (e - 24)%Z with (e + (-24))%Z by lia; rewrite pow_up; reflexivity). assert (U2 : bpow radix2 (e - 23) = 2 * (/ 16777216 * E)) by (rewrite <- U, <- pow_step; f_equal; lia).
  pose proof (bpow_gt_0 radix2 e) as EP. assert (SUM : Rabs (fval st + fval t) <= bpow radix2 (e + 1)). { rewrite pow_step. apply Rabs_le_inv in Bs, Bx, AT, Ed. rewrite U in *. apply Rabs_le. lra. }
  destruct (fadd_b st t Fs FT (le_127 (e + 1) _ ltac:(lia) SUM)) as [Fr Vr]. pose proof (RN_err (e + 1) _ ltac:(lia) SUM) as Er. replace (e + 1 - 25)%Z with (e - 24)%Z in Er by lia. split; [exact Fr|]. rewrite Vr. split; [|split].
  - apply Rabs_le_inv in Er, AT, Ed. apply Rabs_le. lra.
  - pose proof (RN_le (fval st) (fval st + fval t) ltac:(lra)) as Q. rewrite (RN_id (fval st)) in Q by (apply fval_in, Fs). exact Q.
  - intros HF. pose proof (RN_le (fval st + fval t) (fval x)) as Q. rewrite (RN_id (fval x)) in Q by (apply fval_in, Fx). apply Q. apply Rabs_le_inv in AT, Ed. rewrite U, U2 in *. lra.
Qed.
Lemma below : fval flat < fval st - fval x -> let r := hysteresis_step n dv st x in
  finite_f32 r /\ Rabs (fval r - (fval x + fval flat)) <= 3 * bpow radix2 (e - 24) /\ fval r <= fval st /\ (bpow radix2 (e - 23) <= fval flat -> fval x <= fval r).
Proof.
  intros H r. destruct flat_b as [Ff Pf]. destruct diff_b as (Fd & Vd & Bd & Ed). destruct (opp_b flat Ff) as [Fo Vo]. set (d := fsub x st) in *.
  assert (GE : fval d <= - fval flat). { rewrite Vd. pose proof (RN_le (fval x - fval st) (- fval flat) ltac:(lra)) as G. rewrite RN_opp, (RN_id (fval flat)) in G by (apply fval_in, Ff). exact G. }
  assert (D1 : - bpow radix2 (e + 1) <= fval d). { rewrite Vd. pose proof (RN_le_pow (e + 1) _ ltac:(lia) Bd) as G. apply Rabs_le_inv in G. lra. }
  assert (TB : Rabs (fval d - fval (SFopp flat)) <= bpow radix2 (e + 1)) by (apply Rabs_le; pose proof (bpow_ge_0 radix2 (e + 1)); lra).
  destruct (fsub_b d _ Fd Fo (le_127 (e + 1) _ ltac:(lia) TB)) as [Ft Vt]. pose proof (RN_err (e + 1) _ ltac:(lia) TB) as Et. replace (e + 1 - 25)%Z with (e - 24)%Z in Et by lia. rewrite <- Vt in Et. rewrite Vo in Et, Vt.
  assert (TR : exists t, transfer_hysteresis_f n dv d = t /\ finite_f32 t /\ fval t <= 0 /\ Rabs (fval t - (fval d + fval flat)) <= bpow radix2 (e - 24)).
  { exists (transfer_hysteresis_f n dv d). split; [reflexivity|]. unfold transfer_hysteresis_f. rewrite clamp_val by (assumption || lra). destruct (Rlt_dec _ _) as [G|G].
    - split; [exact Ft|]. split; [|replace (fval d + fval flat) with (fval d - - fval flat) by ring; exact Et]. rewrite Vt. pose proof (RN_le (fval d - - fval flat) 0 ltac:(lra)) as Q. rewrite RN_0 in Q. exact Q.
    - destruct (sub_self d Fd) as [S Z]. destruct (Rlt_dec _ _).
      + exfalso. lra.
      + split; [exact S|]. rewrite Z. split; [lra|]. assert (EQ : fval d = - fval flat) by lra. rewrite EQ. replace (0 - (- fval flat + fval flat)) with 0 by ring. rewrite Rabs_R0. apply bpow_ge_0. }
  destruct TR as (t & ET & FT & PT & AT). unfold r, hysteresis_step, one_pole_f. fold d. rewrite ET. clear ET r.
  assert (U : bpow radix2 (e - 24) = / 16777216 * E) by (replace (e - 24)%Z with (e + (-24))%Z by lia; rewrite pow_up; reflexivity). assert (U2 : bpow radix2 (e - 23) = 2 * (/ 16777216 * E)) by (rewrite <- U, <- pow_step; f_equal; lia).
  pose proof (bpow_gt_0 radix2 e) as EP. assert (SUM : Rabs (fval st + fval t) <= bpow radix2 (e + 1)). { rewrite pow_step. apply Rabs_le_inv in Bs, Bx, AT, Ed. rewrite U in *. apply Rabs_le. lra. }
  destruct (fadd_b st t Fs FT (le_127 (e + 1) _ ltac:(lia) SUM)) as [Fr Vr]. pose proof (RN_err (e + 1) _ ltac:(lia) SUM) as Er. replace (e + 1 - 25)%Z with (e - 24)%Z in Er by lia. split; [exact Fr|]. rewrite Vr. split; [|split].
  - apply Rabs_le_inv in Er, AT, Ed. apply Rabs_le. lra.
  - pose proof (RN_le (fval st + fval t) (fval st) ltac:(lra)) as Q. rewrite (RN_id (fval st)) in Q by (apply fval_in, Fs). exact Q.
  - intros HF. pose proof (RN_le (fval x) (fval st + fval t)) as Q. rewrite (RN_id (fval x)) in Q by (apply fval_in, Fx). apply Q. apply Rabs_le_inv in AT, Ed. rewrite U, U2 in *. lra.
Qed.
End Hyst.
(* any sequence of inputs: the state follows the last one and stays in range *)
Lemma hyst_run e n dv st xs x : (-100 <= e <= 120)%Z -> (0 <= n <= 2 ^ 24)%Z -> (1 <= dv <= 2 ^ 24)%Z -> bpow radix2 (e - 23) <= fval (hysteresis_flat n dv) ->
  finite_f32 st -> Rabs (fval st) <= bpow radix2 e -> Forall (fun y => finite_f32 y /\ Rabs (fval y) <= bpow radix2 e) (xs ++ [x]) ->
  let r := fold_left (hysteresis_step n dv) (xs ++ [x]) st in finite_f32 r /\ Rabs (fval r) <= bpow radix2 e /\ Rabs (fval r - fval x) <= fval (hysteresis_flat n dv) + 3 * bpow radix2 (e - 24).
Proof.
  intros He Hn Hd HF Fs Bs HA r. pose proof (bpow_ge_0 radix2 (e - 24)) as BP. assert (STEP : forall st y, finite_f32 st -> Rabs (fval st) <= bpow radix2 e -> finite_f32 y -> Rabs (fval y) <= bpow radix2 e -> let r := hysteresis_step n dv st y in finite_f32 r /\ Rabs (fval r) <= bpow radix2 e /\ Rabs (fval r - fval y) <= fval (hysteresis_flat n dv) + 3 * bpow radix2 (e - 24)).
  { clear - He Hn Hd HF BP. intros st y Fs Bs Fy By r. destruct (flat_b n dv Hn Hd) as [_ PF]. destruct (Rle_lt_dec (Rabs (fval y - fval st)) (fval (hysteresis_flat n dv))) as [C|C].
    - destruct (dead e n dv He Hn Hd st y Fs Fy Bs By C) as [F V]. split; [exact F|]. unfold r. rewrite V. split; [exact Bs|]. rewrite Rabs_minus_sym. lra.
    - destruct (Rle_lt_dec 0 (fval y - fval st)) as [P|P].
      + rewrite Rabs_pos_eq in C by lra. destruct (above e n dv He Hn Hd st y Fs Fy Bs By C) as (F & A & L & U). cbn zeta in *. fold r in F, A, L, U. specialize (U HF). split; [exact F|]. apply Rabs_le_inv in A, Bs, By. split; apply Rabs_le; lra.
      + rewrite Rabs_left in C by lra. destruct (below e n dv He Hn Hd st y Fs Fy Bs By ltac:(lra)) as (F & A & L & U). cbn zeta in *. fold r in F, A, L, U. specialize (U HF). split; [exact F|]. apply Rabs_le_inv in A, Bs, By. split; apply Rabs_le; lra. }
  unfold r. clear r. revert st Fs Bs. induction xs as [|y xs IH]; intros st Fs Bs; cbn in *.
  - inversion HA as [|? ? [Fx Bx] _]; subst. apply STEP; assumption.
  - inversion HA as [|? ? [Fy By] HR]; subst. destruct (STEP st y Fs Bs Fy By) as (F & B & _). apply (IH HR _ F B).
Qed.

Section Quad.
Variables (dv : Z).
Hypotheses (Hd : (1 <= dv <= 2 ^ 24)%Z).
Notation D := (IZR dv).
Notation u := (/ 16777216).
Lemma D_pos : 1 <= D <= 16777216. Proof. split; apply IZR_le; [lia|]. change 16777216%Z with (2 ^ 24)%Z. lia. Qed.
Lemma fact_b : finite_f32 (quadratic_fact dv) /\ fval (quadratic_fact dv) = RN (/ D) /\ 0 <= RN (/ D) <= 1 /\ / D * (1 - u) <= RN (/ D) <= / D * (1 + u).
Proof.
  destruct D_pos as [D1 D2]. destruct one_b as [F1 V1]. destruct (int_b dv ltac:(lia)) as [Fd Vd]. assert (I : 0 < / D <= 1) by (split; [apply Rinv_0_lt_compat; lra|rewrite <- Rinv_1; apply Rinv_le_contravar; lra]).
  destruct (fdiv_b _ _ F1 Fd) as [F V]; [rewrite Vd; lra|rewrite V1, Vd; apply (small_le_127 0); [lia|change (IZR (2 ^ 0)) with 1; unfold Rdiv; rewrite Rmult_1_l; apply Rabs_le; lra]|]. rewrite V1, Vd in V. unfold Rdiv in V. rewrite Rmult_1_l in V.
  split; [exact F|]. split; [exact V|]. split; [apply (RN_between (IZR 0) (IZR 1)); [apply in_int; lia|apply in_int; lia|lra]|].
  assert (G : bpow radix2 (-126) <= Rabs (/ D)). { rewrite Rabs_pos_eq by lra. apply Rle_trans with (bpow radix2 (-24)); [apply bpow_le; lia|]. change (bpow radix2 (-24)) with (/ 16777216). apply Rinv_le_contravar; lra. }
  pose proof (RN_rel _ G) as R. change (bpow radix2 (-24)) with u in R. rewrite (Rabs_pos_eq (/ D)) in R by lra. apply Rabs_le_inv in R. lra.
Qed.
Definition rq (t : R) : R := RN (RN (Rabs (RN t) * RN t) * RN (/ D)).
Lemma rq_opp t : rq (- t) = - rq t.
Proof. unfold rq. rewrite RN_opp, Rabs_Ropp, Ropp_mult_distr_r_reverse, RN_opp, Ropp_mult_distr_l_reverse, RN_opp. reflexivity. Qed.
Lemma rq_pos t : 0 <= t -> Rabs (RN t - t) <= u * t -> (t <= bpow radix2 (-125) -> RN t = t) -> t <= D * (1 - 16 * u) ->
  0 <= rq t <= t /\ Rabs (rq t - t * t / D) <= 6 * u * (t * t / D) + 3 * feta.
Proof.
  intros H0 HR HE HD. destruct D_pos as [D1 D2]. destruct fact_b as (_ & _ & [P0 P1] & Q1 & Q2). pose proof feta_pos as EP. pose proof feta_small as ES. assert (I : 0 < / D <= 1) by (split; [apply Rinv_0_lt_compat; lra|rewrite <- Rinv_1; apply Rinv_le_contravar; lra]).
  assert (Dp : 0 <= RN t). { pose proof (RN_le 0 t H0) as Q. rewrite RN_0 in Q. exact Q. } unfold rq. rewrite (Rabs_pos_eq (RN t)) by exact Dp. set (d := RN t) in *. set (f := RN (/ D)) in *.
  pose proof (RN_any (d * d)) as EA. rewrite fu_val, (Rabs_pos_eq (d * d)) in EA by (apply Rmult_le_pos; exact Dp). assert (Pp : 0 <= RN (d * d)). { pose proof (RN_le 0 (d * d) ltac:(apply Rmult_le_pos; exact Dp)) as Q. rewrite RN_0 in Q. exact Q. } set (p := RN (d * d)) in *.
  pose proof (RN_any (p * f)) as EB. rewrite fu_val, (Rabs_pos_eq (p * f)) in EB by (apply Rmult_le_pos; assumption). assert (Pr : 0 <= RN (p * f)). { pose proof (RN_le 0 (p * f) ltac:(apply Rmult_le_pos; assumption)) as Q. rewrite RN_0 in Q. exact Q. } set (r := RN (p * f)) in *.
  apply Rabs_le_inv in HR, EA, EB. set (W := t * t / D). assert (W0 : 0 <= t * t) by (apply Rmult_le_pos; exact H0). assert (WD : t * t * / D = W) by reflexivity.
  assert (A1 : t * t * ((1 - u) * (1 - u)) <= d * d <= t * t * ((1 + u) * (1 + u))).
  { split.
    - replace (t * t * ((1 - u) * (1 - u))) with ((t * (1 - u)) * (t * (1 - u))) by ring. assert (0 <= t * (1 - u)) by (apply Rmult_le_pos; lra). apply Rmult_le_compat; lra.
    - replace (t * t * ((1 + u) * (1 + u))) with ((t * (1 + u)) * (t * (1 + u))) by ring. apply Rmult_le_compat; lra. }
  assert (A2 : t * t * (1 - 31 / 10 * u) - feta <= p <= t * t * (1 + 31 / 10 * u) + feta) by (split; lra).
  assert (A3 : W * (1 - 42 / 10 * u) - 11 / 10 * feta <= p * f <= W * (1 + 42 / 10 * u) + 11 / 10 * feta).
  { split.
    - destruct (Rle_lt_dec (t * t * (1 - 31 / 10 * u) - feta) 0) as [N|N].
      + assert (0 <= p * f) by (apply Rmult_le_pos; assumption). assert (N2 : (t * t * (1 - 31 / 10 * u) - feta) * / D <= 0) by (rewrite <- (Rmult_0_l (/ D)); apply Rmult_le_compat_r; lra).
        replace ((t * t * (1 - 31 / 10 * u) - feta) * / D) with (W * (1 - 31 / 10 * u) - feta * / D) in N2 by (unfold W; field; lra). pose proof (Rmult_le_compat_l feta _ _ ltac:(lra) (proj2 I)). assert (0 <= W) by (unfold W; apply Rmult_le_pos; lra). lra.
      + apply Rle_trans with ((t * t * (1 - 31 / 10 * u) - feta) * (/ D * (1 - u))). 2: { apply Rmult_le_compat; try lra. }
        replace ((t * t * (1 - 31 / 10 * u) - feta) * (/ D * (1 - u))) with (W * ((1 - 31 / 10 * u) * (1 - u)) - feta * / D * (1 - u)) by (unfold W; field; lra). pose proof (Rmult_le_compat_l feta _ _ ltac:(lra) (proj2 I)). assert (0 <= feta * / D) by (apply Rmult_le_pos; lra). assert (0 <= W) by (unfold W; apply Rmult_le_pos; lra). lra.
    - apply Rle_trans with ((t * t * (1 + 31 / 10 * u) + feta) * (/ D * (1 + u))). { apply Rmult_le_compat; lra. }
      replace ((t * t * (1 + 31 / 10 * u) + feta) * (/ D * (1 + u))) with (W * ((1 + 31 / 10 * u) * (1 + u)) + feta * / D * (1 + u)) by (unfold W; field; lra). pose proof (Rmult_le_compat_l feta _ _ ltac:(lra) (proj2 I)). assert (0 <= W) by (unfold W; apply Rmult_le_pos; lra). lra. }
  assert (W1 : 0 <= W <= t * (1 - 16 * u)). { unfold W. split; [apply Rmult_le_pos; lra|]. unfold Rdiv. rewrite Rmult_assoc. apply Rmult_le_compat_l; [exact H0|]. apply Rmult_le_reg_r with D; [lra|]. rewrite Rmult_assoc, Rinv_l, Rmult_1_r by lra. lra. }
  split; [split; [exact Pr|]|apply Rabs_le; lra].
  destruct (Rle_lt_dec t (bpow radix2 (-125))) as [C|C].
  - specialize (HE C). assert (IT : in_f32 t) by (rewrite <- HE; apply RN_in). assert (T1 : t <= 1). { apply Rle_trans with (1 := C). change 1 with (bpow radix2 0). apply bpow_le. lia. }
    assert (PD : p <= t). { unfold p. rewrite HE. pose proof (RN_le (t * t) t) as Q. rewrite (RN_id t IT) in Q. apply Q. rewrite <- (Rmult_1_r t) at 3. apply Rmult_le_compat_l; lra. }
    unfold r. pose proof (RN_le (p * f) t) as Q. rewrite (RN_id t IT) in Q. apply Q. apply Rle_trans with (p * 1); [apply Rmult_le_compat_l; lra|lra].
  - assert (U : 3 * feta <= 9 * u * t). { assert (E2 : feta = / 2 * (u * bpow radix2 (-125))). { unfold feta. change (/ 2) with (bpow radix2 (-1)). change u with (bpow radix2 (-24)). rewrite <- !bpow_plus. f_equal. } lra. } lra.
Qed.
Variables (e : Z) (st x : f32).
Hypotheses (He : (-60 <= e <= 60)%Z) (Fs : finite_f32 st) (Fx : finite_f32 x) (Bs : Rabs (fval st) <= bpow radix2 e) (Bx : Rabs (fval x) <= bpow radix2 e)
  (HX : Rabs (fval x - fval st) <= D * (1 - 16 * u)).
Notation delta := (fval x - fval st).
Lemma rq_all : Rabs (rq delta) <= Rabs delta /\ (0 <= delta -> 0 <= rq delta) /\ (delta <= 0 -> rq delta <= 0) /\ Rabs (rq delta - Rabs delta * delta / D) <= 6 * u * (Rabs delta * Rabs delta / D) + 3 * feta.
Proof.
  pose proof (sub_rel _ _ (fval_in x (proj1 Fx)) (fval_in st (proj1 Fs))) as R. rewrite fu_val in R. pose proof (sub_exact_small _ _ (fval_in x (proj1 Fx)) (fval_in st (proj1 Fs))) as SX.
  destruct (Rle_lt_dec 0 delta) as [P|P].
  - rewrite (Rabs_pos_eq delta) in * by exact P. destruct (rq_pos delta P R ltac:(intros; apply RN_id; auto) HX) as [[A B] C]. split; [rewrite Rabs_pos_eq; lra|]. split; [auto|]. split; [intros; lra|exact C].
  - rewrite (Rabs_left delta) in * by exact P. destruct (rq_pos (- delta)) as [[A B] C]; [lra|rewrite RN_opp; replace (- RN delta - - delta) with (- (RN delta - delta)) by ring; rewrite Rabs_Ropp; exact R|intros; rewrite RN_opp, RN_id by auto; reflexivity|exact HX|].
    rewrite rq_opp in *. split; [rewrite Rabs_left1 by lra; lra|]. split; [intros; lra|]. split; [intros; lra|]. replace (rq delta - - delta * delta / D) with (- (- rq delta - - delta * - delta / D)) by (unfold Rdiv; ring). rewrite Rabs_Ropp. exact C.
Qed.
Lemma quad_step : let r := quadratic_step dv st x in
  finite_f32 r /\ Rabs (fval r - (fval st + Rabs delta * delta / D)) <= 13 * bpow radix2 (e - 24) /\ (fval st <= fval x -> fval st <= fval r <= fval x) /\ (fval x <= fval st -> fval x <= fval r <= fval st).
Proof.
  intros r. destruct D_pos as [D1 D2]. destruct rq_all as (Q1 & Q2 & Q3 & Q4). destruct fact_b as (Ff & Vf & [P0 P1] & _). assert (I : 0 < / D <= 1) by (split; [apply Rinv_0_lt_compat; lra|rewrite <- Rinv_1; apply Rinv_le_contravar; lra]).
  assert (B : Rabs delta <= bpow radix2 (e + 1)) by (rewrite pow_step; apply Rabs_le_inv in Bs, Bx; apply Rabs_le; lra).
  destruct (fsub_b x st Fx Fs (le_127 (e + 1) _ ltac:(lia) B)) as [Fd Vd]. pose proof (RN_le_pow (e + 1) _ ltac:(lia) B) as Bd. rewrite <- Vd in Bd. destruct (abs_b _ Fd) as [Fa Va].
  assert (Bp : Rabs (fval (SFabs (fsub x st)) * fval (fsub x st)) <= bpow radix2 (2 * e + 2)). { rewrite Va, Rabs_mult, Rabs_Rabsolu. replace (2 * e + 2)%Z with ((e + 1) + (e + 1))%Z by lia. rewrite bpow_plus. apply Rmult_le_compat; auto using Rabs_pos. }
  destruct (fmul_b _ _ Fa Fd (le_127 (2 * e + 2) _ ltac:(lia) Bp)) as [Fp Vp]. pose proof (RN_le_pow (2 * e + 2) _ ltac:(lia) Bp) as Bp'. rewrite <- Vp in Bp'.
  assert (Bt : Rabs (fval (fmul (SFabs (fsub x st)) (fsub x st)) * fval (quadratic_fact dv)) <= bpow radix2 (2 * e + 2)). { rewrite Vf, Rabs_mult, (Rabs_pos_eq (RN _)) by exact P0. apply Rle_trans with (bpow radix2 (2 * e + 2) * 1); [|lra]. apply Rmult_le_compat; auto using Rabs_pos. }
  destruct (fmul_b _ _ Fp Ff (le_127 (2 * e + 2) _ ltac:(lia) Bt)) as [Ft Vt]. rewrite Vp, Va, Vd, Vf in Vt. fold (rq delta) in Vt. fold (transfer_quadratic_f dv (fsub x st)) in Ft, Vt.
  assert (SUM : Rabs (fval st + rq delta) <= bpow radix2 e). { apply Rabs_le_inv in Bs, Bx. apply Rabs_le. destruct (Rle_lt_dec 0 delta) as [P|P]; [rewrite (Rabs_pos_eq delta) in Q1 by exact P|rewrite (Rabs_left delta) in Q1 by exact P]; apply Rabs_le_inv in Q1; [specialize (Q2 P)|specialize (Q3 (Rlt_le _ _ P))]; lra. }
  destruct (fadd_b st _ Fs Ft) as [Fr Vr]; [rewrite Vt; apply (le_127 e); [lia|exact SUM]|]. rewrite Vt in Vr. unfold r, quadratic_step, one_pole_f. split; [exact Fr|]. rewrite Vr. split; [|split].
  - pose proof (RN_err e _ ltac:(lia) SUM) as ER. assert (U : bpow radix2 (e - 24) = u * bpow radix2 e) by (replace (e - 24)%Z with (e + (-24))%Z by lia; rewrite pow_up; reflexivity). assert (U2 : 2 * bpow radix2 (e - 25) = u * bpow radix2 e) by (rewrite <- U, <- pow_step; f_equal; lia).
    assert (WB : Rabs delta * Rabs delta / D <= 2 * bpow radix2 e). { rewrite <- pow_step. apply Rle_trans with (2 := B). unfold Rdiv. rewrite Rmult_assoc. rewrite <- (Rmult_1_r (Rabs delta)) at 3. apply Rmult_le_compat_l; [apply Rabs_pos|]. apply Rmult_le_reg_r with D; [lra|]. rewrite Rmult_assoc, Rinv_l by lra. lra. }
    assert (EB : / 10 ^ 19 <= bpow radix2 e). { apply Rle_trans with (bpow radix2 (-60)); [|apply bpow_le; lia]. change (bpow radix2 (-60)) with (/ IZR (2 ^ 60)). apply Rinv_le_contravar; [apply IZR_lt; reflexivity|]. rewrite pow_IZR. apply IZR_le. vm_compute. discriminate. }
    pose proof feta_small. rewrite U. replace (RN (fval st + rq delta) - (fval st + Rabs delta * delta / D)) with ((RN (fval st + rq delta) - (fval st + rq delta)) + (rq delta - Rabs delta * delta / D)) by ring. apply Rle_trans with (1 := Rabs_triang _ _). lra.
  - intros L. apply RN_between; [apply fval_in, Fs|apply fval_in, Fx|]. rewrite (Rabs_pos_eq delta) in Q1 by lra. apply Rabs_le_inv in Q1. specialize (Q2 ltac:(lra)). lra.
  - intros L. apply RN_between; [apply fval_in, Fx|apply fval_in, Fs|]. rewrite (Rabs_left1 delta) in Q1 by lra. apply Rabs_le_inv in Q1. specialize (Q3 ltac:(lra)). lra.
Qed.
End Quad.
(* a small step is never taken, and a step of twice the divisor swings for ever *)
Lemma quad_stalls k : Nat.iter k (fun s => quadratic_step 64 s (f32_of 513 (-9))) f32_one = f32_one.
Proof. induction k as [|k IH]; [reflexivity|]. change (Nat.iter (S k) ?f ?y) with (f (Nat.iter k f y)). cbn beta. rewrite IH. vm_compute. reflexivity. Qed.
Lemma quad_swings k : let s := Nat.iter k (fun s => quadratic_step 64 s (f32_of_int 128)) f32_zero in s = f32_zero \/ s = f32_of_int 256.
Proof. cbn zeta. induction k as [|k IH]; [left; reflexivity|]. change (Nat.iter (S k) ?f ?y) with (f (Nat.iter k f y)). cbn beta. destruct IH as [-> | ->]; [right|left]; vm_compute; reflexivity. Qed.
