(* faster_sine against the sine (C120). *)
From Coq Require Import ZArith Reals Lra Lia Floats.SpecFloat.
From Flocq Require Import Core.
From Verif.Common Require Import Base F32 F32Order F32Real F32Arith.
From Verif.Model Require Import MathFloat.
From Verif.Proofs Require Import MathFloat Trig.
Open Scope R_scope.

Lemma arc_close v : -(1/2) <= v <= 1/2 -> -(3/100) <= 1 - 4 * (v * v) - cos (PI * v) <= 59/1000.
Proof.
  intros Hv. pose proof PI_bounds as HP.
  assert (HA : - PI / 2 <= PI * v <= PI / 2) by (split; nra).
  destruct (cos_bound (PI * v) 1 ltac:(lra) ltac:(lra)) as [L _]. destruct (cos_bound (PI * v) 0 ltac:(lra) ltac:(lra)) as [_ U].
  unfold cos_approx, cos_term in L, U. cbn in L, U.
  set (w := v * v). assert (Hw : 0 <= w <= 1/4) by (unfold w; nra).
  set (p := PI * PI). assert (Hp : 9869/1000 <= p <= 98697/10000) by (unfold p; nra).
  assert (L' : 1 - p * w / 2 + p * p * (w * w) / 24 - p * p * p * (w * w * w) / 720 <= cos (PI * v)).
  { eapply Rle_trans; [|exact L]. unfold p, w. right. field. }
  assert (U' : cos (PI * v) <= 1 - p * w / 2 + p * p * (w * w) / 24).
  { eapply Rle_trans; [exact U|]. unfold p, w. right. field. }
  clear L U HA. clearbody p.
  assert (P1 : 9869/1000 * w <= p * w <= 98697/10000 * w) by (split; apply Rmult_le_compat_r; lra).
  assert (PP : 97397/1000 <= p * p <= 974110/10000) by (split; nra).
  assert (P2 : 97397/1000 * (w * w) <= p * p * (w * w) <= 974110/10000 * (w * w)) by (split; apply Rmult_le_compat_r; nra).
  assert (PPP : 0 <= p * p * p <= 96142/100) by (split; nra).
  assert (W3 : 0 <= w * w * w <= w * w / 4) by (split; nra).
  assert (P3 : p * p * p * (w * w * w) <= 96142/100 * (w * w / 4)) by (apply Rmult_le_compat; lra).
  assert (Q1 : w * w <= w / 4) by nra. assert (Q2 : 0 <= w * w - 2 * (1255/10000) * w + 1255/10000 * (1255/10000)) by (pose proof (Rle_0_sqr (w - 1255/10000)) as Q; unfold Rsqr in Q; lra).
  split; lra.
Qed.
Lemma sine_close x : finite_f32 x -> 0 <= fval x <= 1 -> Rabs (fval (faster_sine x) + sin (2 * PI * fval x)) <= 6 / 100.
Proof.
  intros Hx Bx. pose proof (sine_accurate x Hx Bx) as A. cbn zeta in A. set (t := 2 * fval x - 1) in *.
  change (bpow radix2 (-24)) with (/ 16777216) in A. apply Rabs_le_inv in A.
  assert (E : sin (2 * PI * fval x) = - sin (PI * t)).
  { replace (2 * PI * fval x) with (PI * t + PI) by (unfold t; ring). apply neg_sin. }
  rewrite E. apply Rabs_le. destruct (Rle_dec 0 t) as [Ht|Ht].
  - rewrite (Rabs_pos_eq t) in A by lra.
    assert (S : sin (PI * t) = cos (PI * (t - 1/2))).
    { rewrite cos_sin. replace (PI / 2 + PI * (t - 1 / 2)) with (PI * t) by field. reflexivity. }
    pose proof (arc_close (t - 1/2) ltac:(unfold t in *; lra)) as C. rewrite <- S in C. 
    replace (1 - 4 * ((t - 1 / 2) * (t - 1 / 2))) with (4 * (t - t * t)) in C by field. lra.
  - rewrite (Rabs_left t) in A by lra.
    assert (S : - sin (PI * t) = cos (PI * (t + 1/2))).
    { rewrite cos_sin. replace (PI / 2 + PI * (t + 1 / 2)) with (PI * t + PI) by field. symmetry. apply neg_sin. }
    pose proof (arc_close (t + 1/2) ltac:(unfold t in *; lra)) as C. rewrite <- S in C.
    replace (1 - 4 * ((t + 1 / 2) * (t + 1 / 2))) with (- (4 * (t - t * - t))) in C by field. lra.
Qed.
