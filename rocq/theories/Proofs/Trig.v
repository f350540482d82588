(* Facts about the real sine: bounds on PI, Lipschitz, Taylor bounds, linear interpolation. *)
From Coq Require Import Reals Lra Lia ZArith List Machin Rtrigo_alt Rtrigo_calc Psatz.
Import ListNotations.
Open Scope R_scope.

Lemma PI_bounds : 31415926535 / 10000000000 <= PI <= 31415926537 / 10000000000.
Proof.
  pose proof (PI_2_3_7_ineq 5) as [L _]. pose proof (PI_2_3_7_ineq 5) as [_ U]. unfold PI_2_3_7_tg, tg_alt, Ratan_seq in L, U. cbn [Nat.mul Nat.add sum_f_R0] in L, U. cbn [pow INR Nat.mul Nat.add] in L, U. split; lra.
Qed.

Lemma sin_abs_le x : Rabs (sin x) <= Rabs x.
Proof.
  assert (P : forall y, 0 <= y -> Rabs (sin y) <= y).
  { intros y Hy. destruct (Rle_or_lt y 1) as [H1|H1].
    - destruct Hy as [Hy|<-]; [|rewrite sin_0, Rabs_R0; lra]. pose proof PI_bounds. assert (0 <= sin y) by (apply sin_ge_0; lra). rewrite Rabs_right by lra. left. now apply sin_lt_x.
    - pose proof (SIN_bound y). apply Rabs_le. lra. }
  destruct (Rle_or_lt 0 x) as [H|H].
  - rewrite (Rabs_right x) by lra. apply P; lra.
  - rewrite <- Rabs_Ropp, <- sin_neg, (Rabs_left x) by lra. apply P; lra.
Qed.
Lemma sin_lip a b : Rabs (sin a - sin b) <= Rabs (a - b).
Proof.
  rewrite form4. rewrite !Rabs_mult. rewrite (Rabs_right 2) by lra. pose proof (sin_abs_le ((a - b) / 2)) as S.
  assert (C : Rabs (cos ((a + b) / 2)) <= 1) by (apply Rabs_le; apply COS_bound). replace (Rabs (a - b)) with (2 * 1 * Rabs ((a - b) / 2)).
  - apply Rmult_le_compat; [|apply Rabs_pos|nra|exact S]. pose proof (Rabs_pos (cos ((a + b) / 2))). lra.
  - unfold Rdiv. rewrite Rabs_mult, (Rabs_right (/ 2)) by lra. field.
Qed.
Lemma sin_periodZ x k : sin (x + 2 * PI * IZR k) = sin x.
Proof.
  destruct (Z_le_gt_dec 0 k) as [H|H].
  - rewrite <- (Z2Nat.id k) by lia. rewrite <- INR_IZR_INZ. rewrite <- (sin_period x (Z.to_nat k)). f_equal. ring.
  - rewrite <- (sin_period (x + 2 * PI * IZR k) (Z.to_nat (- k))). f_equal. rewrite INR_IZR_INZ, Z2Nat.id by lia. rewrite opp_IZR. ring.
Qed.

(* the first Taylor polynomials *)
Lemma sin_small u : 0 <= u <= 3 -> u - u ^ 3 / 6 <= sin u <= u.
Proof.
  intros H. split.
  - pose proof PI_bounds. destruct (sin_bound u 0) as [L _]; try lra. unfold sin_approx, sin_term in L. cbn in L. lra.
  - destruct H as [H _]. pose proof (sin_abs_le u) as A. rewrite (Rabs_right u) in A by lra. pose proof (Rle_abs (sin u)). lra.
Qed.
Lemma cos_small u : 0 <= u <= 1 -> 1 - u ^ 2 / 2 <= cos u <= 1 - u ^ 2 / 2 + u ^ 4 / 24.
Proof.
  intros H. pose proof PI_bounds. destruct (cos_bound u 0) as [L U]; try lra. unfold cos_approx, cos_term in L, U. cbn in L, U. lra.
Qed.

Lemma part_le u v : 0 <= u <= 1 -> 0 <= v -> 0 <= u * v <= v.
Proof. intros. split; [apply Rmult_le_pos; lra|]. rewrite <- (Rmult_1_l v) at 2. apply Rmult_le_compat_r; lra. Qed.

(* linear interpolation of the sine over a step of length h *)
Lemma interp_curve h a t : 0 <= h <= 1 -> 0 <= t <= 1 ->
  Rabs ((1 - t) * sin a + t * sin (a + h) - sin (a + t * h)) <= h ^ 2 / 8 + h ^ 3 / 6 + h ^ 4 / 24.
Proof.
  intros Hh Ht. rewrite !sin_plus.
  replace ((1 - t) * sin a + t * (sin a * cos h + cos a * sin h) - (sin a * cos (t * h) + cos a * sin (t * h)))
    with (sin a * ((1 - t) + t * cos h - cos (t * h)) + cos a * (t * sin h - sin (t * h))) by ring.
  assert (Hth : 0 <= t * h <= h) by nra.
  pose proof (cos_small h Hh) as Ch. pose proof (cos_small (t * h) ltac:(lra)) as Ct. pose proof (sin_small h ltac:(lra)) as Sh. pose proof (sin_small (t * h) ltac:(lra)) as St.
  assert (H2 : 0 <= h ^ 2) by nra. assert (H3 : 0 <= h ^ 3) by (apply pow_le; lra). assert (H4 : 0 <= h ^ 4) by (apply pow_le; lra).
  assert (T3 : 0 <= t ^ 3 <= 1) by (split; [apply pow_le; lra|]; replace 1 with (1 ^ 3) by ring; apply pow_incr; lra).
  assert (T4 : 0 <= t ^ 4 <= 1) by (split; [apply pow_le; lra|]; replace 1 with (1 ^ 4) by ring; apply pow_incr; lra).
  assert (A : Rabs ((1 - t) + t * cos h - cos (t * h)) <= h ^ 2 / 8 + h ^ 4 / 24).
  { apply Rabs_le. replace ((t * h) ^ 2) with (t ^ 2 * h ^ 2) in Ct by ring. replace ((t * h) ^ 4) with (t ^ 4 * h ^ 4) in Ct by ring.
    assert (Q : 0 <= (t - t ^ 2) * h ^ 2 <= h ^ 2 / 4). { assert (Hq : 0 <= t - t ^ 2 <= / 4) by (clear - Ht; split; [nra|]; replace (t - t ^ 2) with (/ 4 - Rsqr (t - / 2)) by (unfold Rsqr; field); pose proof (Rle_0_sqr (t - / 2)); lra). destruct Hq as [Hq0 Hq]. split; [apply Rmult_le_pos; lra|]. pose proof (Rmult_le_compat_r _ _ _ H2 Hq). lra. }
    pose proof (part_le _ _ T4 H4) as Q4. assert (tL : t * (1 - h ^ 2 / 2) <= t * cos h <= t * (1 - h ^ 2 / 2 + h ^ 4 / 24)) by (split; apply Rmult_le_compat_l; lra).
    pose proof (part_le _ _ Ht H4) as Q1. split; lra. }
  assert (B : Rabs (t * sin h - sin (t * h)) <= h ^ 3 / 6).
  { apply Rabs_le. replace ((t * h) ^ 3) with (t ^ 3 * h ^ 3) in St by ring. assert (t * (h - h ^ 3 / 6) <= t * sin h <= t * h) by (split; apply Rmult_le_compat_l; lra).
    pose proof (part_le _ _ T3 H3) as Q3. pose proof (part_le _ _ Ht H3) as Q1. split; lra. }
  eapply Rle_trans; [apply Rabs_triang|]. rewrite !Rabs_mult.
  assert (SA : Rabs (sin a) <= 1) by (apply Rabs_le; apply SIN_bound). assert (CA : Rabs (cos a) <= 1) by (apply Rabs_le; apply COS_bound).
  pose proof (Rabs_pos (sin a)). pose proof (Rabs_pos (cos a)). pose proof (Rabs_pos ((1 - t) + t * cos h - cos (t * h))). pose proof (Rabs_pos (t * sin h - sin (t * h))).
  assert (Rabs (sin a) * Rabs (1 - t + t * cos h - cos (t * h)) <= 1 * (h ^ 2 / 8 + h ^ 4 / 24)) by (apply Rmult_le_compat; auto).
  assert (Rabs (cos a) * Rabs (t * sin h - sin (t * h)) <= 1 * (h ^ 3 / 6)) by (apply Rmult_le_compat; auto). lra.
Qed.

(* Taylor polynomials in nested form, and the same over the integers with a = x / D *)
Fixpoint nest (s : R) (ds : list Z) : R := match ds with [] => 1 | d :: r => 1 - s / IZR d * nest s r end.
Fixpoint nestZ (s q : Z) (ds : list Z) : Z * Z :=
  match ds with [] => (1, 1)%Z | d :: r => let '(n, m) := nestZ s q r in let m' := (q * d * m)%Z in ((m' - s * n)%Z, m') end.
Lemma nestZ_ok x D ds : (0 < D)%Z -> List.Forall (fun d => (0 < d)%Z) ds ->
  let '(n, m) := nestZ (x * x) (D * D) ds in (0 < m)%Z /\ nest ((IZR x / IZR D) * (IZR x / IZR D)) ds = IZR n / IZR m.
Proof.
  intros HD. induction 1 as [|d r Hd Hr IH]; cbn [nestZ nest]; [split; [lia|field]|].
  destruct (nestZ (x * x) (D * D) r) as [n m]. destruct IH as [Hm IH]. split; [nia|]. rewrite IH. rewrite minus_IZR, !mult_IZR.
  assert (IZR D <> 0) by (apply IZR_neq; lia). assert (IZR d <> 0) by (apply IZR_neq; lia). assert (IZR m <> 0) by (apply IZR_neq; lia). field. auto.
Qed.
Definition d_lo := [6; 20; 42; 72; 110]%Z.
Definition d_hi := [6; 20; 42; 72; 110; 156]%Z.
Lemma fact_INR_S n : INR (fact (S n)) = INR (S n) * INR (fact n).
Proof. rewrite fact_simpl, mult_INR. reflexivity. Qed.
Lemma sin_taylor a : 0 <= a <= PI -> a * nest (a * a) d_lo <= sin a <= a * nest (a * a) d_hi.
Proof.
  intros H. pose proof (sin_bound a 2 (proj1 H) (proj2 H)) as B. unfold sin_approx, sin_term in B. cbn [Nat.mul Nat.add sum_f_R0] in B.
  rewrite !fact_INR_S in B. change (fact 0) with 1%nat in B. cbn [INR] in B. cbn [nest d_lo d_hi]. 
  match type of B with ?l <= _ <= ?u => replace (a * _) with l by field; replace (a * (1 - a * a / 6 * _)) with u by field end. exact B.
Qed.
