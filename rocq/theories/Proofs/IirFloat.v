(* AnalyzedSig's one pole filter in single precision. *)
From Coq Require Import ZArith Reals Lra Lia List Floats.SpecFloat.
From Flocq Require Import Core.
From Verif.Common Require Import Base F32 F32Order F32Real F32Arith F32Err.
From Verif.Model Require Import Calib MathFloat.
From Verif.Proofs Require Import MathFloat.
Import ListNotations.
Open Scope R_scope.

Notation u := (/ 16777216).
Notation iir := (iir_update fadd fsub fmul).
Section Iir.
Variables (e : Z) (cf : f32).
Hypotheses (He : (0 <= e <= 125)%Z) (Fc : finite_f32 cf) (Hc : 0 <= fval cf <= 1).
Notation c := (fval cf).
Notation E := (bpow radix2 e).
Lemma iir_acc st v : finite_f32 st -> finite_f32 v -> Rabs (fval st) <= E -> Rabs (fval v) <= E ->
  finite_f32 (iir cf st v) /\ Rabs (fval (iir cf st v) - (fval st + c * (fval v - fval st))) <= 3 * bpow radix2 (e - 24).
Proof.
  intros Fs Fv Bs Bv. change (iir cf st v) with (finterpolate3 st v cf). split; [apply (interp3_val e st v cf He Fs Fv Fc Bs Bv Hc)|apply (interp3_accurate e st v cf He Fs Fv Fc Bs Bv Hc)].
Qed.
(* the product of the coefficient and the rounded difference does not pass the difference *)
Lemma part_pos x y : in_f32 x -> in_f32 y -> c <= 1 - 4 * u -> 0 <= x - y -> 0 <= RN (c * RN (x - y)) <= x - y.
Proof.
  intros Hx Hy Hc4 H. pose proof (RN_le 0 _ H) as D0. rewrite RN_0 in D0. assert (P0 : 0 <= c * RN (x - y)) by (apply Rmult_le_pos; lra). split; [rewrite <- RN_0; apply RN_le; exact P0|].
  destruct (Rle_lt_dec (x - y) (bpow radix2 (-125))) as [S|S].
  - pose proof (sub_exact_small x y Hx Hy) as ES. rewrite Rabs_pos_eq in ES by exact H. specialize (ES S). rewrite (RN_id (x - y)) by exact ES. rewrite <- (RN_id (x - y) ES) at 2. apply RN_le. rewrite <- (Rmult_1_l (x - y)) at 2. apply Rmult_le_compat_r; lra.
  - pose proof (RN_rel (x - y)) as R1. rewrite (Rabs_pos_eq (x - y)) in R1 by exact H. specialize (R1 (Rle_trans _ _ _ (bpow_le radix2 (-126) (-125) ltac:(lia)) (Rlt_le _ _ S))). change (bpow radix2 (-24)) with u in R1. apply Rabs_le_inv in R1.
    assert (CM : c * RN (x - y) <= (1 - 4 * u) * ((1 + u) * (x - y))) by (apply Rmult_le_compat; lra).
    pose proof (RN_any (c * RN (x - y))) as R2. rewrite fu_val, (Rabs_pos_eq (c * RN (x - y))) in R2 by exact P0. apply Rabs_le_inv in R2.
    assert (EF : feta <= / 33554432 * (x - y)). { apply Rle_trans with (/ 33554432 * bpow radix2 (-125)); [|apply Rmult_le_compat_l; lra]. change (/ 33554432) with (bpow radix2 (-25)). rewrite <- bpow_plus. right. reflexivity. }
    lra.
Qed.
Lemma iir_between st v : finite_f32 st -> finite_f32 v -> Rabs (fval st) <= E -> Rabs (fval v) <= E -> c <= 1 - 4 * u ->
  (fval st <= fval v -> fval st <= fval (iir cf st v) <= fval v) /\ (fval v <= fval st -> fval v <= fval (iir cf st v) <= fval st).
Proof.
  intros Fs Fv Bs Bv Hc4. change (iir cf st v) with (finterpolate3 st v cf). destruct (interp3_val e st v cf He Fs Fv Fc Bs Bv Hc) as (_ & EV & _). rewrite EV. pose proof (fval_in st (proj1 Fs)) as Is. pose proof (fval_in v (proj1 Fv)) as Iv. split; intros H; apply RN_between; auto.
  - destruct (part_pos (fval v) (fval st) Iv Is Hc4 ltac:(lra)). lra.
  - destruct (part_pos (fval st) (fval v) Is Iv Hc4 ltac:(lra)). replace (fval v - fval st) with (- (fval st - fval v)) by ring. rewrite RN_opp. replace (c * - RN (fval st - fval v)) with (- (c * RN (fval st - fval v))) by ring. rewrite RN_opp. lra.
Qed.
Lemma iir_hull lo hi st xs : - E <= lo -> hi <= E -> c <= 1 - 4 * u -> finite_f32 st -> lo <= fval st <= hi -> Forall (fun y => finite_f32 y /\ lo <= fval y <= hi) xs ->
  finite_f32 (fold_left (iir cf) xs st) /\ lo <= fval (fold_left (iir cf) xs st) <= hi.
Proof.
  intros Hlo Hhi Hc4 Fs Hs HF. revert st Fs Hs. induction HF as [|y xs [Fy Hy] HF IH]; intros st Fs Hs; [cbn; auto|]. cbn [fold_left].
  assert (Bs : Rabs (fval st) <= E) by (apply Rabs_le; lra). assert (By : Rabs (fval y) <= E) by (apply Rabs_le; lra).
  apply IH; [apply (iir_acc st y); assumption|]. destruct (iir_between st y Fs Fy Bs By Hc4) as [A B]. destruct (Rle_lt_dec (fval st) (fval y)) as [L|L]; [specialize (A L)|specialize (B (Rlt_le _ _ L))]; lra.
Qed.
Lemma iir_conv st v k : c <= 1 - 4 * u -> 0 < c -> finite_f32 st -> finite_f32 v -> Rabs (fval st) <= E -> Rabs (fval v) <= E ->
  Rabs (fval (Nat.iter k (fun s => iir cf s v) st) - fval v) <= (1 - c) ^ k * Rabs (fval st - fval v) + 3 * bpow radix2 (e - 24) / c.
Proof.
  intros Hc4 Hc0 Fs Fv Bs Bv. pose proof (bpow_gt_0 radix2 (e - 24)) as BP. set (w := 3 * bpow radix2 (e - 24)) in *. assert (CW : c * (w / c) = w) by (field; lra).
  assert (W : 0 <= w / c) by (apply Rmult_le_pos; [unfold w; lra|left; apply Rinv_0_lt_compat; lra]).
  assert (H : finite_f32 (Nat.iter k (fun s => iir cf s v) st) /\ Rabs (fval (Nat.iter k (fun s => iir cf s v) st)) <= E /\ Rabs (fval (Nat.iter k (fun s => iir cf s v) st) - fval v) <= (1 - c) ^ k * Rabs (fval st - fval v) + w / c); [|apply H].
  induction k as [|k (IF & IB & IH)].
  - change (Nat.iter 0 (fun s => iir cf s v) st) with st. split; [exact Fs|]. split; [exact Bs|]. rewrite pow_O. lra.
  - change (Nat.iter (S k) (fun s => iir cf s v) st) with (iir cf (Nat.iter k (fun s => iir cf s v) st) v). set (q := Nat.iter k (fun s => iir cf s v) st) in *. destruct (iir_acc q v IF Fv IB Bv) as [F A]. fold w in A. split; [exact F|]. split.
    + destruct (iir_between q v IF Fv IB Bv Hc4) as [P N]. apply Rabs_le_inv in IB, Bv. apply Rabs_le. destruct (Rle_lt_dec (fval q) (fval v)) as [L|L]; [specialize (P L)|specialize (N (Rlt_le _ _ L))]; lra.
    + replace (fval (iir cf q v) - fval v) with ((fval (iir cf q v) - (fval q + c * (fval v - fval q))) + (1 - c) * (fval q - fval v)) by ring. apply Rle_trans with (1 := Rabs_triang _ _). rewrite Rabs_mult, (Rabs_pos_eq (1 - c)) by lra.
      apply Rle_trans with (w + (1 - c) * ((1 - c) ^ k * Rabs (fval st - fval v) + w / c)); [apply Rplus_le_compat; [exact A|apply Rmult_le_compat_l; [lra|exact IH]]|]. right. rewrite <- tech_pow_Rmult. transitivity (w - c * (w / c) + ((1 - c) * (1 - c) ^ k * Rabs (fval st - fval v) + w / c)); [ring|]. rewrite CW. ring.
Qed.
End Iir.
(* AnalyzedSignal<n>, analyzed_signal.hh lines 37-39 *)
Lemma recip n : (2 <= n <= 2 ^ 24)%Z -> let cf := fdiv f32_one (f32_of_int n) in finite_f32 cf /\ 0 < fval cf <= / 2 /\ Rabs (fval cf - / IZR n) <= u * / IZR n.
Proof.
  intros Hn cf. destruct (int_b n ltac:(lia)) as [Fn Vn]. destruct (int_b 1 ltac:(lia)) as [F1 V1]. assert (N2 : 2 <= IZR n) by (apply IZR_le; lia). assert (N3 : IZR n <= IZR (2 ^ 24)) by (apply IZR_le; lia).
  assert (I0 : 0 < / IZR n) by (apply Rinv_0_lt_compat; lra). assert (I1 : / IZR n <= / 2) by (apply Rinv_le_contravar; lra). assert (I2 : u <= / IZR n) by (change 16777216 with (IZR (2 ^ 24)); apply Rinv_le_contravar; lra).
  assert (Q : fval f32_one / fval (f32_of_int n) = / IZR n). { unfold f32_one. rewrite Vn, V1. unfold Rdiv. apply Rmult_1_l. }
  destruct (fdiv_b f32_one (f32_of_int n) F1 Fn) as [F V]; [rewrite Vn; lra|rewrite Q; apply (le_127 0); [lia|]; change (bpow radix2 0) with 1; apply Rabs_le; lra|]. rewrite Q in V. fold cf in F, V. split; [exact F|]. rewrite V.
  pose proof (RN_rel (/ IZR n)) as R. rewrite (Rabs_pos_eq (/ IZR n)) in R by lra. specialize (R (Rle_trans _ _ _ (bpow_le radix2 (-126) (-24) ltac:(lia)) I2)). change (bpow radix2 (-24)) with u in R. split; [|exact R]. split.
  - apply Rabs_le_inv in R. lra.
  - change (/ 2) with (bpow radix2 (-1)). rewrite <- (RN_id (bpow radix2 (-1))) by (apply in_pow; lia). apply RN_le. exact I1.
Qed.
Lemma iir_stalls k : Nat.iter k (fun s => iir (fdiv f32_one (f32_of_int 64)) s (f32_of (2 ^ 20 + 1) (-20))) f32_one = f32_one.
Proof. induction k as [|k IH]; [reflexivity|]. change (Nat.iter (S k) ?f ?x) with (f (Nat.iter k f x)). cbn beta. rewrite IH. vm_compute. reflexivity. Qed.
Lemma iir_one : iir (fdiv f32_one (f32_of_int 1)) f32_one (f32_of 1 (-30)) = f32_zero.
Proof. vm_compute. reflexivity. Qed.
