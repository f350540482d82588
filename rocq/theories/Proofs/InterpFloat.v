(* InterpParam in single precision. *)
From Coq Require Import ZArith Reals Lra Lia Floats.SpecFloat.
From Flocq Require Import Core.
From Verif.Common Require Import Base F32 F32Order F32Real F32Arith F32Err.
From Verif.Model Require Import Interp.
From Verif.Proofs Require Import MathFloat.
Open Scope R_scope.

Definition fip_after (N : Z) (p : iparam) (v : f32) (k : nat) : f32 :=
  ip_cur (Nat.iter k (fun q => fst (ip_next fadd q)) (ip_set fsub fdiv f32_of_int N p v)).
Lemma iter_cur k p : let q := Nat.iter k (fun q => fst (ip_next fadd q)) p in ip_step q = ip_step p /\ ip_cur q = Nat.iter k (fun c => fadd c (ip_step p)) (ip_cur p).
Proof.
  induction k as [|k IH]; [auto|]. cbn zeta in *. change (Nat.iter (S k) ?f p) with (f (Nat.iter k f p)). change (Nat.iter (S k) ?f (ip_cur p)) with (f (Nat.iter k f (ip_cur p))). cbn beta. destruct IH as [A B].
  set (q := Nat.iter k _ p) in *. unfold ip_next. cbn [fst ip_cur ip_step]. rewrite A, B. auto.
Qed.

Lemma pow_scale e j : bpow radix2 (e + j) = bpow radix2 j * bpow radix2 e.
Proof. rewrite bpow_plus. apply Rmult_comm. Qed.

Section Ramp.
Variables (e N : Z) (c v : f32).
Hypotheses (He : (-60 <= e <= 120)%Z) (HN : (1 <= N <= 2 ^ 22)%Z) (Fc : finite_f32 c) (Fv : finite_f32 v)
  (Bc : Rabs (fval c) <= bpow radix2 e) (Bv : Rabs (fval v) <= bpow radix2 e).
Notation E := (bpow radix2 e).
Notation u := (bpow radix2 (-24)).
Let d := fsub v c.
Let step := fdiv d (f32_of_int N).

Lemma E_u : bpow radix2 (e + 1 - 25) = / 16777216 * E. Proof. replace (e + 1 - 25)%Z with (e + (-24))%Z by lia. rewrite pow_scale. reflexivity. Qed.
Lemma E_pos : 0 < E. Proof. apply bpow_gt_0. Qed.
Lemma E_big : / 10 ^ 19 <= E.
Proof. apply Rle_trans with (bpow radix2 (-60)); [|apply bpow_le; lia]. change (bpow radix2 (-60)) with (/ IZR (2 ^ 60)). apply Rinv_le_contravar; [apply IZR_lt; reflexivity|]. rewrite pow_IZR. apply IZR_le. vm_compute. discriminate. Qed.
Lemma N_pos : 1 <= IZR N <= 4194304. Proof. split; apply IZR_le; [lia|]. change 4194304%Z with (2 ^ 22)%Z. lia. Qed.
Lemma d_val : finite_f32 d /\ fval d = RN (fval v - fval c) /\ Rabs (fval d) <= 2 * E /\ Rabs (fval d - (fval v - fval c)) <= / 16777216 * E.
Proof.
  assert (B : Rabs (fval v - fval c) <= bpow radix2 (e + 1)). { rewrite pow_step. apply Rabs_le_inv in Bc, Bv. apply Rabs_le. lra. }
  destruct (fsub_b v c Fv Fc (le_127 (e + 1) _ ltac:(lia) B)) as [F V]. split; [exact F|]. split; [exact V|]. unfold d. rewrite V. split.
  - rewrite <- pow_step. apply RN_le_pow; [lia|exact B].
  - rewrite <- E_u. apply RN_err; [lia|exact B].
Qed.
Lemma step_val : finite_f32 step /\ fval step = RN (fval d / IZR N) /\ Rabs (fval step - (fval v - fval c) / IZR N) <= (3 * (/ 16777216 * E)) / IZR N + feta.
Proof.
  destruct d_val as (Fd & Vd & Bd & Ed). destruct N_pos as [N1 N2]. destruct (int_b N ltac:(lia)) as [FN VN].
  assert (IN : 0 < / IZR N <= 1). { split; [apply Rinv_0_lt_compat; lra|]. rewrite <- Rinv_1. apply Rinv_le_contravar; lra. }
  assert (BQ : Rabs (fval d / IZR N) <= 2 * E * / IZR N). { unfold Rdiv. rewrite Rabs_mult, (Rabs_pos_eq (/ IZR N)) by lra. apply Rmult_le_compat_r; lra. }
  assert (BQ' : 2 * E * / IZR N <= bpow radix2 (e + 1)). { rewrite pow_step. pose proof E_pos. pose proof (Rmult_le_compat_l (2 * E) (/ IZR N) 1 ltac:(lra) ltac:(lra)). lra. }
  destruct (fdiv_b d (f32_of_int N) Fd FN) as [F V]; [rewrite VN; lra|rewrite VN; apply (le_127 (e + 1)); [lia|lra]|]. rewrite VN in V. split; [exact F|]. split; [exact V|]. unfold step. rewrite V.
  pose proof (RN_any (fval d / IZR N)) as G. rewrite fu_val in G.
  replace (RN (fval d / IZR N) - (fval v - fval c) / IZR N) with ((RN (fval d / IZR N) - fval d / IZR N) + (fval d - (fval v - fval c)) * / IZR N) by (unfold Rdiv; ring).
  apply Rle_trans with (1 := Rabs_triang _ _). rewrite (Rabs_mult (_ - (_ - _))), (Rabs_pos_eq (/ IZR N)) by lra.
  assert (G2 : Rabs (fval d - (fval v - fval c)) * / IZR N <= / 16777216 * E * / IZR N) by (apply Rmult_le_compat_r; lra). unfold Rdiv. unfold Rdiv in G. unfold Rdiv in BQ. lra.
Qed.
Definition ideal (k : nat) : R := fval c + INR k * ((fval v - fval c) / IZR N).
Lemma ideal_in k : (Z.of_nat k <= N)%Z -> Rabs (ideal k) <= E.
Proof.
  intros Hk. unfold ideal. destruct N_pos as [N1 N2]. assert (T : 0 <= INR k / IZR N <= 1).
  { rewrite INR_IZR_INZ. split; [apply Rmult_le_pos; [apply IZR_le; lia|apply Rlt_le, Rinv_0_lt_compat; lra]|]. apply Rmult_le_reg_r with (IZR N); [lra|]. unfold Rdiv. rewrite Rmult_assoc, Rinv_l, Rmult_1_r, Rmult_1_l by lra. apply IZR_le. lia. }
  replace (fval c + INR k * ((fval v - fval c) / IZR N)) with (fval c * (1 - INR k / IZR N) + fval v * (INR k / IZR N)) by (unfold Rdiv; ring). set (t := INR k / IZR N) in *.
  apply Rle_trans with (1 := Rabs_triang _ _). rewrite !Rabs_mult, (Rabs_pos_eq (1 - t)), (Rabs_pos_eq t) by lra. pose proof (Rmult_le_compat_r (1 - t) _ _ ltac:(lra) Bc). pose proof (Rmult_le_compat_r t _ _ ltac:(lra) Bv). lra.
Qed.
Lemma ramp k : (Z.of_nat k <= N)%Z -> let r := Nat.iter k (fun c => fadd c step) c in finite_f32 r /\ Rabs (fval r - ideal k) <= INR k * (/ 16777216 * E) + INR k * (3 * (/ 16777216 * E) / IZR N + feta).
Proof.
  intros Hk. destruct step_val as (Fs & Vs & Es). destruct N_pos as [N1 N2]. pose proof E_pos as EP. pose proof E_big as EB. pose proof feta_small as ES. pose proof feta_pos as EQ.
  induction k as [|k IH].
  - cbn. split; [exact Fc|]. unfold ideal. cbn. rewrite !Rmult_0_l, !Rplus_0_r, Rminus_diag_eq by reflexivity. rewrite Rabs_R0. lra.
  - specialize (IH ltac:(lia)). cbn zeta in *. change (Nat.iter (S k) (fun c => fadd c step) c) with (fadd (Nat.iter k (fun c => fadd c step) c) step). set (r := Nat.iter k (fun c => fadd c step) c) in *. destruct IH as [Fr Er].
    assert (SP : ideal (S k) = ideal k + (fval v - fval c) / IZR N) by (unfold ideal; rewrite S_INR; ring).
    assert (K : 0 <= INR k <= IZR N - 1). { rewrite INR_IZR_INZ, <- minus_IZR. split; apply IZR_le; lia. }
    set (w := 3 * (/ 16777216 * E) / IZR N + feta) in *.
    assert (A : Rabs (fval r + fval step - ideal (S k)) <= INR k * (/ 16777216 * E) + (INR k + 1) * w).
    { rewrite SP. replace (fval r + fval step - (ideal k + (fval v - fval c) / IZR N)) with ((fval r - ideal k) + (fval step - (fval v - fval c) / IZR N)) by ring. apply Rle_trans with (1 := Rabs_triang _ _). lra. }
    assert (W : (INR k + 1) * w <= 3 * (/ 16777216 * E) + 4194304 * feta).
    { apply Rle_trans with (IZR N * w). { apply Rmult_le_compat_r; [|lra]. unfold w. apply Rplus_le_le_0_compat; [|lra]. apply Rmult_le_pos; [lra|apply Rlt_le, Rinv_0_lt_compat; lra]. }
      unfold w. replace (IZR N * (3 * (/ 16777216 * E) / IZR N + feta)) with (3 * (/ 16777216 * E) + IZR N * feta) by (field; lra). apply Rplus_le_compat_l, Rmult_le_compat_r; lra. }
    assert (KE : INR k * (/ 16777216 * E) <= 4194304 * (/ 16777216 * E)) by (apply Rmult_le_compat_r; lra).
    assert (B : Rabs (fval r + fval step) <= bpow radix2 (e + 1)).
    { rewrite pow_step. pose proof (ideal_in (S k) Hk) as I. apply Rabs_le_inv in A, I. apply Rabs_le. lra. }
    destruct (fadd_b r step Fr Fs (le_127 (e + 1) _ ltac:(lia) B)) as [F V]. split; [exact F|]. rewrite V.
    pose proof (RN_err (e + 1) _ ltac:(lia) B) as G. rewrite E_u in G. rewrite S_INR.
    replace (RN (fval r + fval step) - ideal (S k)) with ((RN (fval r + fval step) - (fval r + fval step)) + (fval r + fval step - ideal (S k))) by ring.
    apply Rle_trans with (1 := Rabs_triang _ _). lra.
Qed.
Lemma ramp_bound k : (Z.of_nat k <= N)%Z -> let r := Nat.iter k (fun c => fadd c step) c in finite_f32 r /\ Rabs (fval r - ideal k) <= (INR k + 4) * bpow radix2 (e - 24).
Proof.
  intros Hk r. destruct (ramp k Hk) as [F A]. split; [exact F|]. replace (e - 24)%Z with (e + 1 - 25)%Z by lia. rewrite E_u. pose proof E_pos as EP. pose proof E_big as EB. pose proof feta_small as ES. pose proof feta_pos as EQ. destruct N_pos as [N1 N2].
  assert (W : INR k * (3 * (/ 16777216 * E) / IZR N + feta) <= 3 * (/ 16777216 * E) + 4194304 * feta).
  { apply Rle_trans with (IZR N * (3 * (/ 16777216 * E) / IZR N + feta)). { apply Rmult_le_compat_r. { apply Rplus_le_le_0_compat; [|lra]. apply Rmult_le_pos; [lra|apply Rlt_le, Rinv_0_lt_compat; lra]. } rewrite INR_IZR_INZ. apply IZR_le. lia. }
    replace (IZR N * (3 * (/ 16777216 * E) / IZR N + feta)) with (3 * (/ 16777216 * E) + IZR N * feta) by (field; lra). apply Rplus_le_compat_l, Rmult_le_compat_r; lra. }
  assert (S : 4194304 * feta <= / 16777216 * E) by lra. apply Rle_trans with (1 := A). lra.
Qed.
(* the outputs go one way *)
Lemma step_sign : (fval c <= fval v -> 0 <= fval step) /\ (fval v <= fval c -> fval step <= 0).
Proof.
  destruct d_val as (Fd & Vd & _). destruct step_val as (Fs & Vs & _). destruct N_pos as [N1 N2]. assert (0 < / IZR N) by (apply Rinv_0_lt_compat; lra). rewrite Vs, Vd. split; intros H0.
  - pose proof (RN_le 0 (fval v - fval c) ltac:(lra)) as Q. rewrite RN_0 in Q. pose proof (RN_le 0 (RN (fval v - fval c) / IZR N)) as Q2. rewrite RN_0 in Q2. apply Q2. apply Rmult_le_pos; lra.
  - pose proof (RN_le (fval v - fval c) 0 ltac:(lra)) as Q. rewrite RN_0 in Q. pose proof (RN_le (RN (fval v - fval c) / IZR N) 0) as Q2. rewrite RN_0 in Q2. apply Q2. unfold Rdiv. rewrite <- (Rmult_0_l (/ IZR N)). apply Rmult_le_compat_r; lra.
Qed.
Lemma ramp_monotone k : (Z.of_nat (S k) <= N)%Z -> let r j := Nat.iter j (fun c => fadd c step) c in
  (fval c <= fval v -> fval (r k) <= fval (r (S k))) /\ (fval v <= fval c -> fval (r (S k)) <= fval (r k)).
Proof.
  intros Hk r. destruct (ramp_bound k ltac:(lia)) as [Fr Er]. cbn zeta in Fr, Er. destruct step_val as (Fs & Vs & Es). 
  destruct (ramp_bound (S k) Hk) as [Fr' _]. cbn zeta in Fr'. change (Nat.iter (S k) (fun c => fadd c step) c) with (fadd (Nat.iter k (fun c => fadd c step) c) step) in Fr'. change (r (S k)) with (fadd (r k) step). unfold r.
  set (q := Nat.iter k (fun c => fadd c step) c) in *. 
  assert (B : Rabs (fval q + fval step) <= bpow radix2 (e + 2)).
  { pose proof (ideal_in k ltac:(lia)) as I. pose proof E_pos as EP. pose proof E_big as EB. pose proof feta_small. pose proof feta_pos. destruct N_pos as [N1 N2].
    replace (e - 24)%Z with (e + 1 - 25)%Z in Er by lia. rewrite E_u in Er. assert (K : INR k <= 4194304). { rewrite INR_IZR_INZ. apply IZR_le. change 4194304%Z with (2 ^ 22)%Z. lia. } 
    assert (KE : (INR k + 4) * (/ 16777216 * E) <= 4194308 * (/ 16777216 * E)) by (apply Rmult_le_compat_r; lra).
    assert (S1 : Rabs (fval step) <= bpow radix2 (e + 1)). { rewrite Vs. apply RN_le_pow; [lia|]. destruct d_val as (_ & _ & Bd & _). rewrite pow_step. unfold Rdiv. rewrite Rabs_mult. assert (IN : 0 < / IZR N <= 1). { split; [apply Rinv_0_lt_compat; lra|]. rewrite <- Rinv_1. apply Rinv_le_contravar; lra. } rewrite (Rabs_pos_eq (/ IZR N)) by lra. rewrite <- (Rmult_1_r (2 * E)). apply Rmult_le_compat; try lra. apply Rabs_pos. }
    replace (e + 2)%Z with (e + 1 + 1)%Z by lia. rewrite pow_step in *. rewrite pow_step in *. apply Rabs_le_inv in Er, I, S1. apply Rabs_le. lra. }
  destruct (fadd_b q step Fr Fs (le_127 (e + 2) _ ltac:(lia) B)) as [F V]. rewrite V. destruct step_sign as [P M]. pose proof (RN_id _ (fval_in q (proj1 Fr))) as ID. split; intros H0.
  - rewrite <- ID at 1. apply RN_le. specialize (P H0). lra.
  - rewrite <- ID at 2. apply RN_le. specialize (M H0). lra.
Qed.
End Ramp.
Lemma after_eq N p v k : fip_after N p v k = Nat.iter k (fun c => fadd c (fdiv (fsub v (ip_cur p)) (f32_of_int N))) (ip_cur p).
Proof. unfold fip_after. destruct (iter_cur k (ip_set fsub fdiv f32_of_int N p v)) as [_ B]. cbn zeta in B. rewrite B. reflexivity. Qed.
(* one tenth ten times *)
Lemma misses : fip_after 10 (IP f32_zero f32_zero) f32_one 10 = f32_of 8388609 (-23).
Proof. vm_compute. reflexivity. Qed.
(* a small change never happens *)
Lemma stalls k : fip_after 256 (IP f32_one f32_zero) (f32_of (2 ^ 16 + 1) (-16)) k = f32_one.
Proof.
  rewrite after_eq. cbn [ip_cur]. induction k as [|k IH]; [reflexivity|].
  change (Nat.iter (S k) ?f ?x) with (f (Nat.iter k f x)). cbn beta. rewrite IH. vm_compute. reflexivity.
Qed.
