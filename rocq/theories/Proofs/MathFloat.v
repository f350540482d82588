From Coq Require Import Reals Lra ZArith Bool Floats.SpecFloat.
From Flocq Require Import Core.
From Verif.Common Require Import Base Lemmas Lists F32 F32Order F32Real F32Arith.
From Verif.Model Require Import MathFloat.
From Verif.Proofs Require Import TableF CircularMix.
Open Scope R_scope.

Lemma pow_step e : bpow radix2 (e + 1) = 2 * bpow radix2 e.
Proof. rewrite Z.add_comm, bpow_plus. reflexivity. Qed.
Lemma RN_le_pow e x : (-149 <= e <= 127)%Z -> Rabs x <= bpow radix2 e -> Rabs (RN x) <= bpow radix2 e.
Proof. intros He H. rewrite RN_abs, <- (RN_id (bpow radix2 e)) by (apply in_pow; lia). apply RN_le. exact H. Qed.
Lemma le_127 e x : (e <= 127)%Z -> Rabs x <= bpow radix2 e -> Rabs x <= bpow radix2 127.
Proof. intros He H. apply Rle_trans with (1 := H). apply bpow_le. lia. Qed.

(** a sum that exceeds a power of two by at most a quarter of a step is rounded to it *)
Lemma RN_snap e x : (0 <= e <= 126)%Z -> Rabs x <= bpow radix2 e * (1 + bpow radix2 (-25)) -> Rabs (RN x) <= bpow radix2 e.
Proof.
  intros He H. rewrite RN_abs. apply Rle_trans with (RN (bpow radix2 e * (1 + bpow radix2 (-25)))); [apply RN_le; exact H|].
  set (y := bpow radix2 e * (1 + bpow radix2 (-25))). pose proof (bpow_gt_0 radix2 e) as HP. pose proof (bpow_gt_0 radix2 (-25)) as HQ.
  (* the next number after 2^e is 2^e (1 + 2^-23); y is nearer to 2^e *)
  destruct (Rle_lt_dec (RN y) (bpow radix2 e)) as [L|L]; [exact L|exfalso].
  assert (HN : bpow radix2 e + bpow radix2 (e - 23) <= RN y).
  { assert (HS : succ radix2 fexp32 (bpow radix2 e) <= RN y). { apply succ_le_lt; [exact _|apply in_pow; lia|apply RN_in|exact L]. }
    rewrite succ_eq_pos in HS by apply bpow_ge_0. rewrite ulp_bpow in HS. change (fexp32 (e + 1)) with (FLT_exp (-149) 24 (e + 1)) in HS. unfold FLT_exp in HS. replace (Z.max (e + 1 - 24) (-149)) with (e - 23)%Z in HS by lia. exact HS. }
  assert (HD : Rabs (RN y - y) <= Rabs (bpow radix2 e - y)). { apply (round_N_pt radix2 fexp32 (fun x => negb (Z.even x)) y). apply in_pow. lia. }
  assert (E1 : bpow radix2 (e - 23) = bpow radix2 e * bpow radix2 (-23)) by (rewrite <- bpow_plus; f_equal; lia).
  assert (E2 : bpow radix2 (-23) = 4 * bpow radix2 (-25)) by (change (-23)%Z with (2 + -25)%Z; rewrite bpow_plus; reflexivity).
  assert (HY : y = bpow radix2 e + bpow radix2 e * bpow radix2 (-25)) by (unfold y; ring).
  assert (HPQ : 0 < bpow radix2 e * bpow radix2 (-25)) by (apply Rmult_lt_0_compat; assumption).
  rewrite (Rabs_left1 (bpow radix2 e - y)) in HD by lra. rewrite E1, E2 in HN. generalize dependent (RN y). intros r L HN HD. rewrite Rabs_pos_eq in HD by lra. lra.
Qed.

Section Interp.
Context (e : Z) (a b p : f32).
Hypothesis He : (0 <= e <= 125)%Z.
Hypothesis Ha : finite_f32 a.
Hypothesis Hb : finite_f32 b.
Hypothesis Hp : finite_f32 p.
Hypothesis Ba : Rabs (fval a) <= bpow radix2 e.
Hypothesis Bb : Rabs (fval b) <= bpow radix2 e.
Hypothesis Bp : 0 <= fval p <= 1.
Let A := fval a. Let B := fval b. Let P := fval p. Let E := bpow radix2 e.
Let q := RN (1 - P).
Lemma q_range : 0 <= q <= 1 /\ Rabs (q - (1 - P)) <= bpow radix2 (-25).
Proof using Bp.
  split; [apply (RN_between (IZR 0) (IZR 1)); [apply in_int; lia|apply in_int; lia|unfold P; lra]|]. apply (RN_err 0); [lia|]. change (bpow radix2 0) with 1. unfold P. apply Rabs_le. lra.
Qed.
Lemma E_pos : 1 <= E. Proof using He. change 1 with (bpow radix2 0). apply bpow_le. lia. Qed.
Lemma prod_bound x t : in_f32 t -> Rabs x <= E -> 0 <= t <= 1 -> Rabs (x * t) <= E * t /\ Rabs (RN (x * t)) <= E * t.
Proof using He.
  intros Ht Hx H. assert (H1 : Rabs (x * t) <= E * t) by (rewrite Rabs_mult, (Rabs_pos_eq t) by lra; apply Rmult_le_compat_r; lra). split; [exact H1|]. rewrite RN_abs. rewrite <- (RN_id (E * t)); [apply RN_le; exact H1|]. rewrite Rmult_comm. apply scale_in; [exact Ht|lia].
Qed.
Lemma interp_val : finite_f32 (finterpolate a b p) /\ fval (finterpolate a b p) = RN (RN (A * q) + RN (B * P)) /\ Rabs (RN (A * q) + RN (B * P)) <= E * (1 + bpow radix2 (-25)).
Proof using Ba Bb Bp Ha Hb He Hp.
  destruct q_range as [Q1 Q2]. pose proof E_pos as EP. destruct one_b as [FO EO]. unfold finterpolate.
  destruct (fsub_b f32_one p FO Hp) as [FQ EQ]; [rewrite EO; apply (small_le_127 0); [lia|]; change (IZR (2 ^ 0)) with 1; apply Rabs_le; lra|]. rewrite EO in EQ. fold P q in EQ. set (s := fsub f32_one p) in *.
  assert (Eup : E <= bpow radix2 127) by (apply bpow_le; lia).
  destruct (prod_bound A q (RN_in _) Ba Q1) as [X1 X2]. destruct (prod_bound B P (fval_in p (proj1 Hp)) Bb Bp) as [Y1 Y2].
  destruct (fmul_b a s Ha FQ) as [FM1 EM1]; [rewrite EQ; fold A; unfold P in *; apply Rle_trans with (1 := X1); nra|]. rewrite EQ in EM1. fold A in EM1.
  destruct (fmul_b b p Hb Hp) as [FM2 EM2]; [fold B P; apply Rle_trans with (1 := Y1); unfold P; nra|]. fold B P in EM2.
  assert (HS : Rabs (RN (A * q) + RN (B * P)) <= E * (1 + bpow radix2 (-25))). { apply Rle_trans with (1 := Rabs_triang _ _). apply Rle_trans with (E * q + E * P); [lra|]. rewrite <- Rmult_plus_distr_l. apply Rmult_le_compat_l; [lra|]. apply Rabs_le_inv in Q2. lra. }
  assert (H25 : 0 < bpow radix2 (-25) <= 1) by (split; [apply bpow_gt_0|change 1 with (bpow radix2 0); apply bpow_le; lia]).
  destruct (fadd_b _ _ FM1 FM2) as [FR ER]; [rewrite EM1, EM2; apply (le_127 (e + 1)); [lia|]; apply Rle_trans with (1 := HS); rewrite pow_step; fold E; nra|].
  rewrite EM1, EM2 in ER. auto.
Qed.
Lemma interp_bounded : Rabs (fval (finterpolate a b p)) <= bpow radix2 e.
Proof using Ba Bb Bp Ha Hb He Hp. destruct interp_val as (_ & EV & HB). rewrite EV. apply RN_snap; [lia|exact HB]. Qed.
Lemma interp_accurate : Rabs (fval (finterpolate a b p) - (A + P * (B - A))) <= 5 * bpow radix2 (e - 25).
Proof using Ba Bb Bp Ha Hb He Hp.
  destruct interp_val as (_ & EV & HB). destruct q_range as [Q1 Q2]. pose proof E_pos as EP. set (u := bpow radix2 (e - 25)).
  assert (Eu : u = E * bpow radix2 (-25)) by (unfold u, E; rewrite <- bpow_plus; f_equal; lia).
  destruct (prod_bound A q (RN_in _) Ba Q1) as [X1 _]. destruct (prod_bound B P (fval_in p (proj1 Hp)) Bb Bp) as [Y1 _].
  assert (R1 : Rabs (RN (A * q) - A * q) <= u) by (apply RN_err; [lia|]; apply Rle_trans with (1 := X1); fold E; nra).
  assert (R2 : Rabs (RN (B * P) - B * P) <= u) by (apply RN_err; [lia|]; apply Rle_trans with (1 := Y1); fold E; unfold P; nra).
  set (S := RN (A * q) + RN (B * P)) in *.
  assert (H25 : 0 < bpow radix2 (-25) <= 1) by (split; [apply bpow_gt_0|change 1 with (bpow radix2 0); apply bpow_le; lia]).
  assert (R3 : Rabs (RN S - S) <= 2 * u). { replace (2 * u) with (bpow radix2 (e + 1 - 25)) by (unfold u; rewrite <- pow_step; f_equal; lia). apply RN_err; [lia|]. apply Rle_trans with (1 := HB). rewrite pow_step. fold E. nra. }
  rewrite EV. assert (R4 : Rabs (A * (q - (1 - P))) <= u) by (rewrite Rabs_mult, Eu; apply Rmult_le_compat; auto using Rabs_pos).
  apply Rabs_le_inv in R1, R2, R3, R4. assert (ES : S = RN (A * q) + RN (B * P)) by reflexivity. clearbody S. apply Rabs_le. split; lra.
Qed.
(** interpolate3 *)
Lemma interp3_val : let d := RN (B - A) in finite_f32 (finterpolate3 a b p) /\ fval (finterpolate3 a b p) = RN (A + RN (P * d)) /\
  Rabs (d - (B - A)) <= bpow radix2 (e - 24) /\ Rabs d <= 2 * E.
Proof using Ba Bb Bp Ha Hb He Hp.
  cbn zeta. set (d := RN (B - A)). pose proof E_pos as EP. assert (D1 : Rabs (B - A) <= bpow radix2 (e + 1)). { rewrite pow_step. fold E. apply Rabs_le_inv in Ba, Bb. unfold A, B. apply Rabs_le. fold E in Ba, Bb. lra. }
  destruct (fsub_b b a Hb Ha) as [FD ED]; [apply (le_127 (e + 1)); [lia|exact D1]|]. fold A B d in ED.
  assert (D2 : Rabs d <= bpow radix2 (e + 1)) by (apply RN_le_pow; [lia|exact D1]).
  assert (D3 : Rabs (P * d) <= bpow radix2 (e + 1)). { rewrite Rabs_mult. unfold P. rewrite (Rabs_pos_eq (fval p)) by lra. pose proof (Rabs_pos d). nra. }
  unfold finterpolate3. set (sb := fsub b a) in *. destruct (fmul_b p sb Hp FD) as [FM EM]; [rewrite ED; fold P; apply (le_127 (e + 1)); [lia|exact D3]|]. rewrite ED in EM. fold P in EM.
  assert (D4 : Rabs (RN (P * d)) <= bpow radix2 (e + 1)) by (apply RN_le_pow; [lia|exact D3]).
  assert (D5 : Rabs (A + RN (P * d)) <= 3 * E). { apply Rle_trans with (1 := Rabs_triang _ _). rewrite pow_step in D4. fold E in D4. fold A E in Ba. lra. }
  destruct (fadd_b a (fmul p sb) Ha FM) as [FR ER]; [rewrite EM; fold A; apply (le_127 (e + 2)); [lia|]; apply Rle_trans with (1 := D5); replace (e + 2)%Z with (e + 1 + 1)%Z by lia; rewrite !pow_step; fold E; lra|].
  rewrite EM in ER. fold A in ER. split; [exact FR|]. split; [exact ER|]. split.
  - replace (e - 24)%Z with (e + 1 - 25)%Z by lia. apply RN_err; [lia|exact D1].
  - rewrite pow_step in D2. exact D2.
Qed.
Lemma interp3_accurate : Rabs (fval (finterpolate3 a b p) - (A + P * (B - A))) <= 3 * bpow radix2 (e - 24).
Proof using Ba Bb Bp Ha Hb He Hp.
  destruct interp3_val as (_ & EV & D1 & D2). set (d := RN (B - A)) in *. pose proof E_pos as EP. set (u := bpow radix2 (e - 24)) in *.
  assert (Eu : u = E * bpow radix2 (-24)) by (unfold u, E; rewrite <- bpow_plus; f_equal; lia).
  assert (H24 : 0 < bpow radix2 (-24) <= / 4) by (split; [apply bpow_gt_0|change (/ 4) with (bpow radix2 (-2)); apply bpow_le; lia]).
  assert (D3 : Rabs (P * d) <= bpow radix2 (e + 1)). { rewrite Rabs_mult. unfold P. rewrite (Rabs_pos_eq (fval p)) by lra. pose proof (Rabs_pos d). rewrite pow_step. fold E. nra. }
  assert (R1 : Rabs (RN (P * d) - P * d) <= u) by (unfold u; replace (e - 24)%Z with (e + 1 - 25)%Z by lia; apply RN_err; [lia|exact D3]).
  assert (R0 : Rabs (P * (d - (B - A))) <= u). { rewrite Rabs_mult. unfold P. rewrite (Rabs_pos_eq (fval p)) by lra. pose proof (Rabs_pos (d - (B - A))). nra. }
  assert (T : Rabs (A + P * (B - A)) <= E). { replace (A + P * (B - A)) with (A * (1 - P) + B * P) by ring. apply Rabs_le_inv in Ba, Bb. fold E in Ba, Bb. unfold A, B, P. apply Rabs_le. split; nra. }
  assert (S1 : Rabs (A + RN (P * d)) <= bpow radix2 (e + 1)). { rewrite pow_step. fold E. apply Rabs_le_inv in R1, R0, T. apply Rabs_le. nra. }
  assert (R2 : Rabs (RN (A + RN (P * d)) - (A + RN (P * d))) <= u) by (unfold u; replace (e - 24)%Z with (e + 1 - 25)%Z by lia; apply RN_err; [lia|exact S1]).
  rewrite EV. apply Rabs_le_inv in R0, R1, R2. apply Rabs_le. split; nra.
Qed.
End Interp.

(** the end points *)
Lemma fzero_mul x s : finite_f32 x -> exists t, fmul x (S754_zero s) = S754_zero t.
Proof. intros [V F]. destruct x as [sx|sx| |sx m ex]; try discriminate F; eexists; reflexivity. Qed.
Lemma fmul_zero x s : finite_f32 x -> exists t, fmul (S754_zero s) x = S754_zero t.
Proof. intros [V F]. destruct x as [sx|sx| |sx m ex]; try discriminate F; eexists; reflexivity. Qed.
Lemma add_zero x s : finite_f32 x -> finite_f32 (fadd x (S754_zero s)) /\ fval (fadd x (S754_zero s)) = fval x.
Proof.
  intros H. assert (FZ : finite_f32 (S754_zero s)) by (split; reflexivity). destruct H as [V F]. destruct (fadd_val x (S754_zero s) V (proj1 FZ) F (proj2 FZ)) as [A B].
  - change (fval (S754_zero s)) with 0. rewrite Rplus_0_r, RN_id by (apply fval_in; exact V). apply fval_bound. exact V.
  - change (fval (S754_zero s)) with 0 in A. rewrite Rplus_0_r, RN_id in A by (apply fval_in; exact V). repeat split; auto. apply fadd_valid; [exact V|apply FZ].
Qed.
Lemma zero_add x s : finite_f32 x -> finite_f32 (fadd (S754_zero s) x) /\ fval (fadd (S754_zero s) x) = fval x.
Proof.
  intros H. assert (FZ : finite_f32 (S754_zero s)) by (split; reflexivity). destruct H as [V F]. destruct (fadd_val (S754_zero s) x (proj1 FZ) V (proj2 FZ) F) as [A B].
  - change (fval (S754_zero s)) with 0. rewrite Rplus_0_l, RN_id by (apply fval_in; exact V). apply fval_bound. exact V.
  - change (fval (S754_zero s)) with 0 in A. rewrite Rplus_0_l, RN_id in A by (apply fval_in; exact V). repeat split; auto. apply fadd_valid; [apply FZ|exact V].
Qed.
Lemma mul_one x : finite_f32 x -> finite_f32 (fmul x f32_one) /\ fval (fmul x f32_one) = fval x.
Proof. intros [V F]. destruct (fmul_one x V F) as [A B]. repeat split; auto. apply fmul_valid; [exact V|reflexivity]. Qed.
Lemma interp_at_0 a b s : finite_f32 a -> finite_f32 b -> finite_f32 (finterpolate a b (S754_zero s)) /\ fval (finterpolate a b (S754_zero s)) = fval a.
Proof.
  intros Ha Hb. unfold finterpolate. replace (fsub f32_one (S754_zero s)) with f32_one by (destruct s; reflexivity). destruct (fzero_mul b s Hb) as [t ->]. destruct (mul_one a Ha) as [FA EA]. destruct (add_zero _ t FA) as [FR ER]. rewrite ER, EA. auto.
Qed.
Lemma interp_at_1 a b : finite_f32 a -> finite_f32 b -> finite_f32 (finterpolate a b f32_one) /\ fval (finterpolate a b f32_one) = fval b.
Proof.
  intros Ha Hb. unfold finterpolate. change (fsub f32_one f32_one) with (S754_zero false). destruct (fzero_mul a false Ha) as [t ->]. destruct (mul_one b Hb) as [FB EB]. destruct (zero_add _ t FB) as [FR ER]. rewrite ER, EB. auto.
Qed.
Lemma interp3_at_0 a b s : finite_f32 a -> finite_f32 b -> Rabs (fval b - fval a) <= bpow radix2 127 -> finite_f32 (finterpolate3 a b (S754_zero s)) /\ fval (finterpolate3 a b (S754_zero s)) = fval a.
Proof.
  intros Ha Hb H. unfold finterpolate3. destruct (fsub_b b a Hb Ha H) as [FD _]. destruct (fmul_zero _ s FD) as [t ->]. apply add_zero. exact Ha.
Qed.
Lemma interp_inf_nan a p s : finite_f32 a -> fmul (S754_infinity s) p = S754_nan -> finterpolate a (S754_infinity s) p = S754_nan.
Proof. intros _ E. unfold finterpolate. rewrite E. destruct (fmul a _) as [| | |]; reflexivity. Qed.

(** f_abs *)
Lemma f_abs_val x : finite_f32 x -> finite_f32 (f_abs x) /\ fval (f_abs x) = Rabs (fval x).
Proof.
  intros [V F]. unfold f_abs. destruct (SFleb f32_zero x) eqn:C.
  - apply (fleb_val f32_zero x ltac:(reflexivity) V eq_refl F) in C. change (fval f32_zero) with 0 in C. split; [split; assumption|]. rewrite Rabs_pos_eq by exact C. reflexivity.
  - assert (HN : fval x < 0). { destruct (Rle_lt_dec 0 (fval x)) as [H|H]; [|exact H]. exfalso. assert (SFleb f32_zero x = true) by (apply (fleb_val f32_zero x ltac:(reflexivity) V eq_refl F); exact H). congruence. }
    destruct x as [s|s| |s m e]; try discriminate F; try (cbn in HN; lra). destruct s; [|pose proof (F2R_gt_0 radix2 (Float radix2 (Zpos m) e) ltac:(reflexivity)) as HH; change (fval (S754_finite false m e)) with (F2R (Float radix2 (Zpos m) e)) in HN; lra].
    cbn [fneg SFopp negb]. split; [split; [exact V|reflexivity]|]. rewrite Rabs_left by exact HN. change (fval (S754_finite true m e)) with (F2R (Float radix2 (- Zpos m) e)). change (fval (S754_finite false m e)) with (F2R (Float radix2 (Zpos m) e)). rewrite F2R_Zopp. ring.
Qed.

(** the parabola *)
Definition bump (t : R) : R := t - t * Rabs t.
Lemma bump_odd t : bump (- t) = - bump t. Proof. unfold bump. rewrite Rabs_Ropp. ring. Qed.
Lemma bump_lip s t : -1 <= s <= 1 -> -1 <= t <= 1 -> Rabs (bump s - bump t) <= Rabs (s - t).
Proof.
  intros Hs Ht. unfold bump.
  assert (HH : forall x y, x <= y -> -1 <= x <= 1 -> -1 <= y <= 1 -> Rabs (y - y * Rabs y - (x - x * Rabs x)) <= y - x).
  { intros x y Hxy Hx Hy. unfold Rabs at 2 3. destruct (Rcase_abs y), (Rcase_abs x); apply Rabs_le; split; nra. }
  destruct (Rle_dec s t) as [H|H].
  - rewrite Rabs_minus_sym. rewrite (Rabs_left1 (s - t)) by lra. replace (- (s - t)) with (t - s) by ring. apply HH; auto.
  - rewrite (Rabs_pos_eq (s - t)) by lra. apply HH; auto. lra.
Qed.
Definition rbump (t : R) : R := RN (t - RN (t * Rabs t)).
Lemma rbump_odd t : rbump (- t) = - rbump t.
Proof. unfold rbump. rewrite Rabs_Ropp, Ropp_mult_distr_l_reverse, RN_opp. replace (- t - - RN (t * Rabs t)) with (- (t - RN (t * Rabs t))) by ring. apply RN_opp. Qed.
Lemma RN_quarter : RN (/ 4 + bpow radix2 (-26)) = / 4.
Proof.
  pose proof (f32_of_val (2 ^ 24 + 1) (-26)) as H. assert (E : IZR (2 ^ 24 + 1) * bpow radix2 (-26) = / 4 + bpow radix2 (-26)). { rewrite plus_IZR. rewrite Rmult_plus_distr_r, Rmult_1_l. f_equal. change (IZR (2 ^ 24)) with (bpow radix2 24). rewrite <- bpow_plus. reflexivity. }
  rewrite E in H. assert (HB : bpow radix2 (-26) <= 1) by (change 1 with (bpow radix2 0); apply bpow_le; lia). pose proof (bpow_gt_0 radix2 (-26)). destruct H as [H _]; [apply RN_pow_bound; apply (small_le_127 1); [lia|]; change (IZR (2 ^ 1)) with 2; rewrite Rabs_pos_eq; lra|].
  rewrite <- H. change (f32_of (2 ^ 24 + 1) (-26)) with (S754_finite false 8388608 (-25)). change (fval (S754_finite false 8388608 (-25))) with (IZR 8388608 * bpow radix2 (-25)). change (IZR 8388608) with (bpow radix2 23). rewrite <- bpow_plus. reflexivity.
Qed.
Lemma rbump_pos s : in_f32 s -> 0 <= s <= 1 -> 0 <= rbump s <= / 4 /\ Rabs (rbump s - bump s) <= bpow radix2 (-25) + bpow radix2 (-26).
Proof.
  intros Hi Hs. unfold rbump, bump. rewrite (Rabs_pos_eq s) by lra. set (r := RN (s * s)).
  assert (Hr : 0 <= r <= s). { apply (RN_between (IZR 0) s); [apply in_int; lia|exact Hi|]. nra. }
  assert (HE : Rabs (r - s * s) <= bpow radix2 (-25)) by (apply (RN_err 0); [lia|]; change (bpow radix2 0) with 1; rewrite Rabs_pos_eq; nra).
  assert (P25 : bpow radix2 (-25) = 2 * bpow radix2 (-26)) by (apply (pow_step (-26))). assert (P26 : bpow radix2 (-26) = 2 * bpow radix2 (-27)) by (apply (pow_step (-27))). pose proof (bpow_gt_0 radix2 (-27)) as P27. assert (SM : bpow radix2 (-27) <= / 1024) by (change (/ 1024) with (bpow radix2 (-10)); apply bpow_le; lia).
  assert (HU : s - r <= / 4 + bpow radix2 (-26)).
  { destruct (Rle_lt_dec (s * s) (/ 2)) as [L|L].
    - assert (HE2 : Rabs (r - s * s) <= bpow radix2 (-26)) by (apply (RN_err (-1)); [lia|]; change (bpow radix2 (-1)) with (/ 2); rewrite Rabs_pos_eq; nra). apply Rabs_le_inv in HE2. pose proof (Rle_0_sqr (s - / 2)) as SQ. unfold Rsqr in SQ. lra.
    - apply Rabs_le_inv in HE. assert (s > 7 / 10) by nra. assert (7 / 10 * (1 - s) <= s * (1 - s)) by (apply Rmult_le_compat_r; lra). assert (s * (1 - s) <= s - / 2) by lra. assert (0 <= (s - 7/10) * (1 - s)) by (apply Rmult_le_pos; lra). nra. }
  assert (HR : 0 <= RN (s - r) <= / 4). { split; [rewrite <- RN_0; apply RN_le; lra|]. rewrite <- RN_quarter. apply RN_le. exact HU. }
  split; [exact HR|].
  assert (HE3 : Rabs (RN (s - r) - (s - r)) <= bpow radix2 (-26)) by (apply (RN_err (-1)); [lia|]; change (bpow radix2 (-1)) with (/ 2); rewrite Rabs_pos_eq; lra).
  apply Rabs_le_inv in HE, HE3. apply Rabs_le. lra.
Qed.
Lemma rbump_all t : in_f32 t -> -1 <= t <= 1 -> Rabs (rbump t) <= / 4 /\ Rabs (rbump t - bump t) <= bpow radix2 (-25) + bpow radix2 (-26).
Proof.
  intros Hi Ht. destruct (Rle_lt_dec 0 t) as [H|H].
  - destruct (rbump_pos t Hi ltac:(lra)) as [A B]. split; [apply Rabs_le; lra|exact B].
  - destruct (rbump_pos (- t) ltac:(apply generic_format_opp; exact Hi) ltac:(lra)) as [A B]. rewrite rbump_odd in A, B. rewrite bump_odd in B. split; [apply Rabs_le; lra|]. replace (rbump t - bump t) with (- (- rbump t - - bump t)) by ring. rewrite Rabs_Ropp. exact B.
Qed.
Lemma sine_val x : finite_f32 x -> 0 <= fval x <= 1 -> finite_f32 (faster_sine x) /\ fval (faster_sine x) = 4 * rbump (RN (2 * fval x - 1)).
Proof.
  intros Hx Bx. unfold faster_sine. destruct (int_b 2 ltac:(lia)) as [F2 E2], (int_b 4 ltac:(lia)) as [F4 E4], one_b as [FO EO].
  assert (EX : RN (fval x * 2) = 2 * fval x). { rewrite (Rmult_comm 2). change 2 with (bpow radix2 1). apply RN_id, scale_in; [apply fval_in, Hx|lia]. }
  destruct (fmul_b x (f32_of_int 2) Hx F2) as [FM EM]; [rewrite E2; apply (small_le_127 1); [lia|]; change (IZR (2 ^ 1)) with 2; apply Rabs_le; lra|]. rewrite E2, EX in EM. set (m := fmul x (f32_of_int 2)) in *.
  destruct (fsub_b m f32_one FM FO) as [FT ET]; [rewrite EM, EO; apply (small_le_127 0); [lia|]; change (IZR (2 ^ 0)) with 1; apply Rabs_le; lra|]. rewrite EM, EO in ET. set (t := fsub m f32_one) in *. set (T := RN (2 * fval x - 1)) in *.
  assert (BT : -1 <= T <= 1) by (apply (RN_between (IZR (-1)) (IZR 1)); [apply in_int; lia|apply in_int; lia|lra]).
  destruct (f_abs_val t FT) as [FA EA]. rewrite ET in EA. assert (BA : 0 <= Rabs T <= 1) by (split; [apply Rabs_pos|apply Rabs_le; lra]).
  destruct (fmul_b t (f_abs t) FT FA) as [FP EP]; [rewrite EA, ET; apply (small_le_127 0); [lia|]; change (IZR (2 ^ 0)) with 1; rewrite Rabs_mult, Rabs_Rabsolu; nra|]. rewrite EA, ET in EP. set (pr := fmul t (f_abs t)) in *.
  assert (BP : -1 <= RN (T * Rabs T) <= 1) by (apply (RN_between (IZR (-1)) (IZR 1)); [apply in_int; lia|apply in_int; lia|]; split; nra).
  destruct (fsub_b t pr FT FP) as [FS ES]; [rewrite ET, EP; apply (small_le_127 1); [lia|]; change (IZR (2 ^ 1)) with 2; apply Rabs_le; lra|]. rewrite ET, EP in ES. fold (rbump T) in ES. set (sb := fsub t pr) in *.
  destruct (rbump_all T (RN_in _) BT) as [RB _]. assert (E4R : RN (4 * rbump T) = 4 * rbump T) by (rewrite (Rmult_comm 4); change 4 with (bpow radix2 2); apply RN_id, scale_in; [apply RN_in|lia]).
  destruct (fmul_b (f32_of_int 4) sb F4 FS) as [FR ER]; [rewrite E4, ES; apply (small_le_127 0); [lia|]; change (IZR (2 ^ 0)) with 1; rewrite Rabs_mult, (Rabs_pos_eq 4) by lra; lra|]. rewrite E4, ES, E4R in ER. split; [exact FR|exact ER].
Qed.
Lemma sine_bounded x : finite_f32 x -> 0 <= fval x <= 1 -> -1 <= fval (faster_sine x) <= 1.
Proof.
  intros Hx Bx. destruct (sine_val x Hx Bx) as [_ E]. rewrite E. assert (BT : -1 <= RN (2 * fval x - 1) <= 1) by (apply (RN_between (IZR (-1)) (IZR 1)); [apply in_int; lia|apply in_int; lia|lra]).
  destruct (rbump_all _ (RN_in _) BT) as [RB _]. apply Rabs_le_inv in RB. lra.
Qed.
Lemma sine_accurate x : finite_f32 x -> 0 <= fval x <= 1 -> let t := 2 * fval x - 1 in Rabs (fval (faster_sine x) - 4 * (t - t * Rabs t)) <= 5 * bpow radix2 (-24).
Proof.
  intros Hx Bx. cbn zeta. destruct (sine_val x Hx Bx) as [_ E]. rewrite E. set (t := 2 * fval x - 1). assert (BT : -1 <= RN t <= 1) by (apply (RN_between (IZR (-1)) (IZR 1)); [apply in_int; lia|apply in_int; lia|unfold t; lra]).
  destruct (rbump_all _ (RN_in t) BT) as [_ RE]. assert (HT : Rabs (RN t - t) <= bpow radix2 (-25)) by (apply (RN_err 0); [lia|]; change (bpow radix2 0) with 1; apply Rabs_le; unfold t; lra).
  pose proof (bump_lip (RN t) t BT ltac:(unfold t; lra)) as HL. fold (bump t).
  assert (P24 : bpow radix2 (-24) = 2 * bpow radix2 (-25)) by (apply (pow_step (-25))). assert (P25 : bpow radix2 (-25) = 2 * bpow radix2 (-26)) by (apply (pow_step (-26))).
  replace (4 * rbump (RN t) - 4 * bump t) with (4 * ((rbump (RN t) - bump (RN t)) + (bump (RN t) - bump t))) by ring. rewrite Rabs_mult, (Rabs_pos_eq 4) by lra. pose proof (Rabs_triang (rbump (RN t) - bump (RN t)) (bump (RN t) - bump t)). lra.
Qed.

(** the hysteresis gates *)
Lemma gate_0_1 off on last x : hysteresis_gate_f off on last x = f32_one \/ hysteresis_gate_f off on last x = f32_zero.
Proof. unfold hysteresis_gate_f. cbn zeta. destruct (SFltb _ _); auto. Qed.
Lemma feedback_0_1 c t last x : hysteresis_feedback_f c t last x = f32_one \/ hysteresis_feedback_f c t last x = f32_zero.
Proof. unfold hysteresis_feedback_f. destruct (SFltb _ _); auto. Qed.
Lemma nan_arith x : fadd S754_nan x = S754_nan. Proof. destruct x; reflexivity. Qed.
Lemma gate_nan off on last : hysteresis_gate_f off on last S754_nan = f32_zero.
Proof. unfold hysteresis_gate_f. cbn zeta. rewrite nan_arith, SFltb_nan_r. reflexivity. Qed.
Lemma add_mono x y z thr : finite_f32 x -> finite_f32 y -> finite_f32 z -> finite_f32 thr -> fval x <= fval y -> SFltb thr (fadd x z) = true -> SFltb thr (fadd y z) = true.
Proof.
  intros [Vx Fx] [Vy Fy] [Vz Fz] [Vt Ft] H. pose proof (fadd_rounds x z Vx Vz Fx Fz) as HX. pose proof (fadd_rounds y z Vy Vz Fy Fz) as HY. pose proof (fadd_valid x z Vx Vz) as VX. pose proof (fadd_valid y z Vy Vz) as VY.
  set (sx := fadd x z) in *. set (sy := fadd y z) in *. assert (HM : RN (fval x + fval z) <= RN (fval y + fval z)) by (apply RN_le; lra). pose proof (fval_bound thr Vt) as BT.
  destruct HX as [(BX & EX & FX)|(BX & EX)], HY as [(BY & EY & FY)|(BY & EY)].
  - rewrite !fltb_val by assumption. rewrite EX, EY. lra.
  - intros C. apply (fltb_val thr sx Vt VX Ft FX) in C. rewrite EX in C. rewrite EY. destruct (Rlt_bool_spec (fval y + fval z) 0) as [N|N]; [|destruct thr as [| | |[]]; try discriminate Ft; reflexivity].
    exfalso. rewrite Rabs_left1 in BY by (rewrite <- RN_0; apply RN_le; lra). apply Rabs_def2 in BX. lra.
  - rewrite EX. destruct (Rlt_bool_spec (fval x + fval z) 0) as [N|N]; [destruct thr as [| | |[]]; try discriminate Ft; discriminate|]. exfalso. rewrite Rabs_pos_eq in BX by (rewrite <- RN_0; apply RN_le; lra). apply Rabs_def2 in BY. lra.
  - rewrite EX, EY. destruct (Rlt_bool_spec (fval x + fval z) 0) as [N|N]; [destruct thr as [| | |[]]; try discriminate Ft; discriminate|]. intros _. destruct (Rlt_bool_spec (fval y + fval z) 0) as [N2|N2]; [lra|destruct thr as [| | |[]]; try discriminate Ft; reflexivity].
Qed.
Lemma gate_monotone off on last x y : finite_f32 x -> finite_f32 y -> fval x <= fval y -> finite_f32 (fmul (fmul (fsub on off) (f32_of 1 (-1))) last) -> finite_f32 (fmul (fadd on off) (f32_of 1 (-1))) ->
  hysteresis_gate_f off on last x = f32_one -> hysteresis_gate_f off on last y = f32_one.
Proof.
  intros Hx Hy H Hf Ht. unfold hysteresis_gate_f. cbn zeta. intros E. destruct (SFltb _ (fadd x _)) eqn:C; [|discriminate E]. rewrite (add_mono x y _ _ Hx Hy Hf Ht H C). reflexivity.
Qed.
Lemma gate_off_state off on x : finite_f32 off -> finite_f32 on -> finite_f32 x -> Rabs (fval on - fval off) <= bpow radix2 126 -> Rabs (fval on + fval off) <= bpow radix2 126 ->
  (hysteresis_gate_f off on f32_zero x = f32_one <-> RN (RN (fval on + fval off) / 2) < fval x).
Proof.
  intros Hoff Hon Hx B1 B2. destruct half_b as [FH EH]. unfold hysteresis_gate_f. cbn zeta.
  destruct (fsub_b on off Hon Hoff) as [FD ED]; [apply (le_127 126); [lia|exact B1]|]. destruct (fadd_b on off Hon Hoff) as [FS ES]; [apply (le_127 126); [lia|exact B2]|].
  assert (BD : Rabs (RN (fval on - fval off)) <= bpow radix2 126) by (apply RN_le_pow; [lia|exact B1]). assert (BS : Rabs (RN (fval on + fval off)) <= bpow radix2 126) by (apply RN_le_pow; [lia|exact B2]).
  assert (HALF : forall r, Rabs r <= bpow radix2 126 -> Rabs (r * / 2) <= bpow radix2 127). { intros r Hr. rewrite Rabs_mult, (Rabs_pos_eq (/ 2)) by lra. assert (bpow radix2 126 <= bpow radix2 127) by (apply bpow_le; lia). pose proof (Rabs_pos r). lra. }
  destruct (fmul_b _ _ FD FH) as [FF EF]; [rewrite ED, EH; apply HALF; exact BD|]. destruct (fmul_b _ _ FS FH) as [FT ET]; [rewrite ES, EH; apply HALF; exact BS|]. rewrite ES, EH in ET.
  destruct (fzero_mul _ false FF) as [t Et]. change f32_zero with (S754_zero false) at 1. rewrite Et. destruct (add_zero x t Hx) as [FA EA]. set (thr := fmul (fadd on off) (f32_of 1 (-1))) in *. set (sum := fadd x (S754_zero t)) in *.
  pose proof (fltb_val thr sum (proj1 FT) (proj1 FA) (proj2 FT) (proj2 FA)) as HL. rewrite EA, ET in HL. unfold Rdiv. rewrite <- HL. destruct (SFltb thr sum); split; intros; try reflexivity; try discriminate.
Qed.
(** signals on a grid of 22 bits: exact *)
Lemma in_grid n k : (Z.abs n <= 2 ^ 24)%Z -> (0 <= k <= 125)%Z -> in_f32 (IZR n * bpow radix2 (- k)).
Proof.
  intros Hn Hk. destruct (Z.eq_dec (Z.abs n) (2 ^ 24)) as [E|E].
  - assert (HP : in_f32 (bpow radix2 (24 - k))) by (apply in_pow; lia). assert (EB : (bpow radix2 24 * bpow radix2 (- k) = bpow radix2 (24 - k))%R) by (rewrite <- bpow_plus; reflexivity). change (bpow radix2 24) with (IZR (2 ^ 24)) in EB.
    destruct (Z.abs_eq_or_opp n) as [H|H]; [replace n with (2 ^ 24)%Z by lia; rewrite EB; exact HP|]. replace n with (- 2 ^ 24)%Z by lia. rewrite opp_IZR. rewrite Ropp_mult_distr_l_reverse, EB. apply generic_format_opp. exact HP.
  - change in_f32 with (generic_format radix2 (FLT_exp (-149) 24)). apply generic_format_FLT. exists (Float radix2 n (- k)); cbn; [reflexivity|lia|lia].
Qed.
Section Grid.
Context (k : Z) (off on x : f32) (noff non nx : Z).
Hypothesis Hk : (0 <= k <= 120)%Z.
Hypothesis Hoff : finite_f32 off. Hypothesis Hon : finite_f32 on. Hypothesis Hx : finite_f32 x.
Hypothesis Eoff : fval off = IZR noff * bpow radix2 (- k). Hypothesis Eon : fval on = IZR non * bpow radix2 (- k). Hypothesis Ex : fval x = IZR nx * bpow radix2 (- k).
Hypothesis Boff : (Z.abs noff <= 2 ^ 21)%Z. Hypothesis Bon : (Z.abs non <= 2 ^ 21)%Z. Hypothesis Bx : (Z.abs nx <= 2 ^ 21)%Z.
Lemma grid_b n j : (Z.abs n <= 2 ^ 24)%Z -> (0 <= j)%Z -> Rabs (IZR n * bpow radix2 (- j)) <= bpow radix2 126.
Proof using.
  intros Hn Hj. clear - Hn Hj. rewrite Rabs_mult, (Rabs_pos_eq (bpow _ _)) by apply bpow_ge_0. rewrite <- abs_IZR. apply Rle_trans with (bpow radix2 24 * bpow radix2 0).
  - apply Rmult_le_compat; [apply IZR_le, Z.abs_nonneg|apply bpow_ge_0|change (bpow radix2 24) with (IZR (2 ^ 24)); apply IZR_le; lia|apply bpow_le; lia].
  - rewrite <- bpow_plus. apply bpow_le. lia.
Qed.
Lemma half_grid n : IZR n * bpow radix2 (- k) * / 2 = IZR n * bpow radix2 (- (k + 1)).
Proof using. clear - k. replace (- k)%Z with (- (k + 1) + 1)%Z by lia. rewrite pow_step. field. Qed.
Lemma grid_sum : RN (fval on + fval off) = IZR (non + noff) * bpow radix2 (- k) /\ RN (fval on - fval off) = IZR (non - noff) * bpow radix2 (- k).
Proof using Boff Bon Eoff Eon Hk nx.
  rewrite Eoff, Eon. rewrite <- Rmult_plus_distr_r, <- Rmult_minus_distr_r, <- plus_IZR, <- minus_IZR. split; apply RN_id, in_grid; lia.
Qed.
Lemma grid_off : hysteresis_gate_f off on f32_zero x = f32_one <-> (fval on + fval off) / 2 < fval x.
Proof using Boff Bon Bx Eoff Eon Ex Hk Hoff Hon Hx.
  destruct grid_sum as [S1 S2]. rewrite gate_off_state by (assumption || (rewrite Eoff, Eon, <- ?Rmult_plus_distr_r, <- ?Rmult_minus_distr_r, <- ?plus_IZR, <- ?minus_IZR; apply grid_b; lia)).
  rewrite S1. unfold Rdiv. rewrite half_grid. rewrite RN_id by (apply in_grid; lia). rewrite Eon, Eoff, <- Rmult_plus_distr_r, <- plus_IZR, half_grid. reflexivity.
Qed.
Lemma grid_on : hysteresis_gate_f off on f32_one x = f32_one <-> fval off < fval x.
Proof using Boff Bon Bx Eoff Eon Ex Hk Hoff Hon Hx.
  destruct grid_sum as [S1 S2]. destruct half_b as [FH EH]. unfold hysteresis_gate_f. cbn zeta.
  assert (UP : forall r, Rabs r <= bpow radix2 126 -> Rabs r <= bpow radix2 127) by (intros r Hr; apply (le_127 126); [lia|exact Hr]).
  destruct (fsub_b on off Hon Hoff) as [FD ED]; [rewrite Eoff, Eon, <- Rmult_minus_distr_r, <- minus_IZR; apply UP, grid_b; lia|]. rewrite S2 in ED.
  destruct (fadd_b on off Hon Hoff) as [FS ES]; [rewrite Eoff, Eon, <- Rmult_plus_distr_r, <- plus_IZR; apply UP, grid_b; lia|]. rewrite S1 in ES.
  destruct (fmul_b _ _ FD FH) as [FF EF]; [rewrite ED, EH, half_grid; apply UP, grid_b; lia|]. rewrite ED, EH, half_grid, RN_id in EF by (apply in_grid; lia).
  destruct (fmul_b _ _ FS FH) as [FT ET]; [rewrite ES, EH, half_grid; apply UP, grid_b; lia|]. rewrite ES, EH, half_grid, RN_id in ET by (apply in_grid; lia).
  destruct (mul_one _ FF) as [FG EG]. rewrite EF in EG. set (g := fmul (fmul (fsub on off) _) f32_one) in *. set (thr := fmul (fadd on off) (f32_of 1 (-1))) in *.
  assert (EX2 : fval x = IZR (2 * nx) * bpow radix2 (- (k + 1))) by (rewrite Ex; replace (- k)%Z with (- (k + 1) + 1)%Z by lia; rewrite pow_step, mult_IZR; ring).
  destruct (fadd_b x g Hx FG) as [FA EA]; [rewrite EX2, EG, <- Rmult_plus_distr_r, <- plus_IZR; apply UP, grid_b; lia|]. rewrite EX2, EG, <- Rmult_plus_distr_r, <- plus_IZR, RN_id in EA by (apply in_grid; lia). set (sum := fadd x g) in *.
  pose proof (fltb_val thr sum (proj1 FT) (proj1 FA) (proj2 FT) (proj2 FA)) as HL. rewrite EA, ET in HL.
  assert (HC : IZR (non + noff) * bpow radix2 (- (k + 1)) < IZR (2 * nx + (non - noff)) * bpow radix2 (- (k + 1)) <-> fval off < fval x).
  { rewrite Eoff, Ex. pose proof (bpow_gt_0 radix2 (- (k + 1))) as P1. pose proof (bpow_gt_0 radix2 (- k)) as P2. split; intros H; apply Rmult_lt_reg_r in H; try assumption; apply lt_IZR in H; apply Rmult_lt_compat_r; try assumption; apply IZR_lt; lia. }
  rewrite <- HC, <- HL. destruct (SFltb thr sum); split; intros; try reflexivity; try discriminate.
Qed.
End Grid.
(** hysteresis_feedback *)
Lemma feedback_if c t last x : hysteresis_feedback_f c t last x = f32_one <-> SFltb t (fadd x (fmul last c)) = true.
Proof. unfold hysteresis_feedback_f. destruct (SFltb _ _); split; intros H; try reflexivity; discriminate H. Qed.
Lemma feedback_off c t x : finite_f32 c -> finite_f32 t -> finite_f32 x -> (hysteresis_feedback_f c t f32_zero x = f32_one <-> fval t < fval x).
Proof.
  intros Hc Ht Hx. rewrite feedback_if. destruct (fmul_zero c false Hc) as [s E]. change f32_zero with (S754_zero false). rewrite E.
  destruct (add_zero x s Hx) as [FA EA]. rewrite (fltb_val t _ (proj1 Ht) (proj1 FA) (proj2 Ht) (proj2 FA)), EA. reflexivity.
Qed.
Lemma one_mul x : finite_f32 x -> finite_f32 (fmul f32_one x) /\ fval (fmul f32_one x) = fval x.
Proof.
  intros [V F]. destruct one_b as [[V1 F1] E1]. destruct (fmul_val f32_one x V1 V F1 F) as [A B].
  - rewrite E1, Rmult_1_l, RN_id by (apply fval_in; exact V). apply fval_bound. exact V.
  - split; [split; [apply fmul_valid; assumption|exact B]|]. rewrite A, E1, Rmult_1_l. apply RN_id, fval_in. exact V.
Qed.
Lemma feedback_on c t x : finite_f32 c -> finite_f32 t -> finite_f32 x -> Rabs (fval x + fval c) <= bpow radix2 127 ->
  (hysteresis_feedback_f c t f32_one x = f32_one <-> fval t < RN (fval x + fval c)).
Proof.
  intros Hc Ht Hx HB. rewrite feedback_if. destruct (one_mul c Hc) as [FM EM]. destruct (fadd_b x (fmul f32_one c) Hx FM) as [FA EA]; [rewrite EM; exact HB|]. rewrite EM in EA.
  rewrite (fltb_val t _ (proj1 Ht) (proj1 FA) (proj2 Ht) (proj2 FA)), EA. reflexivity.
Qed.
Lemma feedback_on_grid (k : Z) c t x nc nx : (0 <= k <= 125)%Z -> finite_f32 c -> finite_f32 t -> finite_f32 x ->
  fval c = IZR nc * bpow radix2 (- k) -> fval x = IZR nx * bpow radix2 (- k) -> (Z.abs nc <= 2 ^ 23)%Z -> (Z.abs nx <= 2 ^ 23)%Z ->
  (hysteresis_feedback_f c t f32_one x = f32_one <-> fval t - fval c < fval x).
Proof.
  intros Hk Hc Ht Hx Ec Ex Bc Bx. assert (E : fval x + fval c = IZR (nx + nc) * bpow radix2 (- k)) by (rewrite Ec, Ex, plus_IZR; ring).
  rewrite feedback_on; try assumption.
  - rewrite E, RN_id by (apply in_grid; lia). rewrite <- E. lra.
  - rewrite E. apply (le_127 126); [lia|]. apply grid_b; lia.
Qed.
Lemma feedback_monotone c t last x y : finite_f32 x -> finite_f32 y -> finite_f32 t -> finite_f32 (fmul last c) -> fval x <= fval y ->
  hysteresis_feedback_f c t last x = f32_one -> hysteresis_feedback_f c t last y = f32_one.
Proof. intros Hx Hy Ht Hf H. rewrite !feedback_if. apply add_mono; assumption. Qed.
