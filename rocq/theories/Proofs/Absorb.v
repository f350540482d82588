(* A small number added to a large float disappears. *)
From Coq Require Import Reals Lra ZArith Floats.SpecFloat.
From Flocq Require Import Core.
From Verif.Common Require Import Base F32 F32Order F32Real F32Arith.
From Verif.Model Require Import Interp Calib.
From Verif.Proofs Require CircularMix InterpFloat.
Open Scope R_scope.

Lemma ulp_lower x : Rabs x * bpow radix2 (-24) <= ulp radix2 fexp32 x.
Proof. change fexp32 with (FLT_exp (-149) 24). left. apply (ulp_FLT_gt radix2 (-149) 24). Qed.
(* two different positive floats *)
Lemma gap a b : in_f32 a -> in_f32 b -> 0 < a < b -> a * bpow radix2 (-24) <= b - a.
Proof.
  intros Ha Hb [H0 H]. assert (Hs : succ radix2 fexp32 a <= b) by (apply succ_le_lt; auto; change fexp32 with (FLT_exp (-149) 24); apply FLT_exp_valid; reflexivity).
  rewrite succ_eq_pos in Hs by lra. pose proof (ulp_lower a) as U. rewrite (Rabs_pos_eq a) in U by lra. lra.
Qed.
Lemma absorb_pos x y : in_f32 x -> 0 < x -> Rabs y <= x * bpow radix2 (-26) -> RN (x + y) = x.
Proof.
  intros Hx H0 Hy. pose proof (bpow_gt_0 radix2 (-26)) as P26. assert (E24 : bpow radix2 (-24) = 4 * bpow radix2 (-26)) by (change 4 with (bpow radix2 2); rewrite <- bpow_plus; reflexivity).
  assert (L26 : bpow radix2 (-26) <= / 8). { change (/ 8) with (bpow radix2 (-3)). apply bpow_le. lia. }
  assert (HN : Rabs (RN (x + y) - (x + y)) <= Rabs (x - (x + y))).
  { destruct (round_N_pt radix2 fexp32 (fun n => negb (Z.even n)) (x + y)) as [_ HN]. apply HN. exact Hx. }
  replace (x - (x + y)) with (- y) in HN by ring. rewrite Rabs_Ropp in HN. set (r := RN (x + y)) in *. assert (Hr : in_f32 r) by apply RN_in.
  assert (HB : Rabs (r - x) <= 2 * (x * bpow radix2 (-26))). { replace (r - x) with ((r - (x + y)) + y) by ring. eapply Rle_trans; [apply Rabs_triang|]. lra. }
  clearbody r. clear HN Hy. set (q := bpow radix2 (-26)) in *. clearbody q. rewrite <- (Rabs_Ropp (r - x)) in HB. pose proof (Rle_abs (- (r - x))) as B1. pose proof (Rle_abs (r - x)) as B2. rewrite Rabs_Ropp in HB, B1.
  destruct (Rtotal_order r x) as [H|[H|H]]; [|exact H|].
  - assert (Hrp : 3 * x / 4 <= r) by nra. pose proof (gap r x Hr Hx ltac:(lra)) as G. rewrite E24 in G. nra.
  - pose proof (gap x r Hx Hr ltac:(lra)) as G. rewrite E24 in G. nra.
Qed.
Lemma absorb x y : in_f32 x -> x <> 0 -> Rabs y <= Rabs x * bpow radix2 (-26) -> RN (x + y) = x.
Proof.
  intros Hx Hn Hy. destruct (Rlt_le_dec 0 x) as [H|H]; [rewrite (Rabs_pos_eq x) in Hy by lra; apply absorb_pos; assumption|].
  rewrite (Rabs_left x) in Hy by lra. replace (x + y) with (- (- x + - y)) by ring. rewrite RN_opp, absorb_pos; [ring| |lra|rewrite Rabs_Ropp; exact Hy].
  change in_f32 with (generic_format radix2 fexp32) in *. apply generic_format_opp. exact Hx.
Qed.
Lemma step_to_small a b : finite_f32 a -> finite_f32 b -> fval a <> 0 -> Rabs (fval b) <= Rabs (fval a) * bpow radix2 (-26) -> Rabs (fval a) <= bpow radix2 126 ->
  finite_f32 (fadd a (fmul f32_one (fsub b a))) /\ fval (fadd a (fmul f32_one (fsub b a))) = 0.
Proof.
  intros Ha Hb Hn Hs Hm. pose proof (bpow_gt_0 radix2 (-26)) as P26. assert (L26 : bpow radix2 (-26) <= / 4) by (change (/ 4) with (bpow radix2 (-2)); apply bpow_le; lia).
  assert (E126 : bpow radix2 127 = 2 * bpow radix2 126) by (change 2 with (bpow radix2 1); rewrite <- bpow_plus; reflexivity). pose proof (Rabs_pos (fval a)) as Pa. pose proof (bpow_gt_0 radix2 126) as P126.
  assert (Hfa : in_f32 (fval a)) by (apply fval_in, Ha). assert (Hfna : in_f32 (- fval a)) by (change in_f32 with (generic_format radix2 fexp32) in *; apply generic_format_opp; exact Hfa).
  assert (HD : Rabs (fval b - fval a) <= bpow radix2 127). { unfold Rminus. eapply Rle_trans; [apply Rabs_triang|]. rewrite Rabs_Ropp. nra. }
  destruct (fsub_b b a Hb Ha HD) as [F1 E1]. replace (fval b - fval a) with (- fval a + fval b) in E1 by ring. rewrite absorb in E1; [|exact Hfna|lra|rewrite Rabs_Ropp; exact Hs].
  assert (H1 : finite_f32 f32_one /\ fval f32_one = 1). { split; [split; reflexivity|]. apply (f32_of_int_val 1). lia. } destruct H1 as [Fo Eo].
  destruct (fmul_b f32_one (fsub b a) Fo F1) as [F2 E2]. { rewrite Eo, E1, Rmult_1_l, Rabs_Ropp. lra. }
  rewrite Eo, E1, Rmult_1_l, RN_id in E2 by exact Hfna.
  destruct (fadd_b a _ Ha F2) as [F3 E3]. { rewrite E2. replace (fval a + - fval a) with 0 by ring. rewrite Rabs_R0. lra. }
  split; [exact F3|]. rewrite E3, E2. replace (fval a + - fval a) with 0 by ring. apply RN_0.
Qed.
Lemma RN_pow_le t e : (-149 <= e <= 127)%Z -> Rabs t <= bpow radix2 e -> Rabs (RN t) <= bpow radix2 e.
Proof. intros He H. rewrite RN_abs, <- (RN_id (bpow radix2 e)) by (apply in_pow; exact He). apply RN_le. exact H. Qed.
Lemma stay x d c : finite_f32 x -> finite_f32 d -> bpow radix2 c <= Rabs (fval x) <= bpow radix2 126 -> Rabs (fval d) <= bpow radix2 (c - 26) -> fadd x d = x.
Proof.
  intros Hx Hd Bx Bd. pose proof (bpow_gt_0 radix2 c) as Pc. pose proof (bpow_gt_0 radix2 (-26)) as P26. assert (L26 : bpow radix2 (-26) <= 1) by (change 1 with (bpow radix2 0); apply bpow_le; lia).
  assert (Hn : fval x <> 0) by (intros E; rewrite E, Rabs_R0 in Bx; lra).
  assert (Bd2 : Rabs (fval d) <= Rabs (fval x) * bpow radix2 (-26)). { unfold Zminus in Bd. rewrite bpow_plus in Bd. change (- (26))%Z with (-26)%Z in Bd. nra. }
  assert (E126 : bpow radix2 127 = 2 * bpow radix2 126) by (change 2 with (bpow radix2 1); rewrite <- bpow_plus; reflexivity). pose proof (bpow_gt_0 radix2 126) as P126.
  destruct (fadd_b x d Hx Hd) as [F E]. { eapply Rle_trans; [apply Rabs_triang|]. nra. }
  rewrite absorb in E; [|apply fval_in, Hx|exact Hn|exact Bd2].
  apply CircularMix.fval_inj; [apply F|apply Hx|apply F|apply Hx|rewrite E; exact Hn|exact E].
Qed.
(* a ramp and an average whose step is too small *)
Lemma ramp_stays N p v a b c k : finite_f32 (ip_cur p) -> finite_f32 v -> (Z.abs N <= 2 ^ 24)%Z -> (0 <= b)%Z -> (2 ^ b <= N)%Z -> Rabs (fval v - fval (ip_cur p)) <= bpow radix2 a -> (-149 <= a - b)%Z -> (a <= 126)%Z ->
  bpow radix2 c <= Rabs (fval (ip_cur p)) <= bpow radix2 126 -> (a - b + 26 <= c)%Z ->
  ip_cur (Nat.iter k (fun q => fst (ip_next fadd q)) (ip_set fsub fdiv f32_of_int N p v)) = ip_cur p.
Proof.
  intros Fc Fv HN Hb Hb2 Hv Hab Ha Bx Hc. assert (E : fadd (ip_cur p) (fdiv (fsub v (ip_cur p)) (f32_of_int N)) = ip_cur p).
  { destruct (fsub_b v (ip_cur p) Fv Fc) as [F1 E1]. { eapply Rle_trans; [exact Hv|]. apply bpow_le. lia. }
    destruct (int_b N HN) as [F2 E2]. assert (PN : (0 < 2 ^ b)%Z) by (apply Z.pow_pos_nonneg; lia). assert (PR : 0 < IZR N) by (apply IZR_lt; lia).
    assert (LN : bpow radix2 b <= IZR N) by (rewrite <- (IZR_Zpower radix2 b) by exact Hb; apply IZR_le; exact Hb2).
    assert (B1 : Rabs (RN (fval v - fval (ip_cur p))) <= bpow radix2 a) by (apply RN_pow_le; [lia|exact Hv]).
    assert (B2 : Rabs (RN (fval v - fval (ip_cur p)) / IZR N) <= bpow radix2 (a - b)).
    { unfold Rdiv. rewrite Rabs_mult, (Rabs_pos_eq (/ IZR N)) by (left; apply Rinv_0_lt_compat; exact PR). unfold Zminus. rewrite bpow_plus, bpow_opp. pose proof (bpow_gt_0 radix2 b).
      apply Rmult_le_compat; [apply Rabs_pos|left; apply Rinv_0_lt_compat; exact PR|exact B1|]. apply Rinv_le; assumption. }
    destruct (fdiv_b (fsub v (ip_cur p)) (f32_of_int N) F1 F2) as [F3 E3]; [rewrite E2; lra| |]. { rewrite E1, E2. eapply Rle_trans; [exact B2|]. apply bpow_le. lia. }
    apply stay with (c := c); auto. rewrite E3, E1, E2. eapply Rle_trans; [apply RN_pow_le; [|exact B2]; lia|]. apply bpow_le. lia. }
  change (InterpFloat.fip_after N p v k = ip_cur p). rewrite InterpFloat.after_eq. induction k as [|k IH]; [reflexivity|]. change (Nat.iter (S k) ?f ?x) with (f (Nat.iter k f x)). cbn beta. rewrite IH. exact E.
Qed.
Lemma average_stays coef s v a b c k : finite_f32 s -> finite_f32 v -> finite_f32 coef -> Rabs (fval coef) <= bpow radix2 (- b) -> (0 <= b)%Z -> Rabs (fval v - fval s) <= bpow radix2 a -> (-149 <= a - b)%Z -> (a <= 126)%Z ->
  bpow radix2 c <= Rabs (fval s) <= bpow radix2 126 -> (a - b + 26 <= c)%Z ->
  Nat.iter k (fun s => iir_update fadd fsub fmul coef s v) s = s.
Proof.
  intros Fs Fv Fc Hco Hb Hv Hab Ha Bx Hc. assert (E : iir_update fadd fsub fmul coef s v = s).
  { unfold iir_update. destruct (fsub_b v s Fv Fs) as [F1 E1]. { eapply Rle_trans; [exact Hv|]. apply bpow_le. lia. }
    assert (B1 : Rabs (RN (fval v - fval s)) <= bpow radix2 a) by (apply RN_pow_le; [lia|exact Hv]).
    assert (B2 : Rabs (fval coef * RN (fval v - fval s)) <= bpow radix2 (a - b)).
    { rewrite Rabs_mult. replace (a - b)%Z with (- b + a)%Z by lia. rewrite bpow_plus. apply Rmult_le_compat; auto using Rabs_pos. }
    destruct (fmul_b coef (fsub v s) Fc F1) as [F3 E3]. { rewrite E1. eapply Rle_trans; [exact B2|]. apply bpow_le. lia. }
    apply stay with (c := c); auto. rewrite E3, E1. eapply Rle_trans; [apply RN_pow_le; [|exact B2]; lia|]. apply bpow_le. lia. }
  induction k as [|k IH]; [reflexivity|]. change (Nat.iter (S k) ?f ?x) with (f (Nat.iter k f x)). cbn beta. rewrite IH. exact E.
Qed.
