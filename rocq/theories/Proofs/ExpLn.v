(* Facts about the real exponential and logarithm: Taylor bounds, a fixed point evaluation with
   directed rounding, linear interpolation. *)
From Coq Require Import Reals Lra Lia ZArith List Psatz.
From Coquelicot Require Import Coquelicot.
Open Scope R_scope.

Lemma ladder (F f : R -> R) n : (forall x, derivable_pt_lim F x (f x)) -> F 0 = 0 -> (forall x, 0 <= x <= 1 -> 0 <= f x <= 3 * x ^ n) -> forall x, 0 <= x <= 1 -> 0 <= F x <= 3 * x ^ (S n).
Proof.
  intros HD H0 HB x Hx. destruct (Req_dec x 0) as [->|Hn]; [rewrite H0; cbn; lra|].
  destruct (MVT_cor2 F f 0 x) as (c & E & Hc); [lra|intros; apply HD|]. rewrite H0, !Rminus_0_r in E. rewrite E. destruct (HB c ltac:(lra)) as [B1 B2]. split; [nra|].
  replace (3 * x ^ S n) with (3 * x ^ n * x) by (cbn; ring). apply Rmult_le_compat_r; [lra|]. apply Rle_trans with (1 := B2). apply Rmult_le_compat_l; [lra|]. apply pow_incr. lra.
Qed.
Ltac derive := let z := fresh "z" in intros z; apply is_derive_Reals; auto_derive; [trivial|cbn; try field].
Lemma exp_0_3 x : 0 <= x <= 1 -> 0 <= exp x <= 3 * x ^ 0.
Proof. intros H. split; [left; apply exp_pos|]. cbn. rewrite Rmult_1_r. apply Rle_trans with (exp 1); [|apply exp_le_3]. destruct (Req_dec x 1) as [->|]; [lra|]. left. apply exp_increasing. lra. Qed.
Lemma exp_t1 x : 0 <= x <= 1 -> 0 <= exp x - 1 <= 3 * x ^ 1.
Proof. apply (ladder (fun x => exp x - 1) exp); [derive|rewrite exp_0; ring|exact exp_0_3]. Qed.
Lemma exp_t2 x : 0 <= x <= 1 -> 0 <= exp x - (1 + x) <= 3 * x ^ 2.
Proof. apply (ladder (fun x => exp x - (1 + x)) (fun x => exp x - 1)); [derive|rewrite exp_0; ring|exact exp_t1]. Qed.
Lemma exp_t3 x : 0 <= x <= 1 -> 0 <= exp x - (1 + x + x ^ 2 / 2) <= 3 * x ^ 3.
Proof. apply (ladder (fun x => exp x - (1 + x + x ^ 2 / 2)) (fun x => exp x - (1 + x))); [derive|rewrite exp_0; field|exact exp_t2]. Qed.
Lemma exp_t4 x : 0 <= x <= 1 -> 0 <= exp x - (1 + x + x ^ 2 / 2 + x ^ 3 / 6) <= 3 * x ^ 4.
Proof. apply (ladder (fun x => exp x - (1 + x + x ^ 2 / 2 + x ^ 3 / 6)) (fun x => exp x - (1 + x + x ^ 2 / 2))); [derive|rewrite exp_0; field|exact exp_t3]. Qed.
Lemma exp_t5 x : 0 <= x <= 1 -> 0 <= exp x - (1 + x + x ^ 2 / 2 + x ^ 3 / 6 + x ^ 4 / 24) <= 3 * x ^ 5.
Proof. apply (ladder (fun x => exp x - (1 + x + x ^ 2 / 2 + x ^ 3 / 6 + x ^ 4 / 24)) (fun x => exp x - (1 + x + x ^ 2 / 2 + x ^ 3 / 6))); [derive|rewrite exp_0; field|exact exp_t4]. Qed.
Lemma exp_t6 x : 0 <= x <= 1 -> 0 <= exp x - (1 + x + x ^ 2 / 2 + x ^ 3 / 6 + x ^ 4 / 24 + x ^ 5 / 120) <= 3 * x ^ 6.
Proof. apply (ladder (fun x => exp x - (1 + x + x ^ 2 / 2 + x ^ 3 / 6 + x ^ 4 / 24 + x ^ 5 / 120)) (fun x => exp x - (1 + x + x ^ 2 / 2 + x ^ 3 / 6 + x ^ 4 / 24))); [derive|rewrite exp_0; field|exact exp_t5]. Qed.

(** fixed point numbers in units of 1/W, rounded down or up *)
Definition W : Z := (2 ^ 64)%Z.
Definition dn (z : Z) : Z := Z.shiftr z 64.
Definition up (z : Z) : Z := (- dn (- z))%Z.
Definition cdiv (a b : Z) : Z := (- ((- a) / b))%Z.
Lemma W_pos : 0 < IZR W. Proof. apply IZR_lt. reflexivity. Qed.
Lemma div_le a b : (0 < b)%Z -> IZR (a / b) <= IZR a / IZR b.
Proof. intros H. apply Rmult_le_reg_r with (IZR b); [apply IZR_lt; lia|]. unfold Rdiv. rewrite Rmult_assoc, Rinv_l by (apply IZR_neq; lia). rewrite Rmult_1_r, <- mult_IZR. apply IZR_le. rewrite Z.mul_comm. apply Z.mul_div_le. lia. Qed.
Lemma cdiv_ge a b : (0 < b)%Z -> IZR a / IZR b <= IZR (cdiv a b).
Proof. intros H. unfold cdiv. pose proof (div_le (- a) b H) as L. rewrite !opp_IZR in *. unfold Rdiv in *. lra. Qed.
Lemma dn_le z : IZR (dn z) <= IZR z / IZR W.
Proof. unfold dn. rewrite Z.shiftr_div_pow2 by lia. apply div_le. reflexivity. Qed.
Lemma up_ge z : IZR z / IZR W <= IZR (up z).
Proof. unfold up. pose proof (dn_le (- z)) as L. rewrite !opp_IZR in *. unfold Rdiv in *. lra. Qed.
Lemma dn_pos z : (0 <= z)%Z -> (0 <= dn z)%Z.
Proof. intros H. unfold dn. apply Z.shiftr_nonneg. exact H. Qed.
Lemma up_pos z : (0 <= z)%Z -> (0 <= up z)%Z.
Proof. intros H. unfold up, dn. rewrite Z.shiftr_div_pow2 by lia. pose proof (Z.div_le_upper_bound (- z) (2 ^ 64) 0 ltac:(reflexivity) ltac:(lia)). lia. Qed.

(** exp (a / W) for 0 <= a <= W *)
Definition lo_step (a c h : Z) : Z := (W + dn (a * h) / c)%Z.
Definition hi_step (a c h : Z) : Z := (W + cdiv (up (a * h)) c)%Z.
Definition taylor_lo (a : Z) : Z := lo_step a 1 (lo_step a 2 (lo_step a 3 (lo_step a 4 (lo_step a 5 W)))).
Definition taylor_hi (a : Z) : Z :=
  let s := up (a * a) in (hi_step a 1 (hi_step a 2 (hi_step a 3 (hi_step a 4 (hi_step a 5 W)))) + 3 * up (up (s * s) * s))%Z.
Fixpoint sq_lo (k : nat) (v : Z) : Z := match k with O => v | S k => sq_lo k (dn (v * v)) end.
Fixpoint sq_hi (k : nat) (v : Z) : Z := match k with O => v | S k => sq_hi k (up (v * v)) end.
(** exp (y / M), for 0 <= y, y / M <= 2^k *)
Definition exp_lo (k : nat) (y M : Z) : Z := sq_lo k (taylor_lo (y * W / (M * 2 ^ Z.of_nat k))).
Definition exp_hi (k : nat) (y M : Z) : Z := sq_hi k (taylor_hi (cdiv (y * W) (M * 2 ^ Z.of_nat k))).

Definition fx (z : Z) : R := IZR z / IZR W.
Lemma fx_pos z : (0 <= z)%Z -> 0 <= fx z.
Proof. intros H. apply Rmult_le_pos; [apply IZR_le; exact H|left; apply Rinv_0_lt_compat, W_pos]. Qed.
Lemma fx_dn a b : fx (dn (a * b)) <= fx a * fx b.
Proof. unfold fx. pose proof W_pos as WP. pose proof (dn_le (a * b)) as L. rewrite mult_IZR in L. apply Rmult_le_reg_r with (IZR W); [exact WP|]. replace (IZR (dn (a * b)) / IZR W * IZR W) with (IZR (dn (a * b))) by (field; lra). replace (IZR a / IZR W * (IZR b / IZR W) * IZR W) with (IZR a * IZR b / IZR W) by (field; lra). exact L. Qed.
Lemma fx_up a b : fx a * fx b <= fx (up (a * b)).
Proof. unfold fx. pose proof W_pos as WP. pose proof (up_ge (a * b)) as L. rewrite mult_IZR in L. apply Rmult_le_reg_r with (IZR W); [exact WP|]. replace (IZR (up (a * b)) / IZR W * IZR W) with (IZR (up (a * b))) by (field; lra). replace (IZR a / IZR W * (IZR b / IZR W) * IZR W) with (IZR a * IZR b / IZR W) by (field; lra). exact L. Qed.
Lemma fx_div z c : (0 < c)%Z -> fx (z / c) <= fx z / IZR c.
Proof. intros H. unfold fx. pose proof W_pos as WP. pose proof (div_le z c H) as L. replace (IZR z / IZR W / IZR c) with (IZR z / IZR c / IZR W) by (field; split; try (apply IZR_neq; lia); lra). apply Rmult_le_compat_r; [left; apply Rinv_0_lt_compat; exact WP|exact L]. Qed.
Lemma fx_cdiv z c : (0 < c)%Z -> fx z / IZR c <= fx (cdiv z c).
Proof. intros H. unfold fx. pose proof W_pos as WP. pose proof (cdiv_ge z c H) as L. replace (IZR z / IZR W / IZR c) with (IZR z / IZR c / IZR W) by (field; split; try (apply IZR_neq; lia); lra). apply Rmult_le_compat_r; [left; apply Rinv_0_lt_compat; exact WP|exact L]. Qed.
Lemma fx_W z : fx (W + z) = 1 + fx z.
Proof. unfold fx. rewrite plus_IZR. pose proof W_pos. field. lra. Qed.
Lemma lo_step_ok a c h H : (0 <= a)%Z -> (0 < c)%Z -> (0 <= h)%Z -> fx h <= H -> (0 <= lo_step a c h)%Z /\ fx (lo_step a c h) <= 1 + fx a / IZR c * H.
Proof.
  intros Ha Hc Hh HH. unfold lo_step. split. { pose proof (dn_pos (a * h) ltac:(nia)). pose proof (Z.div_pos (dn (a * h)) c ltac:(lia) Hc). assert (0 < W)%Z by reflexivity. lia. }
  rewrite fx_W. apply Rplus_le_compat_l. apply Rle_trans with (1 := fx_div _ _ Hc). assert (HC : 0 < IZR c) by (apply IZR_lt; lia).
  replace (fx a / IZR c * H) with (fx a * H / IZR c) by (field; lra). apply Rmult_le_compat_r; [left; apply Rinv_0_lt_compat; exact HC|]. apply Rle_trans with (1 := fx_dn a h). apply Rmult_le_compat_l; [apply fx_pos; exact Ha|exact HH].
Qed.
Lemma hi_step_ok a c h H : (0 <= a)%Z -> (0 < c)%Z -> H <= fx h -> 1 + fx a / IZR c * H <= fx (hi_step a c h).
Proof.
  intros Ha Hc HH. unfold hi_step. rewrite fx_W. apply Rplus_le_compat_l. apply Rle_trans with (2 := fx_cdiv _ _ Hc). assert (HC : 0 < IZR c) by (apply IZR_lt; lia).
  replace (fx a / IZR c * H) with (fx a * H / IZR c) by (field; lra). apply Rmult_le_compat_r; [left; apply Rinv_0_lt_compat; exact HC|]. apply Rle_trans with (2 := fx_up a h). apply Rmult_le_compat_l; [apply fx_pos; exact Ha|exact HH].
Qed.
Lemma horner x : 1 + x / 1 * (1 + x / 2 * (1 + x / 3 * (1 + x / 4 * (1 + x / 5 * 1)))) = 1 + x + x ^ 2 / 2 + x ^ 3 / 6 + x ^ 4 / 24 + x ^ 5 / 120.
Proof. field. Qed.
Lemma fxW1 : fx W = 1. Proof. unfold fx. field. pose proof W_pos. lra. Qed.
Lemma taylor_ok a : (0 <= a <= W)%Z -> (0 <= taylor_lo a)%Z /\ fx (taylor_lo a) <= exp (fx a) <= fx (taylor_hi a).
Proof.
  intros Ha. assert (Hx : 0 <= fx a <= 1). { split; [apply fx_pos; lia|]. rewrite <- fxW1. unfold fx. apply Rmult_le_compat_r; [left; apply Rinv_0_lt_compat, W_pos|apply IZR_le; lia]. }
  pose proof (exp_t6 _ Hx) as T. rewrite <- horner in T. assert (H0 : (0 <= a)%Z) by lia. 
  destruct (lo_step_ok a 5 W 1 H0 eq_refl ltac:(discriminate) ltac:(rewrite fxW1; lra)) as [P5 L5]. destruct (lo_step_ok a 4 _ _ H0 eq_refl P5 L5) as [P4 L4]. destruct (lo_step_ok a 3 _ _ H0 eq_refl P4 L4) as [P3 L3]. destruct (lo_step_ok a 2 _ _ H0 eq_refl P3 L3) as [P2 L2]. destruct (lo_step_ok a 1 _ _ H0 eq_refl P2 L2) as [P1 L1].
  split; [exact P1|]. split; [unfold taylor_lo; lra|].
  pose proof (hi_step_ok a 5 W 1 H0 eq_refl ltac:(rewrite fxW1; lra)) as U5. pose proof (hi_step_ok a 4 _ _ H0 eq_refl U5) as U4. pose proof (hi_step_ok a 3 _ _ H0 eq_refl U4) as U3. pose proof (hi_step_ok a 2 _ _ H0 eq_refl U3) as U2. pose proof (hi_step_ok a 1 _ _ H0 eq_refl U2) as U1.
  unfold taylor_hi. set (s := up (a * a)). assert (S1 : fx a ^ 2 <= fx s) by (replace (fx a ^ 2) with (fx a * fx a) by ring; apply fx_up). assert (S0 : 0 <= fx a ^ 2) by (apply pow_le; lra).
  assert (S2 : fx a ^ 4 <= fx (up (s * s))). { apply Rle_trans with (2 := fx_up s s). replace (fx a ^ 4) with (fx a ^ 2 * fx a ^ 2) by ring. apply Rmult_le_compat; lra. }
  assert (S3 : fx a ^ 6 <= fx (up (up (s * s) * s))). { apply Rle_trans with (2 := fx_up _ s). replace (fx a ^ 6) with (fx a ^ 4 * fx a ^ 2) by ring. apply Rmult_le_compat; auto. apply pow_le; lra. }
  set (hh := hi_step a 1 _) in *. assert (EA : fx (hh + 3 * up (up (s * s) * s)) = fx hh + 3 * fx (up (up (s * s) * s))) by (unfold fx; rewrite plus_IZR, mult_IZR; field; pose proof W_pos; lra). rewrite EA. lra.
Qed.
Lemma sq_lo_ok k : forall v x, (0 <= v)%Z -> fx v <= exp x -> (0 <= sq_lo k v)%Z /\ fx (sq_lo k v) <= exp (x * 2 ^ k).
Proof.
  induction k as [|k IH]; intros v x Hv H; cbn [sq_lo]; [rewrite pow_O, Rmult_1_r; auto|].
  replace (x * 2 ^ S k) with ((x + x) * 2 ^ k) by (cbn; ring). apply IH; [apply dn_pos; nia|]. rewrite exp_plus. apply Rle_trans with (1 := fx_dn v v). apply Rmult_le_compat; auto using fx_pos.
Qed.
Lemma sq_hi_ok k : forall v x, exp x <= fx v -> exp (x * 2 ^ k) <= fx (sq_hi k v).
Proof.
  induction k as [|k IH]; intros v x H; cbn [sq_hi]; [rewrite pow_O, Rmult_1_r; auto|].
  replace (x * 2 ^ S k) with ((x + x) * 2 ^ k) by (cbn; ring). apply IH. rewrite exp_plus. apply Rle_trans with (2 := fx_up v v). pose proof (exp_pos x). apply Rmult_le_compat; lra.
Qed.
Lemma exp_le_mono0 a b : a <= b -> exp a <= exp b.
Proof. intros [H| ->]; [left; apply exp_increasing; exact H|lra]. Qed.
Lemma scaled k y M : (0 < M)%Z -> IZR y / IZR M = IZR (y * W) / IZR (M * 2 ^ Z.of_nat k) / IZR W * 2 ^ k.
Proof. intros HM. rewrite !mult_IZR, (pow_IZR 2 k). pose proof W_pos. pose proof (Z.pow_pos_nonneg 2 (Z.of_nat k)). field. repeat split; try lra; apply IZR_neq; lia. Qed.
Lemma pow_nonneg2 k : 0 <= 2 ^ k. Proof. apply pow_le. lra. Qed.
Lemma exp_lo_ok k y M : (0 <= y <= M * 2 ^ Z.of_nat k)%Z -> (0 < M)%Z -> IZR (exp_lo k y M) / IZR W <= exp (IZR y / IZR M).
Proof.
  intros Hy HM. assert (HP : (0 < 2 ^ Z.of_nat k)%Z) by (apply Z.pow_pos_nonneg; lia). unfold exp_lo. set (M' := (M * 2 ^ Z.of_nat k)%Z) in *. assert (HM' : (0 < M')%Z) by (unfold M'; nia). assert (WP : (0 < W)%Z) by reflexivity.
  set (a := (y * W / M')%Z). assert (Ha : (0 <= a <= W)%Z) by (unfold a; split; [apply Z.div_pos; nia|apply Z.div_le_upper_bound; nia]). destruct (taylor_ok a Ha) as (P & L & _).
  destruct (sq_lo_ok k _ _ P L) as [_ R]. apply Rle_trans with (1 := R). apply exp_le_mono0. rewrite (scaled k y M HM). fold M'. apply Rmult_le_compat_r; [apply pow_nonneg2|]. unfold fx. apply Rmult_le_compat_r; [left; apply Rinv_0_lt_compat, W_pos|]. apply div_le. exact HM'.
Qed.
Lemma exp_hi_ok k y M : (0 <= y <= M * 2 ^ Z.of_nat k)%Z -> (0 < M)%Z -> exp (IZR y / IZR M) <= IZR (exp_hi k y M) / IZR W.
Proof.
  intros Hy HM. assert (HP : (0 < 2 ^ Z.of_nat k)%Z) by (apply Z.pow_pos_nonneg; lia). unfold exp_hi. set (M' := (M * 2 ^ Z.of_nat k)%Z) in *. assert (HM' : (0 < M')%Z) by (unfold M'; nia). assert (WP : (0 < W)%Z) by reflexivity.
  set (a := cdiv (y * W) M'). assert (Ha : (0 <= a <= W)%Z). { unfold a, cdiv. split; [pose proof (Z.div_le_upper_bound (- (y * W)) M' 0 HM' ltac:(nia)); lia|]. pose proof (Z.div_le_lower_bound (- (y * W)) M' (- W) HM' ltac:(nia)). lia. } destruct (taylor_ok a Ha) as (_ & _ & U).
  pose proof (sq_hi_ok k _ _ U) as R. apply Rle_trans with (2 := R). apply exp_le_mono0. rewrite (scaled k y M HM). fold M'. apply Rmult_le_compat_r; [apply pow_nonneg2|]. unfold fx. apply Rmult_le_compat_r; [left; apply Rinv_0_lt_compat, W_pos|]. apply cdiv_ge. exact HM'.
Qed.

Lemma exp_le_mono a b : a <= b -> exp a <= exp b.
Proof. intros [H| ->]; [left; apply exp_increasing; exact H|lra]. Qed.
Lemma ln_le_mono a b : 0 < a -> a <= b -> ln a <= ln b.
Proof. intros H [L| ->]; [left; apply ln_increasing; assumption|lra]. Qed.
(** bounds on ln from bounds on exp *)
Lemma ln_ge k y M v : (0 <= y <= M * 2 ^ Z.of_nat k)%Z -> (0 < M)%Z -> IZR (exp_hi k y M) / IZR W <= v -> IZR y / IZR M <= ln v.
Proof. intros Hy HM H. pose proof (exp_hi_ok k y M Hy HM) as E. rewrite <- (ln_exp (IZR y / IZR M)). apply ln_le_mono; [apply exp_pos|lra]. Qed.
Lemma ln_le k y M v : (0 <= y <= M * 2 ^ Z.of_nat k)%Z -> (0 < M)%Z -> 0 < v -> v <= IZR (exp_lo k y M) / IZR W -> ln v <= IZR y / IZR M.
Proof. intros Hy HM H0 H. pose proof (exp_lo_ok k y M Hy HM) as E. rewrite <- (ln_exp (IZR y / IZR M)). apply ln_le_mono; [exact H0|lra]. Qed.
Lemma ln2_bounds : 69314718055 / 10 ^ 11 <= ln 2 <= 69314718057 / 10 ^ 11.
Proof.
  pose proof W_pos as WP. split.
  - apply Rle_trans with (IZR 69314718055 / IZR (10 ^ 11)); [change (IZR (10 ^ 11)) with 100000000000; lra|]. apply (ln_ge 10); [split; [lia|vm_compute; discriminate]|reflexivity|].
    apply Rmult_le_reg_r with (IZR W); [exact WP|]. unfold Rdiv. rewrite Rmult_assoc, Rinv_l by lra. rewrite Rmult_1_r, <- mult_IZR. apply IZR_le. vm_compute. discriminate.
  - apply Rle_trans with (IZR 69314718057 / IZR (10 ^ 11)); [|change (IZR (10 ^ 11)) with 100000000000; lra]. apply (ln_le 10); [split; [lia|vm_compute; discriminate]|reflexivity|lra|].
    apply Rmult_le_reg_r with (IZR W); [exact WP|]. unfold Rdiv. rewrite Rmult_assoc, Rinv_l by lra. rewrite Rmult_1_r, <- mult_IZR. apply IZR_le. vm_compute. discriminate.
Qed.
