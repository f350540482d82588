From Coq Require Import QArith Lqa Floats.SpecFloat.
From Verif.Common Require Import Base Lemmas Lists F32.
From Verif.Spec Require Import GeometrySpec.
From Verif.Model Require Import Geometry.
From Verif.Proofs Require Import MathInt.
Open Scope Z_scope.

Ltac zb := rewrite ?Z.geb_leb, ?Z.gtb_ltb in *; repeat match goal with
  | |- context [?a <=? ?b] => destruct (Z.leb_spec a b)
  | |- context [?a <? ?b] => destruct (Z.ltb_spec a b)
  end; cbn [andb orb].
Lemma overlap_iff a b c d : a <= b -> c <= d -> (overlap a b c d <-> a <= d /\ c <= b).
Proof. intros H1 H2. unfold overlap. split; [intros (x & ? & ?); lia|]. intros [? ?]. exists (Z.max a c). lia. Qed.
Lemma y_sym r o : y_intersects r o = y_intersects o r.
Proof. unfold y_intersects. apply orb_comm. Qed.
Lemma y_spec r o : rc_top r <= rc_bottom r -> rc_top o <= rc_bottom o ->
  (y_intersects r o = true <-> overlap (rc_top r) (rc_bottom r) (rc_top o) (rc_bottom o)).
Proof. intros H1 H2. rewrite overlap_iff by assumption. unfold y_intersects. zb; split; intros; try lia; try reflexivity; discriminate. Qed.
Lemma x_spec r o : rc_left r <= rc_right r -> rc_left o <= rc_right o ->
  (x_intersects r o = true <-> overlap (rc_left r) (rc_right r) (rc_left o) (rc_right o) /\ ~ (rc_left r < rc_left o /\ rc_right o < rc_right r)).
Proof. intros H1 H2. rewrite overlap_iff by assumption. unfold x_intersects. zb; split; intros; try lia; try reflexivity; discriminate. Qed.
Lemma quot2_between a b : a <= b -> a <= Z.quot (a + b) 2 <= b.
Proof.
  intros H. destruct (Z_le_dec 0 (a + b)).
  - rewrite Z.quot_div_nonneg by lia. pose proof (Z.div_mod (a + b) 2 ltac:(lia)). pose proof (Z.mod_pos_bound (a + b) 2 ltac:(lia)). lia.
  - rewrite <- (Z.opp_involutive (a + b)), Z.quot_opp_l by lia. rewrite Z.quot_div_nonneg by lia.
    pose proof (Z.div_mod (- (a + b)) 2 ltac:(lia)). pose proof (Z.mod_pos_bound (- (a + b)) 2 ltac:(lia)). lia.
Qed.
Lemma centers_c a b : a <= b -> (let* s := schk 32 (a + b) in Ok (Z.quot s 2)) =
  if (- 2 ^ 31 <=? a + b) && (a + b <? 2 ^ 31) then Ok (Z.quot (a + b) 2) else UB SignedOverflow.
Proof. intros H. unfold schk. change (32 - 1) with 31. destruct (_ && _); reflexivity. Qed.
Lemma center_wh l w : 0 <= w -> l <= l + Z.quot w 2 <= l + w.
Proof. intros H. rewrite Z.quot_div_nonneg by lia. pose proof (Z.div_mod w 2 ltac:(lia)). pose proof (Z.mod_pos_bound w 2 ltac:(lia)). lia. Qed.

(* ---------------- concavity ---------------- *)
Lemma X_prod_inv o a b t : X_prod o a b = Ok t -> t = turn o a b.
Proof.
  unfold X_prod, turn. intros H.
  repeat (apply bind_inv in H as (? & HH & H); apply schk_inv in HH as [-> _]). apply schk_inv in H as [-> _]. reflexivity.
Qed.
Lemma X_prod_ok o a b : let small (p : Z * Z) := Z.abs (fst p) < 2 ^ 14 /\ Z.abs (snd p) < 2 ^ 14 in
  small o -> small a -> small b -> X_prod o a b = Ok (turn o a b).
Proof.
  cbv zeta. destruct o as [ox oy], a as [ax ay], b as [bx by_]. cbn [fst snd]. change (2 ^ 14) with 16384. intros Ho Ha Hb. unfold X_prod, turn. cbn [fst snd].
  assert (HP : forall x y, Z.abs x <= 32766 -> Z.abs y <= 32766 -> Z.abs (x * y) <= 1073610756).
  { intros x y Hx Hy. rewrite Z.abs_mul. change 1073610756 with (32766 * 32766). apply Z.mul_le_mono_nonneg; lia. }
  pose proof (HP (ax - ox) (by_ - oy) ltac:(lia) ltac:(lia)). pose proof (HP (ay - oy) (bx - ox) ltac:(lia) ltac:(lia)).
  change (2 ^ (32 - 1)) with 2147483648. do 6 (rewrite schk_ok by (change (2 ^ (32 - 1)) with 2147483648; lia); cbn [bind]).
  rewrite schk_ok by (change (2 ^ (32 - 1)) with 2147483648; lia). reflexivity.
Qed.
Lemma concave_loop_spec pts is : forall sign b, (forall i, In i is -> 0 <= i < zlen pts) -> 0 < zlen pts ->
  concave_loop pts is sign = Ok b ->
  (b = true <->
    (sign = 0 /\ (exists i t, In i is /\ turn_at pts i t /\ 0 < t) /\ (exists i t, In i is /\ turn_at pts i t /\ t < 0)) \/
    (0 < sign /\ exists i t, In i is /\ turn_at pts i t /\ t < 0) \/
    (sign < 0 /\ exists i t, In i is /\ turn_at pts i t /\ 0 < t)).
Proof.
  induction is as [|i is IH]; intros sign b Hi Hn H; cbn [concave_loop] in H.
  - injection H as <-. split; [discriminate|]. intros [(_ & (i & t & [] & _) & _)|[(_ & i & t & [] & _)|(_ & i & t & [] & _)]].
  - apply bind_inv in H as (o & Ho & H). apply bind_inv in H as (a & Ha & H). apply bind_inv in H as (c & Hc & H). apply bind_inv in H as (t & Ht & H).
    apply rd_inv in Ho, Ha, Hc. apply X_prod_inv in Ht.
    assert (TA : turn_at pts i t) by (exists o, a, c; splits; assumption).
    assert (TU : forall t', turn_at pts i t' -> t' = t).
    { intros t' (o' & a' & c' & E1 & E2 & E3 & E4). rewrite Ho in E1. rewrite Ha in E2. rewrite Hc in E3. congruence. }
    assert (EX : forall P : Z -> Prop, (exists j u, In j (i :: is) /\ turn_at pts j u /\ P u) <-> P t \/ exists j u, In j is /\ turn_at pts j u /\ P u).
    { intros P. split.
      - intros (j & u & [<-|HI] & T & Pu); [left; rewrite <- (TU u T); exact Pu|right; eauto].
      - intros [Pt|(j & u & HI & T & Pu)]; [exists i, t; cbn; auto|exists j, u; cbn; auto]. }
    rewrite !(EX (fun u => 0 < u)), !(EX (fun u => u < 0)).
    assert (HI' : forall j, In j is -> 0 <= j < zlen pts) by (intros j Hj; apply Hi; right; exact Hj).
    destruct (Z.eqb_spec t 0) as [E0|N0].
    + rewrite (IH sign b HI' Hn H). assert (~ 0 < t /\ ~ t < 0) by lia. tauto.
    + destruct (((if sign =? 0 then t else sign) >? 0) && (t <? 0) || ((if sign =? 0 then t else sign) <? 0) && (t >? 0)) eqn:C.
      * injection H as <-. split; [intros _|reflexivity]. rewrite !Z.gtb_ltb in C. destruct (Z.eqb_spec sign 0).
        -- destruct (Z.ltb_spec 0 t), (Z.ltb_spec t 0); cbn in C; try discriminate; lia.
        -- destruct (Z.ltb_spec 0 sign), (Z.ltb_spec sign 0), (Z.ltb_spec 0 t), (Z.ltb_spec t 0); cbn in C; try discriminate; try lia.
      * rewrite (IH _ b HI' Hn H). clear IH H. rewrite !Z.gtb_ltb in C. destruct (Z.eqb_spec sign 0) as [->|NS].
        -- destruct (Z_lt_dec 0 t) as [P|P].
           ++ assert (~ t < 0) by lia. assert (t <> 0) by lia. split.
              ** intros [(E & _)|[(_ & X)|(E & _)]]; [lia| |lia]. left. auto.
              ** intros [(_ & _ & [|X])|[(E & _)|(E & _)]]; try lia. right. left. auto.
           ++ assert (t < 0) by lia. split.
              ** intros [(E & _)|[(E & _)|(_ & X)]]; [lia|lia|]. left. auto.
              ** intros [(_ & [|X] & _)|[(E & _)|(E & _)]]; try lia. right. right. auto.
        -- assert (S1 : 0 < sign -> ~ t < 0).
           { intros A B. destruct (Z.ltb_spec 0 sign), (Z.ltb_spec t 0); cbn in C; try discriminate; lia. }
           assert (S2 : sign < 0 -> ~ 0 < t).
           { intros A B. destruct (Z.ltb_spec 0 sign), (Z.ltb_spec sign 0), (Z.ltb_spec 0 t), (Z.ltb_spec t 0); cbn in C; try discriminate; lia. }
           split.
           ++ intros [(E & _)|[(E & X)|(E & X)]]; [lia|right; left; auto|right; right; auto].
           ++ intros [(E & _)|[(E & [X|X])|(E & [X|X])]]; [lia|exfalso; apply (S1 E X)|right; left; auto|exfalso; apply (S2 E X)|right; right; auto].
Qed.
Lemma in_ztab_id n i : In i (ztab n (fun i => i)) <-> 0 <= i < n.
Proof.
  unfold ztab. rewrite in_map_iff. split.
  - intros (k & <- & Hk). apply in_seq in Hk. lia.
  - intros H. exists (Z.to_nat i). split; [lia|apply in_seq; lia].
Qed.
Lemma turn_at_range pts i t : turn_at pts i t -> 0 <= i < zlen pts.
Proof. intros (o & a & b & H & _). eapply znth_some_range; exact H. Qed.
Lemma concave_spec pts b : is_poly_concave pts = Ok b -> (b = true <-> turns_both_ways pts).
Proof.
  unfold is_poly_concave, turns_both_ways. destruct (Z.ltb_spec (zlen pts) 3) as [L|L]; intros H.
  - injection H as <-. split; [discriminate|lia].
  - rewrite (concave_loop_spec pts _ 0 b (fun i => proj1 (in_ztab_id _ i)) ltac:(lia) H). split.
    + intros [(_ & (i & t & _ & T & P) & (j & u & _ & T' & P'))|[(E & _)|(E & _)]]; try lia. splits; eauto.
    + intros (_ & (i & t & T & P) & (j & u & T' & P')). left. splits; [reflexivity|exists i, t|exists j, u]; splits; auto; apply in_ztab_id; eapply turn_at_range; eassumption.
Qed.
Lemma concave_total pts : Forall (fun p => Z.abs (fst p) < 2 ^ 14 /\ Z.abs (snd p) < 2 ^ 14) pts -> exists b, is_poly_concave pts = Ok b.
Proof.
  intros HF. unfold is_poly_concave. destruct (Z.ltb_spec (zlen pts) 3) as [L|L]; [eauto|].
  assert (G : forall is sign, (forall i, In i is -> 0 <= i < zlen pts) -> exists b, concave_loop pts is sign = Ok b).
  { induction is as [|i is IH]; intros sign Hi; cbn [concave_loop]; [eauto|].
    assert (R : forall j, 0 <= j < zlen pts -> exists p, rd pts j = Ok p /\ Z.abs (fst p) < 2 ^ 14 /\ Z.abs (snd p) < 2 ^ 14).
    { intros j Hj. destruct (znth_some pts j Hj) as (p & E). exists p. split; [apply rd_ok; exact E|]. rewrite Forall_forall in HF. apply HF.
      unfold znth in E. destruct (j <? 0); [discriminate|]. eapply nth_error_In; exact E. }
    destruct (R i) as (o & -> & So); [apply Hi; left; reflexivity|]. destruct (R ((i + 1) mod zlen pts)) as (a & -> & Sa); [apply Z.mod_pos_bound; lia|].
    destruct (R ((i + 2) mod zlen pts)) as (c & -> & Sc); [apply Z.mod_pos_bound; lia|]. cbn [bind]. rewrite X_prod_ok by assumption. cbn [bind].
    assert (HI' : forall j, In j is -> 0 <= j < zlen pts) by (intros j Hj; apply Hi; right; exact Hj).
    destruct (_ =? 0); [apply IH; exact HI'|]. destruct (_ || _); [eauto|apply IH; exact HI']. }
  apply G. intros i. apply in_ztab_id.
Qed.
Lemma Qtrunc_small q : (-(1) < q < 1)%Q -> Qtrunc q = 0.
Proof.
  destruct q as [n d]. unfold Qtrunc, Qlt. cbn [Qnum Qden]. intros [H1 H2]. cbn in *. apply Z.quot_small_iff; lia.
Qed.
Lemma concave_q_loop pts is : (forall i t, In i is -> qturn_at pts i t -> (-(1) < t < 1)%Q) -> (forall i, In i is -> 0 <= i < zlen pts) -> concave_loop_q pts is 0 = Ok false.
Proof.
  induction is as [|i is IH]; intros Ht Hi; [reflexivity|]. cbn [concave_loop_q].
  pose proof (Hi i (or_introl eq_refl)) as Hii.
  destruct (znth_some pts i Hii) as (o & Eo). destruct (znth_some pts ((i + 1) mod zlen pts)) as (a & Ea); [apply Z.mod_pos_bound; lia|].
  destruct (znth_some pts ((i + 2) mod zlen pts)) as (c & Ec); [apply Z.mod_pos_bound; lia|].
  rewrite (rd_ok _ _ _ Eo), (rd_ok _ _ _ Ea), (rd_ok _ _ _ Ec). cbn [bind].
  assert (HS : (-(1) < X_prod_q o a c < 1)%Q).
  { apply (Ht i); [left; reflexivity|]. exists o, a, c. splits; auto. }
  assert (IH' : concave_loop_q pts is 0 = Ok false) by (apply IH; intros; [eapply Ht; [right|]; eassumption|apply Hi; right; assumption]).
  destruct (Qeq_bool _ _); [exact IH'|]. rewrite Qtrunc_small by exact HS. exact IH'.
Qed.
Lemma concave_q_small pts : (forall i t, qturn_at pts i t -> (-(1) < t < 1)%Q) -> is_poly_concave_q pts = Ok false.
Proof.
  intros H. unfold is_poly_concave_q. destruct (zlen pts <? 3); [reflexivity|]. apply concave_q_loop; [intros i t _; apply H|]. intros i. apply in_ztab_id.
Qed.

(* ---------------- hysteresis ---------------- *)
Lemma Qltb_iff a b : Qltb a b = true <-> (a < b)%Q.
Proof. unfold Qltb. rewrite negb_true_iff, <- not_true_iff_false, Qle_bool_iff. split; [apply Qnot_le_lt|apply Qlt_not_le]. Qed.
Lemma gate_spec off on x :
  (hysteresis_gate off on 0 x = if Qltb ((on + off) * (1 # 2)) x then 1%Q else 0%Q) /\
  (hysteresis_gate off on 1 x = if Qltb off x then 1%Q else 0%Q).
Proof.
  unfold hysteresis_gate. split.
  - assert (E : Qltb ((on + off) * (1 # 2)) (x + (on - off) * (1 # 2) * 0) = Qltb ((on + off) * (1 # 2)) x) by (apply eq_true_iff_eq; rewrite !Qltb_iff; split; intros; lra).
    rewrite E. reflexivity.
  - assert (E : Qltb ((on + off) * (1 # 2)) (x + (on - off) * (1 # 2) * 1) = Qltb off x) by (apply eq_true_iff_eq; rewrite !Qltb_iff; split; intros; lra).
    rewrite E. reflexivity.
Qed.
Lemma feedback_spec coef thresh x :
  (hysteresis_feedback coef thresh 0 x = if Qltb thresh x then 1%Q else 0%Q) /\
  (hysteresis_feedback coef thresh 1 x = if Qltb (thresh - coef) x then 1%Q else 0%Q).
Proof.
  unfold hysteresis_feedback. split.
  - assert (E : Qltb thresh (x + 0 * coef) = Qltb thresh x) by (apply eq_true_iff_eq; rewrite !Qltb_iff; split; intros; lra). rewrite E. reflexivity.
  - assert (E : Qltb thresh (x + 1 * coef) = Qltb (thresh - coef) x) by (apply eq_true_iff_eq; rewrite !Qltb_iff; split; intros; lra). rewrite E. reflexivity.
Qed.
Lemma gate_early off on x : ((on + off) * (1 # 2) < x)%Q -> (x < on)%Q -> hysteresis_gate off on 0 x = 1%Q.
Proof. intros H _. rewrite (proj1 (gate_spec off on x)). rewrite (proj2 (Qltb_iff _ _) H). reflexivity. Qed.
Lemma gate_early_f : exists off on x : f32, SFltb off on = true /\ SFltb x on = true /\ hysteresis_gate_f off on f32_zero x = f32_one.
Proof. exists (f32_of 13421773 (-25)), (f32_of 10066330 (-24)), (f32_of 9227469 (-24)). splits; vm_compute; reflexivity. Qed.
Lemma not_symmetric r o :
    rc_left r < rc_left o -> rc_left o <= rc_right o -> rc_right o < rc_right r ->
    rc_top r <= rc_bottom r -> rc_top o <= rc_bottom o -> overlap (rc_top r) (rc_bottom r) (rc_top o) (rc_bottom o) ->
    is_intersecting r o = false /\ is_intersecting o r = true.
Proof.
  intros H1 H2 H3 H4 H5 H6. unfold is_intersecting.
  assert (E : y_intersects r o = true) by (apply y_spec; assumption). rewrite (y_sym o r), E. cbn [andb]. split.
  - apply not_true_is_false. rewrite x_spec by lia. intros [_ N]. lia.
  - apply x_spec; try lia. split; [exists (rc_left o); lia|lia].
Qed.
Lemma centers :
  (forall r : rectc, rc_left r <= rc_right r -> - 2 ^ 31 <= rc_left r + rc_right r < 2 ^ 31 ->
     exists c, rc_center_x r = Ok c /\ rc_left r <= c <= rc_right r) /\
  (forall r : rectc, rc_top r <= rc_bottom r -> - 2 ^ 31 <= rc_top r + rc_bottom r < 2 ^ 31 ->
     exists c, rc_center_y r = Ok c /\ rc_top r <= c <= rc_bottom r) /\
  (forall (r : rect) right, 0 <= r_width r -> - 2 ^ 31 <= r_left r -> r_right r = Ok right ->
     exists c, r_center_x r = Ok c /\ r_left r <= c <= right) /\
  (forall (r : rect) bottom, 0 <= r_height r -> - 2 ^ 31 <= r_top r -> r_bottom r = Ok bottom ->
     exists c, r_center_y r = Ok c /\ r_top r <= c <= bottom).
Proof.
  splits.
  - intros r H1 H2. unfold rc_center_x. rewrite schk_ok by exact H2. cbn [bind]. eexists. split; [reflexivity|apply quot2_between; exact H1].
  - intros r H1 H2. unfold rc_center_y. rewrite schk_ok by exact H2. cbn [bind]. eexists. split; [reflexivity|apply quot2_between; exact H1].
  - intros r x H1 H2 H. unfold r_right, r_center_x in *. apply schk_inv in H as [-> HR]. pose proof (center_wh (r_left r) (r_width r) H1). change (2 ^ 31) with (2 ^ (32 - 1)) in *.
    rewrite schk_ok by lia. eexists. split; [reflexivity|lia].
  - intros r x H1 H2 H. unfold r_bottom, r_center_y in *. apply schk_inv in H as [-> HR]. pose proof (center_wh (r_top r) (r_height r) H1). change (2 ^ 31) with (2 ^ (32 - 1)) in *.
    rewrite schk_ok by lia. eexists. split; [reflexivity|lia].
Qed.
Lemma center_overflow r : 2 ^ 31 <= rc_left r + rc_right r -> rc_center_x r = UB SignedOverflow.
Proof. intros H. unfold rc_center_x. rewrite schk_bad; [reflexivity|]. change (32 - 1) with 31. lia. Qed.

Lemma quot2_middle s : Z.abs (2 * Z.quot s 2 - s) <= 1.
Proof. pose proof (Z.quot_rem s 2 ltac:(lia)). pose proof (Z.rem_bound_abs s 2 ltac:(lia)). lia. Qed.
Lemma centers_middle :
  (forall (r : rectc) c, rc_center_x r = Ok c -> Z.abs (2 * c - (rc_left r + rc_right r)) <= 1) /\
  (forall (r : rectc) c, rc_center_y r = Ok c -> Z.abs (2 * c - (rc_top r + rc_bottom r)) <= 1) /\
  (forall (r : rect) c right, r_center_x r = Ok c -> r_right r = Ok right -> Z.abs (2 * c - (r_left r + right)) <= 1) /\
  (forall (r : rect) c bottom, r_center_y r = Ok c -> r_bottom r = Ok bottom -> Z.abs (2 * c - (r_top r + bottom)) <= 1).
Proof.
  splits.
  - intros r c H. unfold rc_center_x in H. apply bind_inv in H as (s & HS & H). apply schk_inv in HS as [-> _]. injection H as <-. apply quot2_middle.
  - intros r c H. unfold rc_center_y in H. apply bind_inv in H as (s & HS & H). apply schk_inv in HS as [-> _]. injection H as <-. apply quot2_middle.
  - intros r c x H1 H2. unfold r_center_x, r_right in *. apply schk_inv in H1 as [-> _]. apply schk_inv in H2 as [-> _]. pose proof (quot2_middle (r_width r)). lia.
  - intros r c x H1 H2. unfold r_center_y, r_bottom in *. apply schk_inv in H1 as [-> _]. apply schk_inv in H2 as [-> _]. pose proof (quot2_middle (r_height r)). lia.
Qed.
(** the corners of a rectangle given by its size *)
Lemma sizes_agree (r : rect) right bottom : - 2 ^ 31 <= r_width r < 2 ^ 31 -> - 2 ^ 31 <= r_height r < 2 ^ 31 ->
  r_right r = Ok right -> r_bottom r = Ok bottom ->
  let c := RectC (r_left r) (r_top r) right bottom in rc_width c = Ok (r_width r) /\ rc_height c = Ok (r_height r).
Proof.
  intros H1 H2 HR HB. unfold r_right, r_bottom in *. apply schk_inv in HR as [-> _]. apply schk_inv in HB as [-> _].
  unfold rc_width, rc_height. cbn [rc_left rc_top rc_right rc_bottom].
  replace (r_left r + r_width r - r_left r) with (r_width r) by lia. replace (r_top r + r_height r - r_top r) with (r_height r) by lia.
  rewrite !schk_ok by assumption. auto.
Qed.
Lemma size_overflow (r : rectc) : 2 ^ 31 <= rc_right r - rc_left r -> rc_width r = UB SignedOverflow.
Proof. intros H. unfold rc_width, schk. change (32 - 1) with 31. replace ((- 2 ^ 31 <=? rc_right r - rc_left r) && (rc_right r - rc_left r <? 2 ^ 31)) with false by lia. reflexivity. Qed.
