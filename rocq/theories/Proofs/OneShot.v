From Coq Require Import QArith Lqa Reals Lra Floats.SpecFloat.
From Flocq Require Import Core.
From Verif.Common Require Import Base Lemmas F32 F32Order F32Real F32Arith.
From Verif.Spec Require Import OneShotSpec.
From Verif.Model Require Import Oscs OneShot.
From Verif.Proofs Require History Absorb CircularMix Audio.

Section Q.
Open Scope Q_scope.
Definition quiet {A} (o : oop A) : Prop := ~ is_start o /\ ~ is_stop o.
Lemma pos_dec hz : negb (Qle_bool hz 0) = if Qlt_le_dec 0 hz then true else false.
Proof.
  destruct (Qlt_le_dec 0 hz) as [H|H]; destruct (Qle_bool hz 0) eqn:E; try reflexivity.
  - apply Qle_bool_iff in E. exfalso. Lqa.lra.
  - apply Qle_bool_iff in H. congruence.
Qed.
Lemma inv_pos hz : 0 < hz -> 0 < 1 / hz.
Proof. intros H. unfold Qdiv. rewrite Qmult_1_l. apply Qinv_lt_0_compat. exact H. Qed.
Lemma elapsed_nonneg h : forall t, 0 < t -> 0 <= elapsed t h.
Proof.
  induction h as [|o h IH]; intros t Ht; cbn [elapsed]; [Lqa.lra|]. destruct o; auto.
  - specialize (IH t Ht). Lqa.lra.
  - destruct (Qlt_le_dec 0 hz) as [H|H]; apply IH; auto using inv_pos.
Qed.
Lemma run_tick h : forall t w, fst (fst (srun os_step_q (t, w) h)) = tick t h.
Proof.
  induction h as [|o h IH]; intros t w; [reflexivity|]. destruct o as [x| | |hz]; cbn [srun os_step_q tick].
  - specialize (IH t x). destruct (srun os_step_q (t, x) h). exact IH.
  - destruct (oneshot_update_q t w) as [w' r]. specialize (IH t w'). destruct (srun os_step_q (t, w') h). exact IH.
  - specialize (IH t 0). destruct (srun os_step_q (t, 0) h). exact IH.
  - rewrite pos_dec. destruct (Qlt_le_dec 0 hz); [specialize (IH (1 / hz) w)|specialize (IH t w)]; destruct (srun os_step_q _ h); exact IH.
Qed.
Lemma tick_pos h : forall t, 0 < t -> 0 < tick t h.
Proof. induction h as [|o h IH]; intros t Ht; [exact Ht|]. destruct o; cbn [tick]; auto. destruct (Qlt_le_dec 0 hz); apply IH; auto using inv_pos. Qed.
Lemma run_width h : forall t w, 0 < t -> Forall quiet h -> let w' := snd (fst (srun os_step_q (t, w) h)) in
  (elapsed t h < w -> w' == w - elapsed t h) /\ (w <= elapsed t h -> w' <= 0).
Proof.
  induction h as [|o h IH]; intros t w Ht HF; cbn zeta.
  - cbn [srun fst snd elapsed]. split; intros; Lqa.lra.
  - inversion HF as [|? ? Ho HF']; subst. destruct o as [x| | |hz]; cbn [srun os_step_q elapsed]; try (destruct Ho as [H1 H2]; exfalso; cbn in H1, H2; tauto).
    + pose proof (elapsed_nonneg h t Ht) as En. unfold oneshot_update_q. rewrite pos_dec. destruct (Qlt_le_dec 0 w) as [H|H].
      * specialize (IH t (w - t) Ht HF'). cbn zeta in IH. destruct (srun os_step_q (t, w - t) h) as [[i w'] os]. cbn [fst snd] in *. destruct IH as [I1 I2]. split; intros.
        -- rewrite I1; Lqa.lra.
        -- apply I2. Lqa.lra.
      * specialize (IH t w Ht HF'). cbn zeta in IH. destruct (srun os_step_q (t, w) h) as [[i w'] os]. cbn [fst snd] in *. destruct IH as [I1 I2]. split; intros; [exfalso; Lqa.lra|apply I2; Lqa.lra].
    + rewrite pos_dec. destruct (Qlt_le_dec 0 hz) as [H|H].
      * specialize (IH (1 / hz) w (inv_pos hz H) HF'). cbn zeta in IH. destruct (srun os_step_q (1 / hz, w) h). exact IH.
      * specialize (IH t w Ht HF'). cbn zeta in IH. destruct (srun os_step_q (t, w) h). exact IH.
Qed.
Lemma upd_true t w : snd (os_step_q (t, w) OUpdate) = true <-> 0 < w.
Proof. cbn [os_step_q]. unfold oneshot_update_q. rewrite pos_dec. destruct (Qlt_le_dec 0 w) as [H|H]; cbn; split; auto; try discriminate. intros. exfalso. Lqa.lra. Qed.
Lemma pulse hz pre w post : 0 < hz -> Forall quiet post ->
  (snd (os_step_q (fst (srun os_step_q (os_init_q hz) (pre ++ OStart w :: post))) OUpdate) = true <-> elapsed (tick (1 / hz) pre) post < w).
Proof.
  intros Hz HF. rewrite History.srun_app. set (s1 := fst (srun os_step_q (os_init_q hz) pre)).
  assert (E1 : fst s1 = tick (1 / hz) pre) by apply run_tick. destruct s1 as [t w0]. cbn [fst] in E1. subst t. cbn [srun os_step_q].
  pose proof (run_width post (tick (1 / hz) pre) w (tick_pos pre _ (inv_pos hz Hz)) HF) as RW. cbn zeta in RW.
  destruct (srun os_step_q (tick (1 / hz) pre, w) post) as [[t2 w2] os]. cbn [fst snd] in *. rewrite upd_true. destruct RW as [R1 R2].
  split; intros H.
  - destruct (Qlt_le_dec (elapsed (tick (1 / hz) pre) post) w) as [L|L]; [exact L|]. specialize (R2 L). Lqa.lra.
  - rewrite (R1 H). Lqa.lra.
Qed.
End Q.

(* single precision *)
Lemma srun_cons {S O R} (f : S -> O -> S * R) s o h : fst (srun f s (o :: h)) = fst (srun f (fst (f s o)) h) /\ snd (srun f s (o :: h)) = snd (f s o) :: snd (srun f (fst (f s o)) h).
Proof. cbn [srun]. destruct (f s o) as [s1 r]. cbn [fst snd]. destruct (srun f s1 h). split; reflexivity. Qed.
Lemma idle_step s o : SFltb f32_zero (snd s) = false -> ~ is_start o -> snd (os_step s o) = false /\ SFltb f32_zero (snd (fst (os_step s o))) = false.
Proof.
  destruct s as [inc w]. intros H Ho. cbn [snd] in H. destruct o as [x| | |hz]; cbn [os_step fst snd].
  - exfalso. apply Ho. exact I.
  - unfold oneshot_update. rewrite H. split; [reflexivity|exact H].
  - split; reflexivity.
  - split; [reflexivity|exact H].
Qed.
Lemma idle_stays h : forall s, SFltb f32_zero (snd s) = false -> Forall (fun o => ~ is_start o) h ->
  Forall (fun b => b = false) (snd (srun os_step s h)) /\ SFltb f32_zero (snd (fst (srun os_step s h))) = false.
Proof.
  induction h as [|o h IH]; intros s H HF; [split; [constructor|exact H]|]. inversion HF as [|? ? Ho HF']; subst.
  destruct (idle_step s o H Ho) as [E1 E2]. destruct (srun_cons os_step s o h) as [F1 F2]. rewrite F1, F2. destruct (IH _ E2 HF'). split; [constructor; assumption|assumption].
Qed.
Lemma silent hz pre post : Forall (fun o => ~ is_start o) post ->
  Forall (fun b => b = false) (snd (srun os_step (os_init hz) post)) /\
  Forall (fun b => b = false) (snd (srun os_step (fst (srun os_step (os_init hz) (pre ++ [OStop]))) post)).
Proof.
  intros HF. split; [apply (idle_stays post (os_init hz) eq_refl HF)|]. apply idle_stays; [|exact HF]. rewrite History.srun_app.
  destruct (fst (srun os_step (os_init hz) pre)) as [i w]. reflexivity.
Qed.
Lemma rate_ignored s hz : SFltb f32_zero hz = false -> os_step s (ORate hz) = (s, false).
Proof. intros H. destruct s as [i w]. cbn [os_step]. rewrite H. reflexivity. Qed.

Open Scope R_scope.
Lemma zval : fval f32_zero = 0. Proof. apply zero_b. Qed.
Lemma ltb_pos x : valid_f32 x -> SFltb f32_zero x = true -> x = S754_infinity false \/ finite_f32 x /\ 0 < fval x.
Proof.
  intros V H. destruct (ffinite x) eqn:F.
  - right. split; [split; assumption|]. rewrite <- zval. apply fltb_val; auto. apply zero_b.
  - left. destruct x as [s|s| |s m e]; try discriminate. destruct s; [discriminate H|reflexivity].
Qed.
Lemma pos_ltb x : valid_f32 x -> ffinite x = true -> 0 < fval x -> SFltb f32_zero x = true.
Proof. intros V F H. apply (proj2 (fltb_val f32_zero x (proj1 (proj1 zero_b)) V (proj2 (proj1 zero_b)) F)). rewrite zval. exact H. Qed.
Lemma grows inc w : valid_f32 inc -> valid_f32 w -> SFltb f32_zero w = true -> SFleb inc f32_zero = true -> valid_f32 (fsub w inc) /\ SFltb f32_zero (fsub w inc) = true.
Proof.
  intros Vi Vw Hw Hi. split; [apply fsub_valid; assumption|]. destruct (ltb_pos w Vw Hw) as [->|[Fw Pw]].
  - destruct inc as [s|s| |s m e]; try discriminate Hi; try reflexivity. destruct s; [reflexivity|discriminate Hi].
  - destruct (ffinite inc) eqn:Fi.
    + assert (Hn : fval inc <= 0) by (rewrite <- zval; apply fleb_val; auto; apply zero_b).
      destruct (fsub_rounds w inc Vw Vi (proj2 Fw) Fi) as [(_ & E & F)|(B & E)].
      * apply pos_ltb; [apply fsub_valid; assumption|exact F|]. rewrite E. apply Rlt_le_trans with (fval w); [exact Pw|]. rewrite <- (RN_id (fval w)) at 1 by (apply fval_in; exact Vw). apply RN_le. lra.
      * rewrite E. rewrite Rlt_bool_false by lra. reflexivity.
    + destruct inc as [s|s| |s m e]; try discriminate. destruct s; [|discriminate Hi]. destruct w as [s2|s2| |s2 m2 e2]; try discriminate Hw; try reflexivity. destruct s2; [discriminate Hw|reflexivity].
Qed.
Lemma neg_inverse hz : valid_f32 hz -> SFltb hz f32_zero = true -> valid_f32 (fdiv f32_one hz) /\ SFleb (fdiv f32_one hz) f32_zero = true.
Proof.
  intros V H. destruct one_b as [[V1 F1] Eo]. pose proof (fdiv_valid _ _ V1 V) as Vd. split; [exact Vd|]. destruct (ffinite hz) eqn:Fh.
  - assert (Hn : fval hz < 0) by (rewrite <- zval; apply fltb_val; auto; apply zero_b).
    apply frounds_le with (r := fval f32_one / fval hz); auto; try apply zero_b.
    + apply fdiv_rounds; auto. lra.
    + rewrite zval, Eo. unfold Rdiv. rewrite Rmult_1_l. left. apply Rinv_lt_0_compat. exact Hn.
  - destruct hz as [s|s| |s m e]; try discriminate. destruct s; [reflexivity|discriminate H].
Qed.
Lemma endless n : forall inc w, valid_f32 inc -> valid_f32 w -> SFltb f32_zero w = true -> SFleb inc f32_zero = true ->
  Forall (fun b => b = true) (snd (srun os_step (inc, w) (repeat OUpdate n))).
Proof.
  induction n as [|n IH]; intros inc w Vi Vw Hw Hi; [constructor|]. cbn [repeat]. rewrite (proj2 (srun_cons os_step (inc, w) OUpdate _)). cbn [os_step]. unfold oneshot_update. rewrite Hw. cbn [fst snd].
  destruct (grows inc w Vi Vw Hw Hi) as [V2 H2]. constructor; [reflexivity|]. apply IH; assumption.
Qed.
Lemma negative_rate hz w n : valid_f32 hz -> valid_f32 w -> SFltb hz f32_zero = true -> SFltb f32_zero w = true ->
  Forall (fun b => b = true) (snd (srun os_step (fst (os_step (os_init hz) (OStart w))) (repeat OUpdate n))).
Proof. intros Vz Vw Hz Hw. destruct (neg_inverse hz Vz Hz) as [V H]. apply endless; assumption. Qed.
Lemma zero_rate w : finite_f32 w -> SFltb f32_zero w = true -> snd (srun os_step (os_init f32_zero) [OStart w; OUpdate; OUpdate]) = [false; true; false].
Proof.
  intros [V F] H. cbn [srun os_step os_init]. change (fdiv f32_one f32_zero) with (S754_infinity false). unfold oneshot_update. rewrite H.
  replace (fsub w (S754_infinity false)) with (S754_infinity true) by (destruct w as [s|s| |s m e]; try discriminate F; reflexivity). reflexivity.
Qed.
(* a pulse too long to end *)
Lemma stay_sub x d c : finite_f32 x -> finite_f32 d -> bpow radix2 c <= Rabs (fval x) <= bpow radix2 126 -> Rabs (fval d) <= bpow radix2 (c - 26) -> fsub x d = x.
Proof.
  intros Hx Hd Bx Bd. pose proof (bpow_gt_0 radix2 c) as Pc. pose proof (bpow_gt_0 radix2 (-26)) as P26. assert (L26 : bpow radix2 (-26) <= 1) by (change 1 with (bpow radix2 0); apply bpow_le; lia).
  assert (Hn : fval x <> 0) by (intros E; rewrite E, Rabs_R0 in Bx; lra).
  assert (Bd2 : Rabs (fval d) <= Rabs (fval x) * bpow radix2 (-26)). { unfold Zminus in Bd. rewrite bpow_plus in Bd. change (- (26))%Z with (-26)%Z in Bd. nra. }
  assert (E126 : bpow radix2 127 = 2 * bpow radix2 126) by (change 2 with (bpow radix2 1); rewrite <- bpow_plus; reflexivity). pose proof (bpow_gt_0 radix2 126) as P126.
  destruct (fsub_b x d Hx Hd) as [F E]. { unfold Rminus. eapply Rle_trans; [apply Rabs_triang|]. rewrite Rabs_Ropp. nra. }
  unfold Rminus in E. rewrite Absorb.absorb in E; [|apply fval_in, Hx|exact Hn|rewrite Rabs_Ropp; exact Bd2].
  apply CircularMix.fval_inj; [apply F|apply Hx|apply F|apply Hx|rewrite E; exact Hn|exact E].
Qed.
Lemma long_pulse inc w c n : finite_f32 inc -> finite_f32 w -> bpow radix2 c <= fval w <= bpow radix2 126 -> Rabs (fval inc) <= bpow radix2 (c - 26) ->
  let w' := Nat.iter n (fun s => fst (oneshot_update inc s)) w in w' = w /\ snd (oneshot_update inc w') = true.
Proof.
  intros Fi Fw Bw Bi. pose proof (bpow_gt_0 radix2 c) as Pc. assert (Hp : SFltb f32_zero w = true) by (apply pos_ltb; [apply Fw|apply Fw|lra]).
  assert (E : fsub w inc = w) by (apply stay_sub with (c := c); auto; rewrite Rabs_pos_eq by lra; exact Bw).
  cbn zeta. assert (EW : Nat.iter n (fun s => fst (oneshot_update inc s)) w = w).
  { induction n as [|n IH]; [reflexivity|]. change (Nat.iter (S n) ?f ?x) with (f (Nat.iter n f x)). cbn beta. rewrite IH. unfold oneshot_update. rewrite Hp. exact E. }
  rewrite EW. split; [reflexivity|]. unfold oneshot_update. rewrite Hp. reflexivity.
Qed.

(* exact when everything is representable *)
Section Exact.
Variable A : Z.
Hypothesis HA : (0 <= A <= 24)%Z.
Definition fv (m : Z) : R := IZR m * bpow radix2 (- A).
Definition qv (m : Z) : Q := (inject_Z m / inject_Z (2 ^ A))%Q.
Lemma pow_A : (0 < 2 ^ A <= 2 ^ 24)%Z. Proof. split; [apply Z.pow_pos_nonneg; lia|apply Z.pow_le_mono_r; lia]. Qed.
Lemma fv_in m : (Z.abs m <= 2 ^ 24)%Z -> in_f32 (fv m).
Proof. intros H. apply Audio.in_frac; lia. Qed.
Lemma fv_bound m : (Z.abs m <= 2 ^ 24)%Z -> Rabs (fv m) <= bpow radix2 24.
Proof.
  intros H. unfold fv. rewrite Rabs_mult, <- abs_IZR, (Rabs_pos_eq (bpow _ _)) by apply bpow_ge_0.
  assert (H1 : IZR (Z.abs m) <= bpow radix2 24) by (change (bpow radix2 24) with (IZR (2 ^ 24)); apply IZR_le; exact H).
  assert (H2 : bpow radix2 (- A) <= 1) by (change 1 with (bpow radix2 0); apply bpow_le; lia). pose proof (bpow_ge_0 radix2 (- A)). pose proof (IZR_le 0 (Z.abs m) ltac:(lia)). nra.
Qed.
Lemma fv_sgn m : 0 < fv m <-> (0 < m)%Z.
Proof.
  unfold fv. pose proof (bpow_gt_0 radix2 (- A)) as P. split; intros H.
  - apply lt_IZR. apply Rnot_le_lt. intros N. assert (IZR m * bpow radix2 (- A) <= 0) by (apply Rmult_le_0_r || nra). lra.
  - apply Rmult_lt_0_compat; [apply IZR_lt; exact H|exact P].
Qed.
Lemma qv_sgn m : (0 < qv m)%Q <-> (0 < m)%Z.
Proof.
  pose proof pow_A as P. unfold qv. assert (HP : (0 < inject_Z (2 ^ A))%Q) by (change 0%Q with (inject_Z 0); rewrite <- Zlt_Qlt; lia).
  split; intros H.
  - rewrite (Zlt_Qlt 0 m). apply Qmult_lt_r with (z := (/ inject_Z (2 ^ A))%Q); [apply Qinv_lt_0_compat; exact HP|]. rewrite Qmult_0_l. exact H.
  - apply Qlt_shift_div_l; [exact HP|]. rewrite Qmult_0_l. change 0%Q with (inject_Z 0). rewrite <- Zlt_Qlt. exact H.
Qed.
Definition rel (sf : f32 * f32) (sq : Q * Q) : Prop :=
  exists i m, (0 < i <= 2 ^ 24)%Z /\ (Z.abs m <= 2 ^ 24)%Z /\
    finite_f32 (fst sf) /\ fval (fst sf) = fv i /\ finite_f32 (snd sf) /\ fval (snd sf) = fv m /\ (fst sq == qv i)%Q /\ (snd sq == qv m)%Q.
Lemma const_rel m : (Z.abs m <= 2 ^ 24)%Z -> finite_f32 (f32_of m (- A)) /\ fval (f32_of m (- A)) = fv m.
Proof.
  intros H. assert (HR : RN (IZR m * bpow radix2 (- A)) = fv m) by (apply RN_id, fv_in; exact H).
  destruct (f32_of_val m (- A)) as [E F].
  - rewrite HR. apply Rle_lt_trans with (bpow radix2 24); [apply fv_bound; exact H|apply bpow_lt; lia].
  - split; [split; [apply f32_of_valid|exact F]|]. rewrite E. exact HR.
Qed.
Lemma inc_rel a : (0 <= a <= A)%Z -> finite_f32 (fdiv f32_one (f32_of_int (2 ^ a))) /\ fval (fdiv f32_one (f32_of_int (2 ^ a))) = fv (2 ^ (A - a)) /\ (1 / inject_Z (2 ^ a) == qv (2 ^ (A - a)))%Q.
Proof.
  intros H. destruct (pow_int_val a ltac:(lia)) as [E F]. destruct one_b as [F1 E1].
  assert (Fp : finite_f32 (f32_of_int (2 ^ a))) by (split; [apply f32_of_int_valid|exact F]).
  assert (EI : fval f32_one / fval (f32_of_int (2 ^ a)) = bpow radix2 (- a)). { rewrite E, E1. unfold Rdiv. rewrite Rmult_1_l. symmetry. apply bpow_opp. }
  destruct (fdiv_b f32_one (f32_of_int (2 ^ a)) F1 Fp) as [G1 G2].
  - rewrite E. pose proof (bpow_gt_0 radix2 a). lra.
  - rewrite EI. rewrite Rabs_pos_eq by apply bpow_ge_0. apply bpow_le. lia.
  - rewrite EI, RN_id in G2 by (apply in_pow; lia). split; [exact G1|split].
    + rewrite G2. unfold fv. change (2 ^ (A - a))%Z with (radix2 ^ (A - a))%Z. rewrite IZR_Zpower by lia. rewrite <- bpow_plus. f_equal. lia.
    + pose proof pow_A. assert (P1 : (0 < 2 ^ a)%Z) by (apply Z.pow_pos_nonneg; lia). unfold qv.
      assert (EP : (2 ^ A = 2 ^ (A - a) * 2 ^ a)%Z) by (rewrite <- Z.pow_add_r by lia; f_equal; lia).
      assert (P2 : (0 < 2 ^ (A - a))%Z) by (apply Z.pow_pos_nonneg; lia). rewrite EP, inject_Z_mult. field.
      split; intros Hq; [assert (inject_Z (2 ^ a) == inject_Z 0)%Q by exact Hq|assert (inject_Z (2 ^ (A - a)) == inject_Z 0)%Q by exact Hq]; unfold Qeq in *; cbn in *; lia.
Qed.
Lemma rel_step sf sq o : rel sf sq -> representable A o ->
  snd (os_step sf (single_op A o)) = snd (os_step_q sq (exact_op A o)) /\ rel (fst (os_step sf (single_op A o))) (fst (os_step_q sq (exact_op A o))).
Proof.
  destruct sf as [incf wf], sq as [incq wq]. intros (i & m & Hi & Hm & Fi & Ei & Fw & Ew & Eqi & Eqw) HO. cbn [fst snd] in *.
  destruct o as [j| | |n]; cbn [os_step os_step_q single_op exact_op representable] in *.
  - split; [reflexivity|]. exists i, j. cbn [fst snd]. destruct (const_rel j HO). repeat split; auto; try apply Fi; try tauto; try lia. all: try reflexivity. all: apply H.
  - unfold oneshot_update, oneshot_update_q. rewrite pos_dec.
    assert (ES : SFltb f32_zero wf = true <-> (0 < m)%Z).
    { pose proof (fltb_val f32_zero wf (proj1 (proj1 zero_b)) (proj1 Fw) (proj2 (proj1 zero_b)) (proj2 Fw)) as HV. rewrite zval, Ew in HV. rewrite HV. apply fv_sgn. }
    assert (EQ : (0 < wq)%Q <-> (0 < m)%Z) by (rewrite Eqw; apply qv_sgn).
    destruct (Qlt_le_dec 0 wq) as [L|L].
    + assert (P : (0 < m)%Z) by tauto. rewrite (proj2 ES P). cbn [fst snd]. split; [reflexivity|].
      assert (HD : fv m - fv i = fv (m - i)) by (unfold fv; rewrite minus_IZR; ring).
      destruct (fsub_b wf incf Fw Fi) as [G1 G2].
      { rewrite Ew, Ei, HD. eapply Rle_trans; [apply fv_bound; lia|apply bpow_le; lia]. }
      rewrite Ew, Ei, HD, RN_id in G2 by (apply fv_in; lia).
      exists i, (m - i)%Z. cbn [fst snd]. split; [lia|]. split; [lia|]. split; [exact Fi|]. split; [exact Ei|]. split; [exact G1|]. split; [exact G2|]. split; [exact Eqi|].
      rewrite Eqw, Eqi. unfold qv. unfold Zminus. rewrite inject_Z_plus, inject_Z_opp. unfold Qdiv. ring.
    + assert (P : ~ (0 < m)%Z) by (intros P; apply EQ in P; Lqa.lra). destruct (SFltb f32_zero wf) eqn:EF; [exfalso; apply P, ES; reflexivity|]. cbn [fst snd]. split; [reflexivity|].
      exists i, m. cbn [fst snd]. tauto.
  - split; [reflexivity|]. exists i, 0%Z. cbn [fst snd]. split; [lia|]. split; [lia|]. split; [exact Fi|]. split; [exact Ei|]. split; [apply zero_b|]. split; [rewrite zval; unfold fv; rewrite Rmult_0_l; reflexivity|]. split; [exact Eqi|]. unfold qv, Qdiv. change (inject_Z 0) with 0%Q. rewrite Qmult_0_l. reflexivity.
  - split; [reflexivity|]. cbn [fst]. rewrite pos_dec. destruct HO as [HN|(a & Ha & ->)].
    + destruct (int_b n ltac:(lia)) as [Fn En]. assert (EF : SFltb f32_zero (f32_of_int n) = false).
      { destruct (SFltb f32_zero (f32_of_int n)) eqn:EF; [|reflexivity]. exfalso. apply fltb_val in EF; try apply zero_b; try apply Fn. rewrite zval, En in EF. apply lt_IZR in EF. lia. }
      rewrite EF. destruct (Qlt_le_dec 0 (inject_Z n)) as [L|L]; [exfalso; change 0%Q with (inject_Z 0) in L; rewrite <- Zlt_Qlt in L; lia|].
      exists i, m. cbn [fst snd]. tauto.
    + assert (P1 : (0 < 2 ^ a)%Z) by (apply Z.pow_pos_nonneg; lia). destruct (inc_rel a Ha) as (G1 & G2 & G3). destruct (pow_int_val a ltac:(lia)) as [E F].
      assert (EF : SFltb f32_zero (f32_of_int (2 ^ a)) = true) by (apply pos_ltb; [apply f32_of_int_valid|exact F|rewrite E; apply bpow_gt_0]).
      rewrite EF. destruct (Qlt_le_dec 0 (inject_Z (2 ^ a))) as [L|L]; [|exfalso; change 0%Q with (inject_Z 0) in L; rewrite <- Zle_Qle in L; lia].
      exists (2 ^ (A - a))%Z, m. cbn [fst snd]. assert (0 < 2 ^ (A - a) <= 2 ^ 24)%Z by (split; [apply Z.pow_pos_nonneg; lia|apply Z.pow_le_mono_r; lia]). tauto.
Qed.
Lemma rel_run h : forall sf sq, rel sf sq -> Forall (representable A) h ->
  snd (srun os_step sf (map (single_op A) h)) = snd (srun os_step_q sq (map (exact_op A) h)).
Proof.
  induction h as [|o h IH]; intros sf sq HR HF; [reflexivity|]. inversion HF as [|? ? Ho HF']; subst. cbn [map].
  rewrite (proj2 (srun_cons os_step sf _ _)), (proj2 (srun_cons os_step_q sq _ _)). destruct (rel_step sf sq o HR Ho) as [E1 E2]. rewrite E1. f_equal. apply IH; assumption.
Qed.
Lemma exact_run a h : (0 <= a <= A)%Z -> Forall (representable A) h ->
  snd (srun os_step (os_init (f32_of_int (2 ^ a))) (map (single_op A) h)) = snd (srun os_step_q (os_init_q (inject_Z (2 ^ a))) (map (exact_op A) h)).
Proof.
  intros Ha HF. apply rel_run; [|exact HF]. destruct (inc_rel a Ha) as (G1 & G2 & G3). exists (2 ^ (A - a))%Z, 0%Z. cbn [fst snd os_init os_init_q].
  assert (0 < 2 ^ (A - a) <= 2 ^ 24)%Z by (split; [apply Z.pow_pos_nonneg; lia|apply Z.pow_le_mono_r; lia]).
  split; [lia|]. split; [lia|]. split; [exact G1|]. split; [exact G2|]. split; [apply zero_b|]. split; [rewrite zval; unfold fv; rewrite Rmult_0_l; reflexivity|]. split; [exact G3|]. unfold qv, Qdiv. change (inject_Z 0) with 0%Q. rewrite Qmult_0_l. reflexivity.
Qed.
End Exact.
