(* Interrupted calls. *)
From Verif.Common Require Import Base.
From Verif.Spec Require Import ButtonSpec EncoderSpec DetectSpec IrqSpec.
From Verif.Model Require Import Debouncer Encoder Detect Irq.

Section Generic.
Context {S O R : Type} (step : S -> O -> outcome (S * R)).

Lemma run_cat : forall a b s, run step s (a ++ b) =
  match run step s a with Ok (s1, q1) => match run step s1 b with Ok (s2, q2) => Ok (s2, q1 ++ q2) | UB k => UB k | OutOfFuel => OutOfFuel end | UB k => UB k | OutOfFuel => OutOfFuel end.
Proof using.
  induction a as [|o a IH]; intros b s; cbn.
  - destruct (run step s b) as [[s2 q2]|k|]; reflexivity.
  - destruct (step s o) as [[s1 r]|k|]; cbn; [|reflexivity..]. rewrite IH. destruct (run step s1 a) as [[s2 q2]|k|]; cbn; [|reflexivity..].
    destruct (run step s2 b) as [[s3 q3]|k|]; reflexivity.
Qed.

Lemma run_cat_ok : forall a b s s1 q1 s2 q2, run step s a = Ok (s1, q1) -> run step s1 b = Ok (s2, q2) -> run step s (a ++ b) = Ok (s2, q1 ++ q2).
Proof using. intros a b s s1 q1 s2 q2 E1 E2. rewrite run_cat, E1, E2. reflexivity. Qed.

Lemma run_size : forall l s s' q, run step s l = Ok (s', q) -> length q = length l.
Proof using.
  induction l as [|o l IH]; intros s s' q H; cbn in H; [injection H as _ <-; reflexivity|].
  destruct (step s o) as [[s1 r]|k|]; cbn in H; [|discriminate H..]. destruct (run step s1 l) as [[s2 q2]|k|] eqn:E; cbn in H; [|discriminate H..].
  injection H as _ <-. cbn. f_equal. eapply IH; eauto.
Qed.

Lemma concat_hd : forall gaps : list (list O), concat gaps = hd [] gaps ++ concat (tl gaps).
Proof using. intros [|g gaps]; reflexivity. Qed.

Lemma run_one : forall s o s1 r b s2 qb, step s o = Ok (s1, r) -> run step s1 b = Ok (s2, qb) -> run step s (o :: b) = Ok (s2, r :: qb).
Proof using. intros s o s1 r b s2 qb E1 E2. cbn. rewrite E1. cbn. rewrite E2. reflexivity. Qed.

(* one call takes effect at once *)
Definition at_once (main : O -> prog S R) (m : O) (gaps : list (list O)) : Prop :=
  forall s s1 r q, iexec step (main m) s gaps = Ok (s1, r, q) ->
    exists a b qa qb, concat gaps = a ++ b /\ length qa = length a /\ q = qa ++ qb /\ run step s (a ++ m :: b) = Ok (s1, qa ++ r :: qb).

Lemma irun_atomic : forall main h, Forall (fun c => match c with Irq _ => True | Call m gaps => at_once main m gaps end) h ->
  forall s s' rs qs, irun step main s h = Ok (s', rs, qs) -> atomically step s h rs qs s'.
Proof using.
  intros main h H. induction H as [|c h Hc _ IH]; intros s s' rs qs E; cbn in E.
  - injection E as <- <- <-. constructor.
  - destruct c as [i|m gaps].
    + destruct (step s i) as [[s1 q]|k|] eqn:E1; cbn in E; [|discriminate E..].
      destruct (irun step main s1 h) as [[[s2 rs2] qs2]|k|] eqn:E2; cbn in E; [|discriminate E..]. injection E as <- <- <-.
      econstructor; eauto.
    + destruct (iexec step (main m) s gaps) as [[[s1 r] q]|k|] eqn:E1; cbn in E; [|discriminate E..].
      destruct (irun step main s1 h) as [[[s2 rs2] qs2]|k|] eqn:E2; cbn in E; [|discriminate E..]. injection E as <- <- <-.
      destruct (Hc s s1 r q E1) as (a & b & qa & qb & H1 & H2 & -> & H3). rewrite <- app_assoc. econstructor; eauto.
Qed.

(* the accesses one after the other *)
Lemma exec_ret : forall r s gaps s1 r1 q, iexec step (Ret r) s gaps = Ok (s1, r1, q) -> r1 = r /\ run step s (concat gaps) = Ok (s1, q).
Proof using. intros r s gaps s1 r1 q H. cbn in H. destruct (run step s (concat gaps)) as [[s2 q2]|k|]; cbn in H; [|discriminate H..]. injection H as <- <- <-. auto. Qed.

Lemma exec_acc : forall f s gaps s1 r q, iexec step (Acc f) s gaps = Ok (s1, r, q) ->
  exists s2 q1 s3 p q2, run step s (hd [] gaps) = Ok (s2, q1) /\ f s2 = Ok (s3, p) /\ iexec step p s3 (tl gaps) = Ok (s1, r, q2) /\ q = q1 ++ q2.
Proof using.
  intros f s gaps s1 r q H. cbn [iexec] in H. destruct (run step s (hd [] gaps)) as [[s2 q1]|k|] eqn:E1; cbn in H; [|discriminate H..].
  destruct (f s2) as [[s3 p]|k|] eqn:E2; [|discriminate H..]. destruct (iexec step p s3 (tl gaps)) as [[[s4 r4] q2]|k|] eqn:E3; cbn in H; [|discriminate H..].
  injection H as <- <- <-. exists s2, q1, s3, p, q2. auto.
Qed.
End Generic.

Tactic Notation "acc" hyp(H) ident(s) ident(q) ident(E) ident(x) :=
  let p := fresh "p" in let F := fresh "F" in
  apply exec_acc in H; destruct H as (s & q & ? & p & x & E & F & H & ->); cbn in F; injection F as <- <-.
Ltac ret H := apply exec_ret in H; destruct H as [-> H].

(* ---- Toggler ---- *)
Notation tstep := (total tog_step).

(* two togglers that differ at most in a pending press that only the first has *)
Definition behind (t u : toggler) : Prop := is_high u = is_high t /\ got_fall u = got_fall t /\ (got_rise u = true -> got_rise t = true).
Definition behind' (t u : toggler) : Prop := is_high u = is_high t /\ got_rise u = got_rise t /\ (got_fall u = true -> got_fall t = true).

Lemma behind_run : forall l, Forall no_poll l -> forall t u t' q, behind t u -> run tstep t l = Ok (t', q) ->
  exists u', run tstep u l = Ok (u', q) /\ behind t' u'.
Proof.
  intros l H. induction H as [|o l Ho _ IH]; intros t u t' q B E.
  - cbn in E. injection E as <- <-. exists u. auto.
  - cbn [run] in E. unfold total at 1 in E. destruct (tog_step t o) as [t1 r] eqn:E1. cbn in E.
    destruct (run tstep t1 l) as [[t2 q2]|k|] eqn:E2; cbn in E; [|discriminate E..]. injection E as <- <-.
    assert (X : exists u1, tog_step u o = (u1, r) /\ behind t1 u1).
    { destruct t as [h ri fa], u as [h' ri' fa']. destruct B as (B1 & B2 & B3). cbn in B1, B2, B3. subst h' fa'.
      destruct o as [b| | |b| | | |]; try (exfalso; apply Ho; unfold is_poll; auto; fail); cbn in *; try (destruct b, h; cbn in * );
        injection E1 as <- <-; eexists; (split; [reflexivity|]); repeat split; cbn; auto. }
    destruct X as (u1 & X1 & X2). destruct (IH t1 u1 t2 q2 X2 E2) as (u' & Y1 & Y2). exists u'. split; [|exact Y2].
    cbn [run]. unfold total at 1. rewrite X1. cbn. rewrite Y1. reflexivity.
Qed.
Lemma behind'_run : forall l, Forall no_poll l -> forall t u t' q, behind' t u -> run tstep t l = Ok (t', q) ->
  exists u', run tstep u l = Ok (u', q) /\ behind' t' u'.
Proof.
  intros l H. induction H as [|o l Ho _ IH]; intros t u t' q B E.
  - cbn in E. injection E as <- <-. exists u. auto.
  - cbn [run] in E. unfold total at 1 in E. destruct (tog_step t o) as [t1 r] eqn:E1. cbn in E.
    destruct (run tstep t1 l) as [[t2 q2]|k|] eqn:E2; cbn in E; [|discriminate E..]. injection E as <- <-.
    assert (X : exists u1, tog_step u o = (u1, r) /\ behind' t1 u1).
    { destruct t as [h ri fa], u as [h' ri' fa']. destruct B as (B1 & B2 & B3). cbn in B1, B2, B3. subst h' ri'.
      destruct o as [b| | |b| | | |]; try (exfalso; apply Ho; unfold is_poll; auto; fail); cbn in *; try (destruct b, h; cbn in * );
        injection E1 as <- <-; eexists; (split; [reflexivity|]); repeat split; cbn; auto. }
    destruct X as (u1 & X1 & X2). destruct (IH t1 u1 t2 q2 X2 E2) as (u' & Y1 & Y2). exists u'. split; [|exact Y2].
    cbn [run]. unfold total at 1. rewrite X1. cbn. rewrite Y1. reflexivity.
Qed.

Lemma poll_at_once : forall m gaps, is_poll m -> Forall (Forall no_poll) gaps -> at_once tstep tog_main m gaps.
Proof.
  intros m gaps Hm Hg t t' r q H.
  assert (HG : Forall no_poll (hd [] gaps) /\ Forall no_poll (hd [] (tl gaps))).
  { destruct gaps as [|g [|g' gaps]]; cbn; split; try constructor; try (inversion Hg; subst; auto; fail); inversion Hg as [|? ? ? Hg']; subst; inversion Hg'; auto. }
  destruct HG as [_ HG]. destruct Hm as [-> | ->]; cbn [tog_main tog_prog] in H; acc H s q0 E x.
  - destruct (got_rise s) eqn:R.
    + unfold assign in H. acc H s0 q1 E0 x0. ret H. pose proof (run_size _ _ _ _ _ E) as L. pose proof (run_size _ _ _ _ _ E0) as L0.
      destruct (got_rise s0) eqn:R0.
      * exists (hd [] gaps ++ hd [] (tl gaps)), (concat (tl (tl gaps))), (q0 ++ q1), x0. rewrite (concat_hd gaps), (concat_hd (tl gaps)), app_assoc.
        split; [reflexivity|]. split; [rewrite !app_length; congruence|]. split; [apply app_assoc|].
        eapply run_cat_ok; [eapply run_cat_ok; eauto|]. eapply run_one; [|exact H]. unfold total. cbn. unfold is_just_pressed. rewrite R0. reflexivity.
      * destruct (behind_run _ HG s (put_rise false s) s0 q1) as (u & U1 & U2 & U3 & U4); [repeat split; cbn; auto; discriminate|exact E0|].
        assert (U : u = put_rise false s0). { destruct u as [a b c], s0 as [a' b' c']. cbn in *. subst. destruct b; [rewrite U4 in *; auto; discriminate|reflexivity]. }
        exists (hd [] gaps), (concat (tl gaps)), q0, (q1 ++ x0). split; [apply concat_hd|]. split; [congruence|]. split; [reflexivity|].
        eapply run_cat_ok; [exact E|]. eapply run_one; [unfold total; cbn; unfold is_just_pressed; rewrite R; reflexivity|].
        rewrite (concat_hd (tl gaps)). eapply run_cat_ok; [exact U1|]. rewrite U. exact H.
    + ret H. exists (hd [] gaps), (concat (tl gaps)), q0, x. split; [apply concat_hd|]. split; [exact (run_size _ _ _ _ _ E)|]. split; [reflexivity|].
      eapply run_cat_ok; [exact E|]. eapply run_one; [unfold total; cbn; unfold is_just_pressed; rewrite R; reflexivity|exact H].
  - destruct (got_fall s) eqn:R.
    + unfold assign in H. acc H s0 q1 E0 x0. ret H. pose proof (run_size _ _ _ _ _ E) as L. pose proof (run_size _ _ _ _ _ E0) as L0.
      destruct (got_fall s0) eqn:R0.
      * exists (hd [] gaps ++ hd [] (tl gaps)), (concat (tl (tl gaps))), (q0 ++ q1), x0. rewrite (concat_hd gaps), (concat_hd (tl gaps)), app_assoc.
        split; [reflexivity|]. split; [rewrite !app_length; congruence|]. split; [apply app_assoc|].
        eapply run_cat_ok; [eapply run_cat_ok; eauto|]. eapply run_one; [|exact H]. unfold total. cbn. unfold is_just_released. rewrite R0. reflexivity.
      * destruct (behind'_run _ HG s (put_fall false s) s0 q1) as (u & U1 & U2 & U3 & U4); [repeat split; cbn; auto; discriminate|exact E0|].
        assert (U : u = put_fall false s0). { destruct u as [a b c], s0 as [a' b' c']. cbn in *. subst. destruct c; [rewrite U4 in *; auto; discriminate|reflexivity]. }
        exists (hd [] gaps), (concat (tl gaps)), q0, (q1 ++ x0). split; [apply concat_hd|]. split; [congruence|]. split; [reflexivity|].
        eapply run_cat_ok; [exact E|]. eapply run_one; [unfold total; cbn; unfold is_just_released; rewrite R; reflexivity|].
        rewrite (concat_hd (tl gaps)). eapply run_cat_ok; [exact U1|]. rewrite U. exact H.
    + ret H. exists (hd [] gaps), (concat (tl gaps)), q0, x. split; [apply concat_hd|]. split; [exact (run_size _ _ _ _ _ E)|]. split; [reflexivity|].
      eapply run_cat_ok; [exact E|]. eapply run_one; [unfold total; cbn; unfold is_just_released; rewrite R; reflexivity|exact H].
Qed.

Theorem polls_atomic : forall h t t' rs qs, Forall (calls_by is_poll no_poll) h ->
  irun tstep tog_main t h = Ok (t', rs, qs) -> atomically tstep t h rs qs t'.
Proof.
  intros h t t' rs qs H. apply irun_atomic. eapply Forall_impl; [|exact H]. intros [i|m gaps]; cbn; [trivial|]. intros [H1 H2]. apply poll_at_once; assumption.
Qed.

(* polls leave the level alone and do not look at it *)
Lemma polls_level : forall l, Forall is_poll l -> forall t t' q, run tstep t l = Ok (t', q) -> is_high t' = is_high t /\
  forall b, run tstep (put_high b t) l = Ok (put_high b t', q).
Proof.
  intros l H. induction H as [|o l Ho _ IH]; intros t t' q E.
  - cbn in E. injection E as <- <-. split; [reflexivity|]. reflexivity.
  - cbn [run] in E. unfold total at 1 in E. destruct (tog_step t o) as [t1 r] eqn:E1. cbn in E.
    destruct (run tstep t1 l) as [[t2 q2]|k|] eqn:E2; cbn in E; [|discriminate E..]. injection E as <- <-.
    destruct (IH _ _ _ E2) as [X Y].
    assert (Z : is_high t1 = is_high t /\ forall b, tog_step (put_high b t) o = (put_high b t1, r)).
    { destruct t as [h ri fa]. destruct Ho as [-> | ->]; cbn in *; unfold is_just_pressed, is_just_released in *; cbn in *;
        [destruct ri|destruct fa]; injection E1 as <- <-; split; reflexivity. }
    destruct Z as [Z1 Z2]. split; [congruence|]. intros b. cbn [run]. unfold total at 1. rewrite Z2. cbn. rewrite Y. reflexivity.
Qed.

Lemma register_at_once : forall m gaps, registers m -> Forall (Forall is_poll) gaps -> at_once tstep tog_main m gaps.
Proof.
  intros m gaps [b ->] Hg t t' r q H. cbn [tog_main tog_prog] in H.
  assert (HG : Forall is_poll (hd [] (tl gaps)) /\ Forall is_poll (hd [] (tl (tl gaps)))).
  { destruct gaps as [|g [|g' [|g2 gaps]]]; cbn; split; try constructor;
      repeat match goal with X : Forall _ (_ :: _) |- _ => apply Forall_cons_iff in X; destruct X end; assumption. }
  destruct HG as [HG1 HG2]. acc H s q0 E x. destruct (Bool.eqb b (is_high s)) eqn:B.
  - ret H. exists (hd [] gaps), (concat (tl gaps)), q0, x. split; [apply concat_hd|]. split; [exact (run_size _ _ _ _ _ E)|]. split; [reflexivity|].
    eapply run_cat_ok; [exact E|]. eapply run_one; [unfold total; cbn; unfold register_state; rewrite B; reflexivity|exact H].
  - unfold assign in H. acc H s0 q1 E0 x0. acc H s1 q2 E1 x1. ret H.
    pose proof (run_size _ _ _ _ _ E) as L. pose proof (run_size _ _ _ _ _ E0) as L0. pose proof (run_size _ _ _ _ _ E1) as L1.
    destruct (polls_level _ HG1 _ _ _ E0) as [Lv0 _]. destruct (polls_level _ HG2 _ _ _ E1) as [Lv1 Y]. specialize (Y (is_high s0)).
    assert (X : put_high (is_high s0) (put_high b s0) = s0) by (destruct s0; reflexivity). rewrite X in Y.
    exists (hd [] gaps ++ hd [] (tl gaps) ++ hd [] (tl (tl gaps))), (concat (tl (tl (tl gaps)))), (q0 ++ q1 ++ q2), x1.
    split; [rewrite (concat_hd gaps), (concat_hd (tl gaps)), (concat_hd (tl (tl gaps))), <- !app_assoc; reflexivity|].
    split; [rewrite !app_length; congruence|]. split; [rewrite <- !app_assoc; reflexivity|].
    eapply run_cat_ok; [eapply run_cat_ok; [exact E|eapply run_cat_ok; [exact E0|exact Y]]|].
    eapply run_one; [|exact H]. unfold total. cbn. unfold register_state. cbn. rewrite Lv0, B. destruct b; destruct s1 as [h1 r1 f1]; cbn in Lv1 |- *; subst h1; reflexivity.
Qed.

Theorem registers_atomic : forall h t t' rs qs, Forall (calls_by registers is_poll) h ->
  irun tstep tog_main t h = Ok (t', rs, qs) -> atomically tstep t h rs qs t'.
Proof.
  intros h t t' rs qs H. apply irun_atomic. eapply Forall_impl; [|exact H]. intros [i|m gaps]; cbn; [trivial|]. intros [H1 H2]. apply register_at_once; assumption.
Qed.

(* interrupted calls always come to an end *)
Inductive tame {S R} : prog S R -> Prop :=
| tame_ret r : tame (Ret r)
| tame_acc f : (forall s, exists s' p, f s = Ok (s', p) /\ tame p) -> tame (Acc f).
Lemma total_run : forall {S O R} (f : S -> O -> S * R) l s, exists s' q, run (total f) s l = Ok (s', q).
Proof.
  intros S O R f l. induction l as [|o l IH]; intros s; cbn [run]; [eauto|]. change (total f s o) with (Ok (f s o)). destruct (f s o) as [s1 r]. cbn [bind]. destruct (IH s1) as (s' & q & ->). cbn. eauto.
Qed.
Lemma tame_exec : forall {S O R} (f : S -> O -> S * R) (p : prog S R), tame p -> forall s gaps, exists s' r q, iexec (total f) p s gaps = Ok (s', r, q).
Proof.
  intros S O R f. fix IH 2. intros p [r|g H] s gaps; cbn.
  - destruct (total_run f (concat gaps) s) as (s' & q & ->). cbn. eauto.
  - destruct (total_run f (hd [] gaps) s) as (s1 & q1 & ->). cbn. destruct (H s1) as (s2 & p' & -> & T). destruct (IH p' T s2 (tl gaps)) as (s3 & r & q2 & ->). cbn. eauto.
Qed.
Lemma tame_irun : forall {S O R} (f : S -> O -> S * R) (main : O -> prog S R), (forall m, tame (main m)) -> forall h s, exists s' rs qs, irun (total f) main s h = Ok (s', rs, qs).
Proof.
  intros S O R f main H h. induction h as [|[i|m gaps] h IH]; intros s; cbn [irun]; [eauto| |].
  - change (total f s i) with (Ok (f s i)). destruct (f s i) as [s1 q]. cbn [bind]. destruct (IH s1) as (s' & rs & qs & ->). cbn. eauto.
  - destruct (tame_exec f (main m) (H m) s gaps) as (s1 & r & q & ->). cbn [bind fst snd]. destruct (IH s1) as (s' & rs & qs & ->). cbn. eauto.
Qed.
Lemma tame_tog : forall m, tame (tog_main m).
Proof.
  assert (A : forall f (k : prog toggler bool), tame k -> tame (assign f k)) by (intros f k K; constructor; intros s; eauto).
  intros m. unfold tog_main. destruct m as [b| | |b| | | |]; cbn; auto using @tame_ret.
  - constructor. intros s. do 2 eexists. split; [reflexivity|]. destruct (Bool.eqb b (is_high s)); auto using @tame_ret.
  - constructor. intros s. do 2 eexists. split; [reflexivity|]. destruct (got_rise s); auto using @tame_ret.
  - constructor. intros s. do 2 eexists. split; [reflexivity|]. destruct (got_fall s); auto using @tame_ret.
Qed.

(* ---- what fails ---- *)
Lemma double_take : forall t, got_rise t = true -> irun tstep tog_main t [Call TPressed [[]; [TPressed]]] = Ok (put_rise false t, [true], [true]).
Proof. intros [h r f] H. cbn in H. subst r. reflexivity. Qed.

Lemma compact_undoes : forall t l t1 q, got_rise t = true -> run tstep t l = Ok (t1, q) ->
  irun tstep compact_main t [Call TPressed [[]; []; l]] = Ok (Tog (is_high t) false (got_fall t), [true], q).
Proof.
  intros [h r f] l t1 q H E. cbn in H. subst r. cbn [irun iexec compact_main tog_prog run hd tl bind].
  cbn [iexec bit_assign run hd tl bind got_rise]. rewrite E. cbn. rewrite !app_nil_r. reflexivity.
Qed.

Lemma old_release : forall t, got_fall t = true -> irun tstep tog_main t [Call TRise [[]; []; [TPressed; TReleased]]] = Ok (Tog true false false, [false], [true; true]).
Proof. intros [h r f] H. cbn in H. subst f. reflexivity. Qed.

Lemma transfer_loses : forall t, irun (total x_step) x_main (t, tog0) [Call XTransfer [[]; []; [XSecond (TReg true)]]; Call XTransfer []]
  = Ok ((Tog true (got_rise t) (got_fall t), Tog true false false), [false; false], [false]).
Proof. intros [h r f]. reflexivity. Qed.

Theorem toggler_atomic : forall h t, Forall (calls_by is_poll no_poll) h \/ Forall (calls_by registers is_poll) h ->
  exists t' rs qs, irun tstep tog_main t h = Ok (t', rs, qs) /\ atomically tstep t h rs qs t'.
Proof.
  intros h t H. destruct (tame_irun tog_step tog_main tame_tog h t) as (t' & rs & qs & E). exists t', rs, qs. split; [exact E|].
  destruct H; [apply polls_atomic|apply registers_atomic]; assumption.
Qed.

(* ---- RotaryMotion ---- *)
Lemma received_app : forall a b, received (a ++ b) = received a + received b.
Proof.
  assert (X : forall l z, fold_left (fun s o => match o with RAdd d | RTransfer d => s + d | RUse => s end) l z = z + received l).
  { unfold received. induction l as [|o l IH]; intros z; cbn; [lia|]. rewrite IH. symmetry. rewrite IH. destruct o; lia. }
  intros a b. unfold received at 1. rewrite fold_left_app, X. reflexivity.
Qed.

Lemma run_adds : forall l, Forall adds l -> forall r r' q, run rot_step r l = Ok (r', q) -> motion r' = motion r + received l /\ abs_pos r' = abs_pos r + received l.
Proof.
  intros l H. induction H as [|o l [d ->] _ IH]; intros r r' q E.
  - cbn in E. injection E as <- _. unfold received. cbn. lia.
  - cbn [run rot_step] in E. unfold add_motion, schk in E. destruct (_ && _); [|discriminate E]. cbn [bind] in E. destruct (_ && _); [|discriminate E]. cbn [bind] in E.
    destruct (run rot_step _ l) as [[r2 q2]|k|] eqn:E2; cbn in E; [|discriminate E..]. injection E as <- _.
    destruct (IH _ _ _ E2) as [X Y]. cbn in X, Y. change (RAdd d :: l) with ([RAdd d] ++ l). rewrite received_app. unfold received at 1 3. cbn. lia.
Qed.

Lemma Forall_parts : forall {O} (P : O -> Prop) (gaps : list (list O)), Forall (Forall P) gaps -> Forall P (hd [] gaps) /\ Forall (Forall P) (tl gaps) /\ Forall P (concat gaps).
Proof.
  intros O P gaps H. split; [|split].
  - destruct H; cbn; auto.
  - destruct H; cbn; auto.
  - induction H; cbn; [constructor|]. apply Forall_app. auto.
Qed.

Theorem motion_balance : forall h r r' us qs, Forall (calls_by uses adds) h -> irun rot_step rot_main r h = Ok (r', us, qs) ->
  zsum us + motion r' + missed h = motion r + arrived h /\ abs_pos r' = abs_pos r + arrived h.
Proof.
  intros h r r' us qs H. revert r r' us qs. induction H as [|c h Hc _ IH]; intros r r' us qs E; cbn [irun] in E.
  - injection E as <- <- <-. unfold missed, arrived, zsum. cbn. lia.
  - unfold arrived, missed. cbn [map zsum fold_right]. fold (zsum (map (fun c => match c with Irq i => received [i] | Call _ gaps => received (concat gaps) end) h)).
    fold (zsum (map (fun c => match c with Irq _ => 0 | Call _ gaps => received (nth 1 gaps []) end) h)). fold (arrived h) (missed h).
    destruct c as [i|m gaps]; cbn in Hc.
    + destruct (rot_step r i) as [[r1 q]|k|] eqn:E1; cbn in E; [|discriminate E..].
      destruct (irun rot_step rot_main r1 h) as [[[r2 us2] qs2]|k|] eqn:E2; cbn in E; [|discriminate E..]. injection E as <- <- <-.
      assert (E3 : run rot_step r [i] = Ok (r1, [q])) by (cbn; rewrite E1; reflexivity).
      apply run_adds in E3; [|constructor; auto]. specialize (IH _ _ _ _ E2). lia.
    + destruct Hc as [Hm Hg]. unfold uses in Hm. subst m.
      destruct (iexec rot_step (rot_main RUse) r gaps) as [[[r1 u] q]|k|] eqn:E1; cbn [bind] in E; [|discriminate E..].
      destruct (irun rot_step rot_main (fst (r1, u)) h) as [[[r2 us2] qs2]|k|] eqn:E2; cbn in E; [|discriminate E..]. injection E as <- <- <-. cbn in E2.
      specialize (IH _ _ _ _ E2). cbn [rot_main] in E1. acc E1 s0 q0 F0 x0. acc E1 s1 q1 F1 x1. ret E1.
      destruct (Forall_parts _ _ Hg) as (G0 & G' & _). destruct (Forall_parts _ _ G') as (G1 & G2 & _). destruct (Forall_parts _ _ G2) as (_ & _ & G3).
      apply run_adds in F0; [|exact G0]. apply run_adds in F1; [|exact G1]. apply run_adds in E1; [|exact G3]. cbn in E1.
      rewrite (concat_hd gaps), (concat_hd (tl gaps)), !received_app.
      replace (nth 1 gaps []) with (hd [] (tl gaps)) by (destruct gaps as [|? [|? ?]]; reflexivity). cbn [zsum fold_right]. fold (zsum us2). lia.
Qed.

Lemma motion_lost : forall a m d, - 2 ^ 31 <= m + d < 2 ^ 31 -> - 2 ^ 31 <= a + d < 2 ^ 31 ->
  irun rot_step rot_main (Rot a m) [Call RUse [[]; [RAdd d]]; Call RUse []] = Ok (Rot (a + d) 0, [m; 0], [0]).
Proof.
  intros a m d H1 H2. cbn [irun iexec rot_main run hd tl bind concat rot_step]. unfold add_motion, schk. change (2 ^ (32 - 1)) with (2 ^ 31). cbn [motion abs_pos].
  rewrite (proj2 (Z.leb_le _ _)), (proj2 (Z.ltb_lt _ _)) by lia. cbn [andb bind]. rewrite (proj2 (Z.leb_le _ _)), (proj2 (Z.ltb_lt _ _)) by lia. reflexivity.
Qed.
Lemma motion_twice : forall a m d, - 2 ^ 31 <= m + d < 2 ^ 31 -> - 2 ^ 31 <= a + d < 2 ^ 31 ->
  irun rot_step rot_main (Rot a m) [Call (RAdd d) [[]; [RUse]]; Irq RUse] = Ok (Rot (a + d) 0, [0], [m; m + d]).
Proof.
  intros a m d H1 H2. cbn [irun iexec rot_main run hd tl bind concat rot_step]. unfold schk. change (2 ^ (32 - 1)) with (2 ^ 31). cbn [use_motion motion abs_pos bind].
  rewrite (proj2 (Z.leb_le _ _)), (proj2 (Z.ltb_lt _ _)) by lia. cbn [andb bind iexec run hd tl abs_pos motion]. rewrite (proj2 (Z.leb_le _ _)), (proj2 (Z.ltb_lt _ _)) by lia. reflexivity.
Qed.

(* ---- parameters ---- *)
Lemma seen_app : forall v a b, last_seen v (a ++ b) = last_seen (last_seen v a) b.
Proof. intros. apply fold_left_app. Qed.

Section Latch.
Variables num denom : Z.
Notation lstep := (total (lat_step num denom)).
Definition J (s : latch) (v : Z) : Prop := lp_changed s = false -> lp_val s = v.

Lemma lat_sets : forall l, Forall sets l -> forall s s' q v, run lstep s l = Ok (s', q) -> J s v -> J s' v.
Proof using.
  intros l H. induction H as [|o l [x ->] _ IH]; intros s s' q v E HJ.
  - cbn in E. injection E as <- _. exact HJ.
  - cbn [run] in E. unfold total at 1 in E. destruct (lat_step num denom s (PSet x)) as [s1 r] eqn:E1. cbn in E.
    destruct (run lstep s1 l) as [[s2 q2]|k|] eqn:E2; cbn in E; [|discriminate E..]. injection E as <- _. eapply IH; [exact E2|].
    cbn in E1. destruct (_ >=? min_change num denom); injection E1 as <- _; [intros X; discriminate X|exact HJ].
Qed.
Lemma lat_polls : forall l, Forall polls l -> forall s s' q v, run lstep s l = Ok (s', q) -> J s v -> J s' (last_seen v q).
Proof using.
  intros l H. induction H as [|o l Ho _ IH]; intros s s' q v E HJ.
  - cbn in E. injection E as <- <-. exact HJ.
  - unfold polls in Ho. subst o. cbn [run] in E. unfold total at 1 in E. destruct (lat_step num denom s PPoll) as [s1 r] eqn:E1. cbn in E.
    destruct (run lstep s1 l) as [[s2 q2]|k|] eqn:E2; cbn in E; [|discriminate E..]. injection E as <- <-.
    change (r :: q2) with ([r] ++ q2). rewrite seen_app. eapply IH; [exact E2|].
    cbn in E1. destruct (lp_changed s) eqn:C; injection E1 as <- <-; [intros _; reflexivity|exact HJ].
Qed.

Lemma lat_main_polls : forall h s s' rs qs v, Forall (calls_by polls sets) h -> irun lstep (lat_main num denom) s h = Ok (s', rs, qs) -> J s v -> J s' (last_seen v rs).
Proof using.
  intros h s s' rs qs v H. revert s s' rs qs v. induction H as [|c h Hc _ IH]; intros s s' rs qs v E HJ; cbn [irun] in E.
  - injection E as <- <- <-. exact HJ.
  - destruct c as [i|m gaps].
    + destruct (lstep s i) as [[s1 q]|k|] eqn:E1; cbn [bind] in E; [|discriminate E..].
      destruct (irun lstep (lat_main num denom) s1 h) as [[[s2 rs2] qs2]|k|] eqn:E2; cbn in E; [|discriminate E..]. injection E as <- <- <-.
      eapply IH; [exact E2|]. eapply (lat_sets [i]); [constructor; [exact Hc|constructor]| |exact HJ]. cbn [run]. rewrite E1. reflexivity.
    + destruct Hc as [Hm Hg]. unfold polls in Hm. subst m.
      destruct (iexec lstep (lat_main num denom PPoll) s gaps) as [[[s1 r] q]|k|] eqn:E1; cbn [bind] in E; [|discriminate E..].
      destruct (irun lstep (lat_main num denom) (fst (s1, r)) h) as [[[s2 rs2] qs2]|k|] eqn:E2; cbn in E; [|discriminate E..]. injection E as <- <- <-. cbn in E2.
      change (r :: rs2) with ([r] ++ rs2). rewrite seen_app. eapply IH; [exact E2|]. clear IH E2.
      destruct (Forall_parts _ _ Hg) as (G0 & Gt & _). destruct (Forall_parts _ _ Gt) as (G1 & Gt2 & Gc). destruct (Forall_parts _ _ Gt2) as (G2 & Gt3 & _). destruct (Forall_parts _ _ Gt3) as (_ & _ & G3).
      cbn [lat_main] in E1. acc E1 s3 q0 F0 x0. destruct (lp_changed s3) eqn:C.
      * acc E1 s4 q1 F1 x1. acc E1 s5 q2 F2 x2. ret E1. eapply lat_sets; [exact G3|exact E1|]. intros _. reflexivity.
      * ret E1. eapply lat_sets; [exact Gc|exact E1|]. eapply lat_sets; [exact G0|exact F0|exact HJ].
Qed.
Lemma lat_irq_polls : forall h s s' rs qs v, Forall (calls_by sets polls) h -> irun lstep (lat_main num denom) s h = Ok (s', rs, qs) -> J s v -> J s' (last_seen v qs).
Proof using.
  intros h s s' rs qs v H. revert s s' rs qs v. induction H as [|c h Hc _ IH]; intros s s' rs qs v E HJ; cbn [irun] in E.
  - injection E as <- <- <-. exact HJ.
  - destruct c as [i|m gaps].
    + destruct (lstep s i) as [[s1 q]|k|] eqn:E1; cbn [bind] in E; [|discriminate E..].
      destruct (irun lstep (lat_main num denom) s1 h) as [[[s2 rs2] qs2]|k|] eqn:E2; cbn in E; [|discriminate E..]. injection E as <- <- <-.
      change (q :: qs2) with ([q] ++ qs2). rewrite seen_app. eapply IH; [exact E2|]. eapply (lat_polls [i]); [constructor; [exact Hc|constructor]| |exact HJ]. cbn [run]. rewrite E1. reflexivity.
    + destruct Hc as [[x Hm] Hg]. subst m.
      destruct (iexec lstep (lat_main num denom (PSet x)) s gaps) as [[[s1 r] q]|k|] eqn:E1; cbn [bind] in E; [|discriminate E..].
      destruct (irun lstep (lat_main num denom) (fst (s1, r)) h) as [[[s2 rs2] qs2]|k|] eqn:E2; cbn in E; [|discriminate E..]. injection E as <- <- <-. cbn in E2.
      rewrite seen_app. eapply IH; [exact E2|]. clear IH E2.
      destruct (Forall_parts _ _ Hg) as (G0 & Gt & _). destruct (Forall_parts _ _ Gt) as (G1 & Gt2 & Gc). destruct (Forall_parts _ _ Gt2) as (G2 & Gt3 & _). destruct (Forall_parts _ _ Gt3) as (_ & _ & G3).
      cbn [lat_main] in E1. acc E1 s3 q0 F0 x0. destruct (_ >=? min_change num denom).
      * acc E1 s4 q1 F1 x1. acc E1 s5 q2 F2 x2. ret E1. rewrite !seen_app. eapply lat_polls; [exact G3|exact E1|]. intros Y. discriminate Y.
      * ret E1. rewrite seen_app. eapply lat_polls; [exact Gc|exact E1|]. eapply lat_polls; [exact G0|exact F0|exact HJ].
Qed.

Lemma irun_snoc : forall {S O R} (step : S -> O -> outcome (S * R)) main h c s s' rs qs, irun step main s (h ++ [c]) = Ok (s', rs, qs) ->
  exists s1 rs1 qs1 rs2 qs2, irun step main s h = Ok (s1, rs1, qs1) /\ irun step main s1 [c] = Ok (s', rs2, qs2) /\ rs = rs1 ++ rs2 /\ qs = qs1 ++ qs2.
Proof using.
  intros S O R step main h c. induction h as [|[i|m gaps] h IH]; intros s s' rs qs E.
  - exists s, [], [], rs, qs. auto.
  - cbn [app irun] in E. destruct (step s i) as [[s1 q]|k|] eqn:E1; cbn [bind] in E; [|discriminate E..].
    destruct (irun step main s1 (h ++ [c])) as [[[s2 rs2] qs2]|k|] eqn:E2; cbn in E; [|discriminate E..]. injection E as <- <- <-.
    destruct (IH _ _ _ _ E2) as (s3 & rs3 & qs3 & rs4 & qs4 & F1 & F2 & -> & ->). exists s3, rs3, (q :: qs3), rs4, qs4. cbn [irun]. rewrite E1. cbn [bind]. rewrite F1. auto.
  - cbn [app irun] in E. destruct (iexec step (main m) s gaps) as [[[s1 r] q]|k|] eqn:E1; cbn [bind] in E; [|discriminate E..]. cbn [fst snd] in E.
    destruct (irun step main s1 (h ++ [c])) as [[[s2 rs2] qs2]|k|] eqn:E2; cbn in E; [|discriminate E..]. injection E as <- <- <-.
    destruct (IH _ _ _ _ E2) as (s3 & rs3 & qs3 & rs4 & qs4 & F1 & F2 & -> & ->). exists s3, (r :: rs3), (q ++ qs3), rs4, qs4. cbn [irun]. rewrite E1. cbn [bind fst snd]. rewrite F1. rewrite <- app_assoc. auto.
Qed.

Theorem latched_up_to_date : forall h s s' rs qs v, lp_changed s = true \/ lp_val s = v ->
  (Forall (calls_by polls sets) h -> irun lstep (lat_main num denom) s (h ++ [Call PPoll []]) = Ok (s', rs, qs) -> last_seen v rs = lp_val s') /\
  (Forall (calls_by sets polls) h -> irun lstep (lat_main num denom) s (h ++ [Irq PPoll]) = Ok (s', rs, qs) -> last_seen v qs = lp_val s').
Proof using.
  intros h s s' rs qs v H0. assert (HJ : J s v) by (intros X; destruct H0; [congruence|assumption]). split; intros H E.
  - apply irun_snoc in E. destruct E as (s1 & rs1 & qs1 & rs2 & qs2 & E1 & E2 & -> & ->). pose proof (lat_main_polls _ _ _ _ _ v H E1 HJ) as X.
    rewrite seen_app. cbn in E2. destruct (lp_changed s1) eqn:C; cbn in E2; injection E2 as <- <- <-; [reflexivity|symmetry; exact (X C)].
  - apply irun_snoc in E. destruct E as (s1 & rs1 & qs1 & rs2 & qs2 & E1 & E2 & -> & ->). pose proof (lat_irq_polls _ _ _ _ _ v H E1 HJ) as X.
    rewrite seen_app. cbn in E2. destruct (lp_changed s1) eqn:C; cbn in E2; injection E2 as <- <- <-; [reflexivity|symmetry; exact (X C)].
Qed.
End Latch.

Notation pstep := (total par_step).
Definition JP (s : param) (v : Z) : Prop := pa_changed s = false -> pa_val s = v.
Lemma par_sets : forall l, Forall sets l -> forall s s' q v, run pstep s l = Ok (s', q) -> JP s v -> JP s' v.
Proof.
  intros l H. induction H as [|o l [x ->] _ IH]; intros s s' q v E HJ.
  - cbn in E. injection E as <- _. exact HJ.
  - cbn [run] in E. unfold total at 1 in E. destruct (par_step s (PSet x)) as [s1 r] eqn:E1. cbn in E.
    destruct (run pstep s1 l) as [[s2 q2]|k|] eqn:E2; cbn in E; [|discriminate E..]. injection E as <- _. eapply IH; [exact E2|].
    cbn in E1. destruct (x =? pa_val s); cbn in E1; injection E1 as <- _; [exact HJ|intros X; discriminate X].
Qed.
Lemma par_main_polls : forall h s s' rs qs v, Forall (calls_by polls sets) h -> Forall undisturbed h -> irun pstep par_main s h = Ok (s', rs, qs) -> JP s v -> JP s' (last_seen v rs).
Proof.
  intros h s s' rs qs v H. revert s s' rs qs v. induction H as [|c h Hc _ IH]; intros s s' rs qs v U E HJ; cbn [irun] in E.
  - injection E as <- <- <-. exact HJ.
  - apply Forall_cons_iff in U. destruct U as [Uc U]. destruct c as [i|m gaps].
    + destruct (pstep s i) as [[s1 q]|k|] eqn:E1; cbn [bind] in E; [|discriminate E..].
      destruct (irun pstep par_main s1 h) as [[[s2 rs2] qs2]|k|] eqn:E2; cbn in E; [|discriminate E..]. injection E as <- <- <-.
      eapply IH; [exact U|exact E2|]. eapply (par_sets [i]); [constructor; [exact Hc|constructor]| |exact HJ]. cbn [run]. rewrite E1. reflexivity.
    + destruct Hc as [Hm Hg]. unfold polls in Hm. subst m. cbn in Uc.
      destruct (iexec pstep (par_main PPoll) s gaps) as [[[s1 r] q]|k|] eqn:E1; cbn [bind] in E; [|discriminate E..].
      destruct (irun pstep par_main (fst (s1, r)) h) as [[[s2 rs2] qs2]|k|] eqn:E2; cbn in E; [|discriminate E..]. injection E as <- <- <-. cbn in E2.
      change (r :: rs2) with ([r] ++ rs2). rewrite seen_app. eapply IH; [exact U|exact E2|]. clear IH E2.
      destruct (Forall_parts _ _ Hg) as (G0 & Gt & _). destruct (Forall_parts _ _ Gt) as (G1 & Gt2 & _). destruct (Forall_parts _ _ Gt2) as (G2 & Gt3 & Gc). destruct (Forall_parts _ _ Gt3) as (_ & _ & G3).
      assert (N : hd [] (tl gaps) = []) by (destruct gaps as [|? [|? ?]]; cbn in *; auto).
      cbn [par_main] in E1. acc E1 s3 q0 F0 x0. acc E1 s4 q1 F1 x1. rewrite N in F1. cbn in F1. injection F1 as <- <-. destruct (pa_changed s3) eqn:C.
      * acc E1 s5 q2 F2 x2. ret E1. eapply par_sets; [exact G3|exact E1|]. intros _. reflexivity.
      * ret E1. eapply par_sets; [exact Gc|exact E1|]. intros _. cbn. eapply par_sets; [exact G0|exact F0|exact HJ|exact C].
Qed.
Theorem parameter_up_to_date : forall h s s' rs qs v, pa_changed s = true \/ pa_val s = v ->
  Forall (calls_by polls sets) h -> Forall undisturbed h -> irun pstep par_main s (h ++ [Call PPoll []]) = Ok (s', rs, qs) -> last_seen v rs = pa_val s'.
Proof.
  intros h s s' rs qs v H0 H U E. assert (HJ : JP s v) by (intros X; destruct H0; [congruence|assumption]).
  apply irun_snoc in E. destruct E as (s1 & rs1 & qs1 & rs2 & qs2 & E1 & E2 & -> & ->). pose proof (par_main_polls _ _ _ _ _ v H U E1 HJ) as X.
  rewrite seen_app. cbn in E2. destruct (pa_changed s1) eqn:C; cbn in E2; injection E2 as <- <- <-; [reflexivity|symmetry; exact (X C)].
Qed.
Lemma parameter_loses : forall s x, x <> pa_val s -> pa_changed s = false ->
  irun pstep par_main s [Call PPoll [[]; [PSet x]]; Call PPoll []] = Ok (PA x false, [None; None], [None]).
Proof. intros [v c] x H C. cbn in *. subst c. apply Z.eqb_neq in H. rewrite H. reflexivity. Qed.
Lemma parameter_early : forall s x, x <> pa_val s ->
  irun pstep par_main s [Call (PSet x) [[]; []; [PPoll]]; Irq PPoll] = Ok (PA x false, [None], [Some (pa_val s); None]).
Proof. intros [v c] x H. cbn in *. apply Z.eqb_neq in H. rewrite H. reflexivity. Qed.

(* calls that are not interrupted *)
Lemma uninterrupted_toggler o t : irun (total tog_step) tog_main t [Call o []] = Ok (fst (tog_step t o), [snd (tog_step t o)], []) /\
  irun (total tog_step) compact_main t [Call o []] = Ok (fst (tog_step t o), [snd (tog_step t o)], []).
Proof. destruct t as [h r f]; destruct o as [b| | |b| | | |]; try destruct b; destruct h, r, f; split; reflexivity. Qed.

Lemma uninterrupted_transfer a b : 
  irun (total x_step) x_main (a, b) [Call XTransfer []] = Ok (transfer_events a b, [false], []) /\
  forall o, irun (total x_step) x_main (a, b) [Call (XFirst o) []] = Ok ((fst (tog_step a o), b), [snd (tog_step a o)], []) /\
            irun (total x_step) x_main (a, b) [Call (XSecond o) []] = Ok ((a, fst (tog_step b o)), [snd (tog_step b o)], []).
Proof.
  split; [destruct a as [h r f], b as [h' r' f']; destruct h, r, f, h', r', f'; reflexivity|].
  intros o; split; cbn; [destruct (tog_step a o)|destruct (tog_step b o)]; reflexivity.
Qed.

Lemma uninterrupted_rotary o r : irun rot_step rot_main r [Call o []] =
  match rot_step r o with Ok (r', x) => Ok (r', [x], []) | UB k => UB k | OutOfFuel => OutOfFuel end.
Proof.
  destruct r as [a m]; destruct o; cbn; try reflexivity;
    unfold add_motion, schk; cbn; repeat match goal with |- context[if ?b then _ else _] => destruct b; cbn end; reflexivity.
Qed.

Lemma uninterrupted_param num denom o s p :
  irun (total par_step) par_main p [Call o []] = Ok (fst (par_step p o), [snd (par_step p o)], []) /\
  irun (total (lat_step num denom)) (lat_main num denom) s [Call o []] = Ok (fst (lat_step num denom s o), [snd (lat_step num denom s o)], []).
Proof.
  destruct s as [v c], p as [w d]; destruct o as [x|]; split; cbn.
  - destruct (x =? w) eqn:E; cbn; reflexivity.
  - destruct (_ >=? min_change num denom); cbn; reflexivity.
  - destruct d; reflexivity.
  - destruct c; reflexivity.
Qed.
