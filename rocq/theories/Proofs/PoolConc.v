From Verif.Common Require Import Base Lemmas Lists.
From Verif.Model Require Import PoolConc.

Lemma existsb_In i l : existsb (Z.eqb i) l = true <-> In i l.
Proof.
  rewrite existsb_exists. split.
  - intros (x & Hx & E). apply Z.eqb_eq in E. subst; assumption.
  - intros H. exists i. split; [assumption|apply Z.eqb_refl].
Qed.

Lemma combine_ids (h : list Z) : forall k id s, In (id, s) (combine (map Z.of_nat (seq k (length h))) h) <-> Z.of_nat k <= id /\ znth h (id - Z.of_nat k) = Some s.
Proof.
  induction h as [|x h IH]; intros k id s; cbn [length seq map combine In].
  - rewrite znth_nil. split; [tauto|intros [_ H]; discriminate].
  - rewrite IH, znth_cons. split.
    + intros [[= <- <-]|[H1 H2]].
      * split; [lia|]. replace (Z.of_nat k - Z.of_nat k =? 0) with true by lia. reflexivity.
      * split; [lia|]. replace (id - Z.of_nat k =? 0) with false by lia. replace (id - Z.of_nat k <? 0) with false by lia.
        rewrite <- H2. f_equal. lia.
    + intros [H1 H2]. destruct (Z.eqb_spec (id - Z.of_nat k) 0).
      * left. injection H2 as <-. f_equal. lia.
      * right. split; [lia|]. destruct (Z.ltb_spec (id - Z.of_nat k) 0); [lia|]. rewrite <- H2. f_equal. lia.
Qed.

Section P.
Variable N : Z.

Record Inv (c : cfg) : Prop := {
  i_len : zlen (flags c) = N;
  i_vlen : zlen (f_view c) = N;
  i_held : forall t i, holds c t i -> 0 <= i < N /\ znth (flags c) i = Some true;
  i_excl : forall t1 t2 i, holds c t1 i -> holds c t2 i -> t1 = t2;
  i_nodup : forall t, NoDup (owned (threads c t));
  i_dest : forall t i, t_pc (threads c t) = Destroying i -> ~ In i (owned (threads c t));
  i_pc : forall t i, t_pc (threads c t) = Creating i -> 0 <= i;
  i_nclr : forall t i, t_pc (threads c t) <> Clearing i;
  i_tview : forall t i id, holds c t i -> znth (hist c) id = Some i -> In id (t_view (threads c t));
  i_fview : forall i v id, znth (flags c) i = Some false -> znth (f_view c) i = Some v -> znth (hist c) id = Some i -> In id v }.

Lemma inv_init : 0 <= N -> Inv (p0 N).
Proof.
  intros HN. constructor; cbn; try (rewrite zlen_zrepeat; lia).
  - intros t i [[]|H]; discriminate.
  - intros t1 t2 i [[]|H]; discriminate.
  - constructor.
  - discriminate.
  - discriminate.
  - discriminate.
  - intros t i id [[]|H]; discriminate.
  - intros i v id _ _ H. rewrite znth_nil in H. discriminate.
Qed.

(** Changing only the program counter and owned set of one thread, not acquiring anything new. *)
Lemma inv_thread c t th' :
  Inv c ->
  (forall i, In i (owned th') \/ t_pc th' = Destroying i -> holds c t i) ->
  NoDup (owned th') -> (forall i, t_pc th' = Destroying i -> ~ In i (owned th')) ->
  (forall i, t_pc th' = Creating i -> 0 <= i) -> (forall i, t_pc th' <> Clearing i) ->
  incl (t_view (threads c t)) (t_view th') ->
  Inv (Cfg (flags c) (f_view c) (hist c) (set_thread c t th')).
Proof.
  intros [] Hh Hnd Hd Hp Hc Hv.
  assert (Hsub : forall u i, holds (Cfg (flags c) (f_view c) (hist c) (set_thread c t th')) u i -> holds c u i).
  { intros u i. unfold holds, set_thread; cbn. destruct (Z.eqb_spec u t); [subst u; apply Hh|tauto]. }
  constructor; cbn [flags f_view hist threads]; try assumption.
  - intros u i H. apply (i_held0 u i). auto.
  - intros t1 t2 i H1 H2. eapply i_excl0; eauto.
  - intros u. unfold set_thread. destruct (u =? t); auto.
  - intros u i. unfold set_thread. destruct (u =? t); auto.
  - intros u i. unfold set_thread. destruct (u =? t); eauto.
  - intros u i. unfold set_thread. destruct (u =? t); auto.
  - intros u i id H1 H2. specialize (i_tview0 u i id (Hsub _ _ H1) H2). unfold set_thread. destruct (Z.eqb_spec u t); [subst u; apply Hv; assumption|assumption].
Qed.

Lemma cas_ok acq rel c t i expected : Inv c -> 0 <= i < N ->
  exists f fv, znth (flags c) i = Some f /\ znth (f_view c) i = Some fv /\
  cas acq rel c t i expected =
    let v := t_view (threads c t) in let v' := if acq then v ++ fv else v in
    if Bool.eqb f expected then Ok (true, zupd (flags c) i (negb expected), zupd (f_view c) i (if rel then v ++ fv else fv), v')
    else Ok (false, flags c, f_view c, v').
Proof.
  intros [] Hi. destruct (znth_some (flags c) i) as [f Hf]; [lia|]. destruct (znth_some (f_view c) i) as [fv Hv]; [lia|].
  exists f, fv. splits; auto. unfold cas. rewrite (rd_ok _ _ _ Hf), (rd_ok _ _ _ Hv). cbn [bind].
  destruct (Bool.eqb f expected); [|reflexivity]. rewrite !wr_ok by lia. reflexivity.
Qed.

Lemma inv_step c l : Inv c -> no_clear l -> exists c' e, pstep true true N c l = Ok (c', e) /\ Inv c' /\
  (e <> EDestroyed false) /\ (forall i, e = EReturn (Some i) -> 0 <= i < N /\ forall u, ~ holds c u i).
Proof.
  intros HI Hn. destruct l as [t a]. unfold no_clear in Hn; cbn [snd] in Hn. cbn [pstep]. pose proof HI as [].
  assert (Hnop : exists c' e, Ok (c, ENone) = Ok (c', e) /\ Inv c' /\ e <> EDestroyed false /\ (forall i, e = EReturn (Some i) -> 0 <= i < N /\ forall u, ~ holds c u i)).
  { exists c, ENone. splits; auto; discriminate. }
  destruct a as [|i| |i|]; [| | | |contradiction]; destruct (t_pc (threads c t)) as [|j|j|j] eqn:Epc; try exact Hnop.
  - (* call create *)
    do 2 eexists; splits; [reflexivity| |discriminate|discriminate]. apply inv_thread; cbn [owned t_pc t_view]; auto; try discriminate.
    + intros i [H|H]; [left; assumption|discriminate].
    + intros i [= <-]. lia.
    + apply incl_refl.
  - (* call destroy *)
    destruct (existsb (Z.eqb i) (owned (threads c t))) eqn:Eo; [|exact Hnop]. apply existsb_In in Eo.
    do 2 eexists; splits; [reflexivity| |discriminate|discriminate]. apply inv_thread; cbn [owned t_pc t_view]; auto; try discriminate.
    + intros j [H|[= <-]]; left; [apply filter_In in H; tauto|assumption].
    + apply NoDup_filter. auto.
    + intros j [= <-] H. apply filter_In in H. destruct H as [_ H]. rewrite Z.eqb_refl in H. discriminate.
    + apply incl_refl.
  - (* create step *)
    pose proof (i_pc0 t j Epc) as Hj0. destruct (Z.ltb_spec j N) as [Hj|Hj].
    + destruct (cas_ok true true c t j false HI) as (f & fv & Hf & Hv & E); [lia|]. rewrite E. cbn zeta.
      destruct f; cbn [Bool.eqb bind].
      * do 2 eexists; splits; [reflexivity| |discriminate|discriminate]. apply inv_thread; cbn [owned t_pc t_view]; auto; try discriminate.
        -- intros i [H|H]; [left; assumption|discriminate].
        -- intros i [= <-]. lia.
        -- apply incl_appl, incl_refl.
      * do 2 eexists; splits; [reflexivity| |discriminate|].
        2:{ intros i [= <-]. split; [lia|]. intros u Hu. destruct (i_held0 _ _ Hu) as [_ H]. congruence. }
        assert (Hnoj : forall u, ~ holds c u j) by (intros u Hu; destruct (i_held0 _ _ Hu); congruence).
        assert (Hsub : forall u i, holds (Cfg (zupd (flags c) j (negb false)) (zupd (f_view c) j (t_view (threads c t) ++ fv)) (hist c)
                    (set_thread c t (Thread Idle (j :: owned (threads c t)) (t_view (threads c t) ++ fv)))) u i -> (u = t /\ i = j) \/ (i <> j /\ holds c u i)).
        { intros u i. unfold holds, set_thread; cbn [threads]. destruct (Z.eqb_spec u t); cbn [owned t_pc In].
          - subst u. intros [[->|H]|H]; [auto| |discriminate]. right. split; [|auto]. intros ->. apply (Hnoj t). left; assumption.
          - intros H. right. split; [|assumption]. intros ->. apply (Hnoj u). exact H. }
        constructor; cbn [flags f_view hist threads negb]; try assumption.
        -- rewrite zlen_zupd. assumption.
        -- rewrite zlen_zupd. assumption.
        -- intros u i H. destruct (Hsub _ _ H) as [[-> ->]|[Hne H']].
           ++ split; [lia|]. rewrite znth_zupd, Z.eqb_refl. cbn [andb]. replace ((0 <=? j) && (j <? zlen (flags c))) with true by lia. reflexivity.
           ++ destruct (i_held0 _ _ H'). split; [assumption|]. rewrite znth_zupd. replace (j =? i) with false by lia. cbn [andb]. assumption.
        -- intros t1 t2 i H1 H2. destruct (Hsub _ _ H1) as [[-> ->]|[N1 H1']]; destruct (Hsub _ _ H2) as [[-> E2]|[N2 H2']]; try congruence; eauto.
        -- intros u. unfold set_thread. destruct (Z.eqb_spec u t); cbn [owned]; [|auto]. constructor; [|auto]. intros H. apply (Hnoj t). left; assumption.
        -- intros u i. unfold set_thread. destruct (u =? t); cbn [t_pc]; [discriminate|auto].
        -- intros u i. unfold set_thread. destruct (u =? t); cbn [t_pc]; [discriminate|auto]. apply i_pc0.
        -- intros u i. unfold set_thread. destruct (u =? t); cbn [t_pc]; [discriminate|auto].
        -- intros u i id H Hh. destruct (Hsub _ _ H) as [[-> ->]|[N1 H1']]; unfold set_thread.
           ++ rewrite Z.eqb_refl. cbn [t_view]. apply in_or_app. right. eapply i_fview0; eauto.
           ++ specialize (i_tview0 _ _ _ H1' Hh). destruct (Z.eqb_spec u t); [subst u; cbn [t_view]; apply in_or_app; auto|assumption].
        -- intros i v id. rewrite !znth_zupd. destruct (Z.eqb_spec j i); cbn [andb]; [|eauto].
           replace ((0 <=? j) && (j <? zlen (flags c))) with true by lia. discriminate.
    + do 2 eexists; splits; [reflexivity| |discriminate|discriminate]. apply inv_thread; cbn [owned t_pc t_view]; auto; try discriminate.
      * intros i [H|H]; [left; assumption|discriminate].
      * apply incl_refl.
  - (* destroy step *)
    assert (Hh : holds c t j) by (right; assumption). destruct (i_held0 _ _ Hh) as [Hj Hf].
    replace (j <? N) with true by lia.
    destruct (cas_ok true true c t j true HI Hj) as (f & fv & Hf' & Hv & E). rewrite E. cbn zeta. rewrite Hf in Hf'. injection Hf' as <-.
    cbn [Bool.eqb bind]. do 2 eexists; splits; [reflexivity| |discriminate|discriminate].
    assert (Hsub : forall u i, holds (Cfg (zupd (flags c) j (negb true)) (zupd (f_view c) j (t_view (threads c t) ++ fv)) (hist c)
                (set_thread c t (Thread Idle (owned (threads c t)) (t_view (threads c t) ++ fv)))) u i -> i <> j /\ holds c u i).
    { intros u i. unfold holds, set_thread; cbn [threads]. destruct (Z.eqb_spec u t); cbn [owned t_pc In].
      - subst u. intros [H|H]; [|discriminate]. split; [|auto]. intros ->. eapply i_dest0; eauto.
      - intros H. split; [|assumption]. intros ->. apply n. eapply i_excl0; [exact H|exact Hh]. }
    constructor; cbn [flags f_view hist threads negb]; try assumption.
    + rewrite zlen_zupd. assumption.
    + rewrite zlen_zupd. assumption.
    + intros u i H. destruct (Hsub _ _ H) as [Hne H']. destruct (i_held0 _ _ H'). split; [assumption|]. rewrite znth_zupd. replace (j =? i) with false by lia. cbn [andb]. assumption.
    + intros t1 t2 i H1 H2. destruct (Hsub _ _ H1) as [N1 H1']; destruct (Hsub _ _ H2) as [N2 H2']; eauto.
    + intros u. unfold set_thread. destruct (Z.eqb_spec u t); cbn [owned]; auto.
    + intros u i. unfold set_thread. destruct (u =? t); cbn [t_pc]; [discriminate|auto].
    + intros u i. unfold set_thread. destruct (u =? t); cbn [t_pc]; [discriminate|auto]. apply i_pc0.
    + intros u i. unfold set_thread. destruct (u =? t); cbn [t_pc]; [discriminate|auto].
    + intros u i id H Hid. destruct (Hsub _ _ H) as [N1 H1']; unfold set_thread.
      specialize (i_tview0 _ _ _ H1' Hid). destruct (Z.eqb_spec u t); [subst u; cbn [t_view]; apply in_or_app; auto|assumption].
    + intros i v id. rewrite !znth_zupd. destruct (Z.eqb_spec j i); cbn [andb]; [|eauto]. subst i.
      replace ((0 <=? j) && (j <? zlen (flags c))) with true by lia. replace ((0 <=? j) && (j <? zlen (f_view c))) with true by lia.
      intros _ [= <-] Hid. apply in_or_app. left. eapply i_tview0; eauto.
  - (* clearing *) exfalso. eapply i_nclr0; eauto.
  - (* access *)
    destruct (existsb (Z.eqb i) (owned (threads c t))) eqn:Eo; [|exact Hnop]. apply existsb_In in Eo.
    assert (Hh : holds c t i) by (left; assumption). unfold access.
    destruct (existsb _ _) eqn:Er.
    { exfalso. apply existsb_exists in Er. destruct Er as ([id s] & HIn & Hb). cbn [fst snd] in Hb. apply andb_prop in Hb. destruct Hb as [Hs Hno].
      apply Z.eqb_eq in Hs. subst s. apply (combine_ids (hist c) 0) in HIn. destruct HIn as [H0 Hz]. replace (id - Z.of_nat 0) with id in Hz by lia.
      assert (existsb (Z.eqb id) (t_view (threads c t)) = true) by (apply existsb_In; eauto). rewrite H in Hno. discriminate. }
    cbn [bind]. do 2 eexists; splits; [reflexivity| |discriminate|discriminate].
    assert (Hsub : forall u k, holds (Cfg (flags c) (f_view c) (hist c ++ [i]) (set_thread c t (Thread (t_pc (threads c t)) (owned (threads c t)) (zlen (hist c) :: t_view (threads c t))))) u k -> holds c u k).
    { intros u k. unfold holds, set_thread; cbn [threads]. destruct (Z.eqb_spec u t); cbn [owned t_pc]; [subst u|]; tauto. }
    constructor; cbn [flags f_view hist threads]; try assumption.
    + intros u k H. apply (i_held0 u k). auto.
    + intros t1 t2 k H1 H2. eapply i_excl0; eauto.
    + intros u. unfold set_thread. destruct (u =? t); cbn [owned]; auto.
    + intros u k. unfold set_thread. destruct (u =? t); cbn [t_pc owned]; auto.
    + intros u k. unfold set_thread. destruct (u =? t); cbn [t_pc]; apply i_pc0.
    + intros u k. unfold set_thread. destruct (u =? t); cbn [t_pc]; auto.
    + intros u k id H Hid. pose proof (Hsub _ _ H) as H'. rewrite znth_app, znth_cons, znth_nil in Hid. unfold set_thread.
      destruct (Z.ltb_spec id (zlen (hist c))).
      * specialize (i_tview0 _ _ _ H' Hid). destruct (Z.eqb_spec u t); [subst u; right; assumption|assumption].
      * destruct (Z.eqb_spec (id - zlen (hist c)) 0); [|destruct (id - zlen (hist c) <? 0); discriminate]. injection Hid as <-.
        assert (u = t) by (eapply i_excl0; eauto). subst u. rewrite Z.eqb_refl. left. lia.
    + intros k v id Hk Hv Hid. rewrite znth_app, znth_cons, znth_nil in Hid. destruct (Z.ltb_spec id (zlen (hist c))); [eauto|].
      destruct (Z.eqb_spec (id - zlen (hist c)) 0); [|destruct (id - zlen (hist c) <? 0); discriminate]. injection Hid as <-.
      destruct (i_held0 _ _ Hh). congruence.
Qed.

Lemma run_inv ls : forall c, Inv c -> Forall no_clear ls ->
  exists c' es, run (pstep true true N) c ls = Ok (c', es) /\ Inv c' /\ ~ In (EDestroyed false) es /\
    (forall i, In (EReturn (Some i)) es -> 0 <= i < N).
Proof.
  induction ls as [|l ls IH]; intros c HI HF; cbn [run].
  - exists c, []. splits; auto; intros; contradiction.
  - inversion HF as [|? ? Hl HF']; subst. destruct (inv_step c l HI Hl) as (c1 & e & E & HI1 & He & Hr). rewrite E. cbn [bind].
    destruct (IH c1 HI1 HF') as (c2 & es & E2 & HI2 & Hes & Hrs). rewrite E2. cbn [bind]. exists c2, (e :: es). splits; auto.
    + intros [H|H]; [congruence|contradiction].
    + intros i [H|H]; [apply (Hr i H)|auto].
Qed.

Lemma mutual_exclusion ls : 0 <= N -> Forall no_clear ls ->
  exists c es, run (pstep true true N) (p0 N) ls = Ok (c, es) /\
    (forall t1 t2 i, holds c t1 i -> holds c t2 i -> t1 = t2) /\
    (forall t, NoDup (owned (threads c t))) /\
    (forall t i, holds c t i -> 0 <= i < N /\ znth (flags c) i = Some true) /\
    (forall i, In (EReturn (Some i)) es -> 0 <= i < N) /\ ~ In (EDestroyed false) es.
Proof.
  intros HN HF. destruct (run_inv ls (p0 N) (inv_init HN) HF) as (c & es & E & HI & H1 & H2). exists c, es.
  splits; auto; apply HI.
Qed.

(** create returns an index nobody holds at that moment. *)
Lemma fresh_index ls t c es c' i : 0 <= N -> Forall no_clear ls ->
  run (pstep true true N) (p0 N) ls = Ok (c, es) ->
  pstep true true N c (t, AStep) = Ok (c', EReturn (Some i)) ->
  (forall u, ~ holds c u i) /\ holds c' t i.
Proof.
  intros HN HF E Es. destruct (run_inv ls (p0 N) (inv_init HN) HF) as (c0 & es0 & E0 & HI & _). rewrite E in E0. injection E0 as <- <-.
  destruct (inv_step c (t, AStep) HI) as (c1 & e & E1 & HI1 & _ & Hr); [discriminate|]. rewrite Es in E1. injection E1 as <- <-.
  split; [apply (Hr i eq_refl)|]. cbn [pstep] in Es. destruct (t_pc (threads c t)) as [|j|j|j] eqn:Epc; try discriminate.
  - destruct (Z.ltb_spec j N); [|discriminate]. destruct HI as []. destruct (cas true true c t j false) as [[[[ok fl] fv] v]| |]; cbn [bind] in Es; try discriminate.
    destruct ok; try discriminate. injection Es as <- <-. left. cbn. unfold set_thread. rewrite Z.eqb_refl. left; reflexivity.
  - destruct (j <? N); [|discriminate]. destruct (cas true true c t j true) as [[[[ok fl] fv] v]| |]; cbn [bind] in Es; discriminate.
  - destruct (j <? N); [|discriminate]. destruct (access c t j); cbn [bind] in Es; try discriminate.
    destruct (wr _ _ _); cbn [bind] in Es; try discriminate. destruct (wr _ _ _); cbn [bind] in Es; discriminate.
Qed.

(** A nullopt means that every slot was seen in use during the call. *)
Lemma other_thread_pc acq rel c t u a c' e : pstep acq rel N c (u, a) = Ok (c', e) -> u <> t -> t_pc (threads c' t) = t_pc (threads c t).
Proof.
  intros E Hu. assert (Hne : (t =? u) = false) by lia.
  unfold pstep in E.
  assert (Hset : forall x, set_thread c u x t = threads c t) by (intros; unfold set_thread; rewrite Hne; reflexivity).
  assert (Hacc : forall i c1, access c u i = Ok c1 -> threads c1 t = threads c t).
  { intros i c1 Ea. unfold access in Ea. destruct (existsb _ _); try discriminate. injection Ea as <-. cbn [threads]. apply Hset. }
  destruct a as [|i| |i|]; destruct (t_pc (threads c u)) as [|j|j|j];
    try (injection E as <- <-; cbn [threads]; rewrite ?Hset; reflexivity).
  - destruct (existsb _ _); injection E as <- <-; cbn [threads]; rewrite ?Hset; reflexivity.
  - destruct (j <? N); [|injection E as <- <-; cbn [threads]; rewrite Hset; reflexivity].
    destruct (cas _ _ _ _ _ _) as [[[[ok fl] fv] v]| |]; cbn [bind] in E; try discriminate.
    destruct ok; injection E as <- <-; cbn [threads]; rewrite Hset; reflexivity.
  - destruct (j <? N); [|injection E as <- <-; cbn [threads]; rewrite Hset; reflexivity].
    destruct (cas _ _ _ _ _ _) as [[[[ok fl] fv] v]| |]; cbn [bind] in E; try discriminate.
    injection E as <- <-; cbn [threads]; rewrite Hset; reflexivity.
  - destruct (j <? N); [|injection E as <- <-; cbn [threads]; rewrite Hset; reflexivity].
    destruct (access c u j) as [c1| |] eqn:Ea; cbn [bind] in E; try discriminate. destruct (wr _ _ _); cbn [bind] in E; try discriminate.
    destruct (wr _ _ _); cbn [bind] in E; try discriminate. injection E as <- <-. cbn [threads]. unfold set_thread. rewrite Hne.
    rewrite (Hacc _ _ Ea). reflexivity.
  - destruct (existsb _ _); [|injection E as <- <-; reflexivity]. destruct (access c u i) eqn:Ea; cbn [bind] in E; try discriminate.
    injection E as <- <-. rewrite (Hacc _ _ Ea). reflexivity.
Qed.

Lemma own_step_pc acq rel c t a c' e i : pstep acq rel N c (t, a) = Ok (c', e) -> a <> ACreate -> t_pc (threads c' t) = Creating i ->
  (t_pc (threads c t) = Creating i /\ a <> AStep) \/ (t_pc (threads c t) = Creating (i - 1) /\ a = AStep /\ znth (flags c) (i - 1) = Some true /\ i - 1 < N).
Proof.
  intros E Ha Hpc. unfold pstep in E.
  assert (Hset : forall x, set_thread c t x t = x) by (intros; unfold set_thread; rewrite Z.eqb_refl; reflexivity).
  destruct a as [|j| |j|]; [contradiction| | | |]; destruct (t_pc (threads c t)) as [|k|k|k] eqn:Epc;
    try (injection E as <- <-; left; split; congruence).
  - destruct (existsb _ _); injection E as <- <-; cbn [threads] in Hpc; rewrite ?Hset in Hpc; cbn [t_pc] in Hpc; [discriminate|congruence].
  - destruct (Z.ltb_spec k N); [|injection E as <- <-; cbn [threads] in Hpc; rewrite Hset in Hpc; discriminate].
    unfold cas in E. destruct (rd (flags c) k) as [f| |] eqn:Ef; cbn [bind] in E; try discriminate.
    destruct (rd (f_view c) k) as [fv| |]; cbn [bind] in E; try discriminate. destruct f; cbn [Bool.eqb bind] in E.
    + injection E as <- <-. cbn [threads] in Hpc. rewrite Hset in Hpc. cbn [t_pc] in Hpc. injection Hpc as <-. right.
      replace (k + 1 - 1) with k by lia. splits; auto. unfold rd in Ef. destruct (znth (flags c) k); congruence.
    + destruct (wr _ _ _); cbn [bind] in E; try discriminate. destruct (wr _ _ _); cbn [bind] in E; try discriminate.
      injection E as <- <-. cbn [threads] in Hpc. rewrite Hset in Hpc. discriminate.
  - destruct (k <? N); [|injection E as <- <-; cbn [threads] in Hpc; rewrite Hset in Hpc; discriminate].
    destruct (cas _ _ _ _ _ _) as [[[[ok fl] fv] v]| |]; cbn [bind] in E; try discriminate. injection E as <- <-.
    cbn [threads] in Hpc. rewrite Hset in Hpc. discriminate.
  - destruct (k <? N); [|injection E as <- <-; cbn [threads] in Hpc; rewrite Hset in Hpc; discriminate].
    destruct (access c t k); cbn [bind] in E; try discriminate. destruct (wr _ _ _); cbn [bind] in E; try discriminate.
    destruct (wr _ _ _); cbn [bind] in E; try discriminate. injection E as <- <-.
    cbn [threads] in Hpc. unfold set_thread in Hpc. rewrite Z.eqb_refl in Hpc. discriminate.
  - destruct (existsb _ _); [|injection E as <- <-; congruence]. destruct (access c t j) eqn:Ea; cbn [bind] in E; try discriminate.
    injection E as <- <-. unfold access in Ea. destruct (existsb _ _); try discriminate. injection Ea as <-. cbn [threads] in Hpc. rewrite Hset in Hpc. cbn [t_pc] in Hpc. congruence.
  - injection E as <- <-. cbn [threads] in Hpc. rewrite Hset in Hpc. discriminate.
Qed.

(** during the steps [mid] after thread t's call to create, every slot below its loop index was used at some point *)
Lemma seen_used acq rel mid : forall c0 t c es i,
  t_pc (threads c0 t) = Creating 0 -> ~ In (t, ACreate) mid ->
  run (pstep acq rel N) c0 mid = Ok (c, es) -> t_pc (threads c t) = Creating i ->
  forall j, 0 <= j < i -> exists m1 m2 c1 es1, mid = m1 ++ m2 /\ run (pstep acq rel N) c0 m1 = Ok (c1, es1) /\ znth (flags c1) j = Some true.
Proof.
  induction mid as [|[u a] mid IH] using rev_ind; intros c0 t c es i H0 Hno E Hpc j Hj.
  - cbn in E. injection E as <- <-. rewrite H0 in Hpc. injection Hpc as <-. lia.
  - rewrite run_app in E. destruct (run (pstep acq rel N) c0 mid) as [[c1 es1]| |] eqn:E1; cbn [bind] in E; try discriminate.
    cbn [run] in E. destruct (pstep acq rel N c1 (u, a)) as [[c2 e]| |] eqn:E2; cbn [bind] in E; try discriminate. injection E as <- <-.
    assert (Hno1 : ~ In (t, ACreate) mid) by (intros H; apply Hno; apply in_or_app; auto).
    assert (Hgo : forall k, t_pc (threads c1 t) = Creating k -> 0 <= j < k -> exists m1 m2 c3 es3, mid ++ [(u, a)] = m1 ++ m2 /\ run (pstep acq rel N) c0 m1 = Ok (c3, es3) /\ znth (flags c3) j = Some true).
    { intros k Hk Hjk. destruct (IH c0 t c1 es1 k H0 Hno1 E1 Hk j Hjk) as (m1 & m2 & c3 & es3 & -> & Er & Hz).
      exists m1, (m2 ++ [(u, a)]), c3, es3. rewrite <- app_assoc. auto. }
    destruct (Z.eq_dec u t) as [->|Hne].
    + assert (Ha : a <> ACreate) by (intros ->; apply Hno; apply in_or_app; right; left; reflexivity).
      destruct (own_step_pc _ _ _ _ _ _ _ _ E2 Ha Hpc) as [[Hk _]|(Hk & -> & Hz & _)]; [eauto|].
      destruct (Z.eq_dec j (i - 1)) as [->|]; [|apply (Hgo (i - 1)); [assumption|lia]].
      exists mid, [(t, AStep)], c1, es1. auto.
    + apply (Hgo i); [|assumption]. rewrite <- Hpc. symmetry. eapply other_thread_pc; eauto.
Qed.

Lemma nullopt_all_used acq rel ls mid t c0 es0 c1 e1 c es c' :
  run (pstep acq rel N) (p0 N) ls = Ok (c0, es0) -> t_pc (threads c0 t) = Idle ->
  pstep acq rel N c0 (t, ACreate) = Ok (c1, e1) -> ~ In (t, ACreate) mid ->
  run (pstep acq rel N) c1 mid = Ok (c, es) -> pstep acq rel N c (t, AStep) = Ok (c', EReturn None) ->
  forall j, 0 <= j < N -> exists m1 m2 cj esj, mid = m1 ++ m2 /\ run (pstep acq rel N) c1 m1 = Ok (cj, esj) /\ znth (flags cj) j = Some true.
Proof.
  intros _ Hid E1 Hno Em Er j Hj.
  assert (H0 : t_pc (threads c1 t) = Creating 0).
  { cbn [pstep] in E1. rewrite Hid in E1. injection E1 as <- <-. cbn. unfold set_thread. rewrite Z.eqb_refl. reflexivity. }
  cbn [pstep] in Er. destruct (t_pc (threads c t)) as [|k|k|k] eqn:Epc; try discriminate.
  - destruct (Z.ltb_spec k N).
    + destruct (cas _ _ _ _ _ _) as [[[[ok fl] fv] v]| |]; cbn [bind] in Er; try discriminate. destruct ok; discriminate.
    + apply (seen_used acq rel mid c1 t c es k H0 Hno Em Epc j). lia.
  - destruct (k <? N); [|discriminate]. destruct (cas _ _ _ _ _ _) as [[[[ok fl] fv] v]| |]; cbn [bind] in Er; discriminate.
  - destruct (k <? N); [|discriminate]. destruct (access c t k); cbn [bind] in Er; try discriminate.
    destruct (wr _ _ _); cbn [bind] in Er; try discriminate. destruct (wr _ _ _); cbn [bind] in Er; discriminate.
Qed.

Lemma own_steps_app t l1 l2 : own_steps t (l1 ++ l2) = own_steps t l1 + own_steps t l2.
Proof. induction l1 as [|[v b] l IH]; [reflexivity|]. cbn [app own_steps]. rewrite IH. destruct b; lia. Qed.

(** A create that has not returned has made one atomic step per slot passed: at most N. *)
Lemma create_steps acq rel ls : forall c t c' es k,
  t_pc (threads c t) = Creating 0 -> ~ In (t, ACreate) ls ->
  run (pstep acq rel N) c ls = Ok (c', es) -> t_pc (threads c' t) = Creating k -> own_steps t ls = k /\ (k = 0 \/ k <= N).
Proof.
  induction ls as [|[u a] ls IH] using rev_ind; intros c t c' es k H0 Hno E Hpc.
  - cbn in E. injection E as <- <-. rewrite H0 in Hpc. injection Hpc as <-. cbn. lia.
  - rewrite run_app in E. destruct (run (pstep acq rel N) c ls) as [[c1 es1]| |] eqn:E1; cbn [bind] in E; try discriminate.
    cbn [run] in E. destruct (pstep acq rel N c1 (u, a)) as [[c2 e]| |] eqn:E2; cbn [bind] in E; try discriminate. injection E as <- <-.
    assert (Hno1 : ~ In (t, ACreate) ls) by (intros H; apply Hno; apply in_or_app; auto).
    assert (Hos : own_steps t (ls ++ [(u, a)]) = own_steps t ls + own_steps t [(u, a)]).
    { apply own_steps_app. }
    rewrite Hos. destruct (Z.eq_dec u t) as [->|Hne].
    + assert (Ha : a <> ACreate) by (intros ->; apply Hno; apply in_or_app; right; left; reflexivity).
      destruct (own_step_pc _ _ _ _ _ _ _ _ E2 Ha Hpc) as [[Hk Hs]|(Hk & -> & _ & HkN)].
      * destruct (IH c t c1 es1 k H0 Hno1 E1 Hk) as [I1 I2]. rewrite I1. split; [|assumption]. cbn. destruct a; try contradiction; lia.
      * destruct (IH c t c1 es1 (k - 1) H0 Hno1 E1 Hk) as [I1 I2]. rewrite I1. cbn. rewrite Z.eqb_refl. lia.
    + rewrite (other_thread_pc acq rel c1 t u a c2 e E2 Hne) in Hpc. destruct (IH c t c1 es1 k H0 Hno1 E1 Hpc) as [I1 I2].
      rewrite I1. split; [|assumption]. cbn. destruct a; try lia. replace (u =? t) with false by lia. lia.
Qed.
End P.

Lemma relaxed_race N t u (acq rel : bool) : 0 < N -> t <> u -> acq && rel = false ->
  run (pstep acq rel N) (p0 N) [(t, ACreate); (t, AStep); (t, AAccess 0); (t, ADestroy 0); (t, AStep); (u, ACreate); (u, AStep); (u, AAccess 0)] = UB DataRace.
Proof.
  intros HN Htu Har. assert (Hut : u =? t = false) by lia. assert (Htu' : t =? u = false) by lia.
  assert (L1 : zlen (zrepeat false N) = N) by (unfold zlen, zrepeat; rewrite repeat_length; lia).
  assert (L2 : zlen (zrepeat (@nil Z) N) = N) by (unfold zlen, zrepeat; rewrite repeat_length; lia).
  assert (R1 : znth (zrepeat false N) 0 = Some false) by (unfold zrepeat; destruct (Z.to_nat N) eqn:E; [lia|reflexivity]).
  assert (R2 : znth (zrepeat (@nil Z) N) 0 = Some []) by (unfold zrepeat; destruct (Z.to_nat N) eqn:E; [lia|reflexivity]).
  assert (HN0 : (0 <? N) = true) by lia.
  assert (E1 : exists c1 e1, run (pstep acq rel N) (p0 N) [(t, ACreate); (t, AStep)] = Ok (c1, e1) /\ zlen (flags c1) = N /\ znth (flags c1) 0 = Some true /\ zlen (f_view c1) = N /\
            znth (f_view c1) 0 = Some [] /\ hist c1 = [] /\ threads c1 t = Thread Idle [0] [] /\ threads c1 u = Thread Idle [] []).
  { cbn [run pstep]. cbn [p0 threads t_pc bind]. cbn [pstep threads]. unfold set_thread at 1. rewrite Z.eqb_refl. cbn [t_pc].
    rewrite HN0. unfold cas. cbn [threads flags f_view p0]. rewrite (rd_ok _ _ _ R1), (rd_ok _ _ _ R2). cbn [bind Bool.eqb]. rewrite wr_ok by lia. cbn [bind]. rewrite wr_ok by lia. cbn [bind].
    unfold set_thread. cbn [threads]. rewrite ?Z.eqb_refl, ?Hut. cbn [t_pc owned t_view bind]. do 2 eexists. split; [reflexivity|]. cbn [flags f_view hist threads].
    rewrite ?Z.eqb_refl, ?Htu', ?Hut. rewrite !zlen_zupd, !znth_zupd_eq by lia. destruct acq, rel; splits; auto. }
  destruct E1 as (c1 & e1 & E1 & A1 & A2 & A3 & A4 & A5 & A6 & A7).
  change [(t, ACreate); (t, AStep); (t, AAccess 0); (t, ADestroy 0); (t, AStep); (u, ACreate); (u, AStep); (u, AAccess 0)] with
    ([(t, ACreate); (t, AStep)] ++ [(t, AAccess 0); (t, ADestroy 0); (t, AStep)] ++ [(u, ACreate); (u, AStep)] ++ [(u, AAccess 0)]). rewrite run_app, E1. cbn [bind].
  assert (E2 : exists c2 e2, run (pstep acq rel N) c1 [(t, AAccess 0); (t, ADestroy 0); (t, AStep)] = Ok (c2, e2) /\ zlen (flags c2) = N /\ znth (flags c2) 0 = Some false /\ zlen (f_view c2) = N /\
            znth (f_view c2) 0 = Some (if rel then [0] else []) /\ hist c2 = [0] /\ threads c2 u = Thread Idle [] []).
  { cbn [run pstep]. rewrite A6. cbn [t_pc owned existsb Z.eqb orb]. unfold access. rewrite A5, A6. cbn [length seq map combine existsb bind t_pc owned t_view zlen app].
    cbn [pstep threads]. unfold set_thread at 1 2. rewrite Z.eqb_refl. cbn [t_pc owned t_view existsb Z.eqb orb bind filter negb].
    cbn [pstep threads]. unfold set_thread at 1. rewrite Z.eqb_refl. cbn [t_pc]. rewrite HN0. unfold cas. cbn [flags f_view threads].
    rewrite (rd_ok _ _ _ A2), (rd_ok _ _ _ A4). cbn [bind Bool.eqb negb]. rewrite wr_ok by lia. cbn [bind]. rewrite wr_ok by lia. cbn [bind].
    do 2 eexists. split; [reflexivity|]. cbn [flags f_view hist threads]. rewrite !zlen_zupd, !znth_zupd_eq by lia. unfold set_thread. cbn [threads]. rewrite ?Z.eqb_refl, ?Hut. cbn [t_view].
    rewrite A7. destruct rel; splits; auto. }
  destruct E2 as (c2 & e2 & E2 & B1 & B2 & B3 & B4 & B5 & B6). rewrite run_app, E2. cbn [bind].
  assert (E3 : exists c3 e3, run (pstep acq rel N) c2 [(u, ACreate); (u, AStep)] = Ok (c3, e3) /\ hist c3 = [0] /\ threads c3 u = Thread Idle [0] []).
  { cbn [run pstep]. rewrite B6. cbn [t_pc owned t_view bind]. cbn [pstep threads]. unfold set_thread at 1. rewrite Z.eqb_refl. cbn [t_pc]. rewrite HN0. unfold cas. cbn [flags f_view threads].
    rewrite (rd_ok _ _ _ B2), (rd_ok _ _ _ B4). cbn [bind Bool.eqb negb]. rewrite wr_ok by lia. cbn [bind]. rewrite wr_ok by lia. cbn [bind].
    do 2 eexists. split; [reflexivity|]. cbn [hist threads]. unfold set_thread. cbn [threads]. rewrite ?Z.eqb_refl. cbn [t_view owned]. split; [exact B5|]. destruct acq, rel; try discriminate Har; reflexivity. }
  destruct E3 as (c3 & e3 & E3 & C1 & C2). rewrite run_app, E3. cbn [bind run pstep]. rewrite C2. cbn [t_pc owned existsb Z.eqb orb]. unfold access. rewrite C1, C2. reflexivity.
Qed.
(* clear by [u], when every access so far is in its view *)
Definition seen_all (c : cfg) (u : Z) : Prop := forall j, 0 <= j < zlen (hist c) -> In j (t_view (threads c u)).
Lemma access_seen c u i : seen_all c u -> exists c', access c u i = Ok c' /\ seen_all c' u /\ flags c' = flags c /\ f_view c' = f_view c /\
  t_pc (threads c' u) = t_pc (threads c u) /\ owned (threads c' u) = owned (threads c u) /\ forall w, w <> u -> threads c' w = threads c w.
Proof.
  intros HS. unfold access. destruct (existsb _ _) eqn:E.
  - exfalso. apply existsb_exists in E as ([j x] & Hin & Hb). apply andb_true_iff in Hb as [_ Hb]. apply in_combine_l in Hin. apply in_map_iff in Hin as (m & <- & Hm).
    apply in_seq in Hm. cbn [fst] in Hb. apply negb_true_iff in Hb. enough (existsb (Z.eqb (Z.of_nat m)) (t_view (threads c u)) = true) by congruence.
    apply existsb_exists. exists (Z.of_nat m). split; [|apply Z.eqb_refl]. apply HS. unfold zlen. lia.
  - eexists. split; [reflexivity|]. unfold seen_all, set_thread. cbn [hist threads flags f_view]. rewrite Z.eqb_refl. cbn [t_view t_pc owned]. splits; try reflexivity.
    + intros j Hj. rewrite zlen_app in Hj. change (zlen [i]) with 1 in Hj. destruct (Z.eq_dec j (zlen (hist c))); [left; congruence|right]. apply HS. lia.
    + intros w Hw. apply Z.eqb_neq in Hw. rewrite Hw. reflexivity.
Qed.
Lemma clear_steps N u : forall n c i, 0 <= i -> i + Z.of_nat n = N -> zlen (flags c) = N -> zlen (f_view c) = N -> seen_all c u -> t_pc (threads c u) = Clearing i ->
  exists c' es, run (pstep true true N) c (repeat (u, AStep) n) = Ok (c', es) /\ zlen (flags c') = N /\ zlen (f_view c') = N /\ t_pc (threads c' u) = Clearing N /\
    (forall w, w <> u -> threads c' w = threads c w) /\ (forall j, i <= j < N -> znth (flags c') j = Some false) /\ (forall j, j < i -> znth (flags c') j = znth (flags c) j).
Proof.
  induction n as [|n IH]; intros c i Hi Hn Hf Hv HS Hp.
  - exists c, []. splits; try reflexivity; try assumption; try lia. rewrite Hp. f_equal. lia.
  - cbn [repeat run]. cbn [pstep]. rewrite Hp. replace (i <? N) with true by lia.
    destruct (access_seen c u i HS) as (c1 & E1 & S1 & F1 & V1 & P1 & O1 & T1). rewrite E1. cbn [bind].
    rewrite wr_ok by (rewrite F1; lia). cbn [bind]. rewrite wr_ok by (rewrite V1; lia). cbn [bind].
    match goal with |- context [run _ ?c2 (repeat _ n)] => destruct (IH c2 (i + 1)) as (c' & es & E & A1 & A2 & A3 & A4 & A5 & A6) end.
    + lia. + lia. + cbn [flags]. rewrite zlen_zupd, F1. exact Hf. + cbn [f_view]. rewrite zlen_zupd, V1. exact Hv.
    + unfold seen_all, set_thread. cbn [hist threads]. rewrite Z.eqb_refl. cbn [t_view]. exact S1.
    + unfold set_thread. cbn [threads]. rewrite Z.eqb_refl. reflexivity.
    + rewrite E. cbn [bind]. exists c', (ENone :: es). splits; try reflexivity; try assumption.
      * intros w Hw. rewrite A4 by exact Hw. unfold set_thread. cbn [threads]. replace (w =? u) with false by lia. apply T1. exact Hw.
      * intros j Hj. destruct (Z.eq_dec j i) as [->|]; [|apply A5; lia]. rewrite A6 by lia. cbn [flags]. apply znth_zupd_eq. rewrite F1. lia.
      * intros j Hj. rewrite A6 by lia. cbn [flags]. rewrite znth_zupd_ne by lia. rewrite F1. reflexivity.
Qed.
Lemma clear_breaks N t u : 0 < N -> t <> u ->
  exists c es, run (pstep true true N) (p0 N) ([(t, ACreate); (t, AStep); (u, AClear)] ++ repeat (u, AStep) (Z.to_nat N) ++ [(u, AStep); (u, ACreate); (u, AStep)]) = Ok (c, es) /\
    holds c t 0 /\ holds c u 0.
Proof.
  intros HN Htu. assert (Hut : u =? t = false) by lia. assert (Htu' : t =? u = false) by lia.
  assert (L1 : zlen (zrepeat false N) = N) by (unfold zlen, zrepeat; rewrite repeat_length; lia).
  assert (L2 : zlen (zrepeat (@nil Z) N) = N) by (unfold zlen, zrepeat; rewrite repeat_length; lia).
  assert (R1 : znth (zrepeat false N) 0 = Some false) by (unfold zrepeat; destruct (Z.to_nat N) eqn:E; [lia|reflexivity]).
  assert (R2 : znth (zrepeat (@nil Z) N) 0 = Some []) by (unfold zrepeat; destruct (Z.to_nat N) eqn:E; [lia|reflexivity]).
  assert (E1 : exists c1 e1, run (pstep true true N) (p0 N) [(t, ACreate); (t, AStep); (u, AClear)] = Ok (c1, e1) /\ zlen (flags c1) = N /\ zlen (f_view c1) = N /\ hist c1 = [] /\
            owned (threads c1 t) = [0] /\ t_pc (threads c1 u) = Clearing 0).
  { cbn [run pstep]. cbn [p0 threads t_pc bind]. cbn [pstep threads]. unfold set_thread at 1. rewrite Z.eqb_refl. cbn [t_pc].
    replace (0 <? N) with true by lia. unfold cas. cbn [threads flags f_view p0]. rewrite (rd_ok _ _ _ R1), (rd_ok _ _ _ R2). cbn [bind Bool.eqb]. rewrite wr_ok by lia. cbn [bind]. rewrite wr_ok by lia. cbn [bind].
    unfold set_thread. cbn [threads]. rewrite ?Z.eqb_refl, ?Hut. cbn [t_pc owned t_view bind]. do 2 eexists. split; [reflexivity|]. cbn [flags f_view hist threads].
    rewrite ?Z.eqb_refl, ?Htu', ?Hut. cbn [owned t_pc]. rewrite !zlen_zupd. splits; auto. }
  destruct E1 as (c1 & e1 & E1 & A1 & A2 & A3 & A4 & A5). rewrite run_app, E1. cbn [bind].
  destruct (clear_steps N u (Z.to_nat N) c1 0) as (c2 & e2 & E2 & B1 & B2 & B3 & B4 & B5 & _); try lia; try assumption.
  { intros j Hj. rewrite A3 in Hj. cbn in Hj. lia. }
  rewrite run_app, E2. cbn [bind]. destruct (znth_some (f_view c2) 0) as [fv Hfv]; [lia|].
  cbn [run pstep]. rewrite B3. rewrite Z.ltb_irrefl. cbn [bind]. unfold set_thread. cbn [pstep threads t_pc]. rewrite Z.eqb_refl. cbn [t_pc bind].
  cbn [pstep threads t_pc]. rewrite Z.eqb_refl. cbn [t_pc]. replace (0 <? N) with true by lia. unfold cas. cbn [threads flags f_view].
  rewrite (rd_ok _ _ _ (B5 0 ltac:(lia))), (rd_ok _ _ _ Hfv). cbn [bind Bool.eqb]. rewrite wr_ok by lia. cbn [bind]. rewrite wr_ok by lia. cbn [bind].
  do 2 eexists. split; [reflexivity|]. unfold holds. cbn [threads]. unfold set_thread. cbn [threads]. rewrite ?Z.eqb_refl, ?Htu'. cbn [owned]. split; left.
  - rewrite B4 by exact Htu. rewrite A4. left. reflexivity.
  - left. reflexivity.
Qed.
(* ... and if the first thread has used the object, clearing it is a data race *)
Lemma clear_races N t u : 0 < N -> t <> u ->
  run (pstep true true N) (p0 N) [(t, ACreate); (t, AStep); (t, AAccess 0); (u, AClear); (u, AStep)] = UB DataRace.
Proof.
  intros HN Htu. assert (Hut : u =? t = false) by lia. assert (Htu' : t =? u = false) by lia.
  assert (L1 : zlen (zrepeat false N) = N) by (unfold zlen, zrepeat; rewrite repeat_length; lia).
  assert (L2 : zlen (zrepeat (@nil Z) N) = N) by (unfold zlen, zrepeat; rewrite repeat_length; lia).
  assert (R1 : znth (zrepeat false N) 0 = Some false) by (unfold zrepeat; destruct (Z.to_nat N) eqn:E; [lia|reflexivity]).
  assert (R2 : znth (zrepeat (@nil Z) N) 0 = Some []) by (unfold zrepeat; destruct (Z.to_nat N) eqn:E; [lia|reflexivity]).
  cbn [run pstep]. cbn [p0 threads t_pc bind]. cbn [pstep threads]. unfold set_thread at 1. rewrite Z.eqb_refl. cbn [t_pc].
  replace (0 <? N) with true by lia. unfold cas. cbn [threads flags f_view p0]. rewrite (rd_ok _ _ _ R1), (rd_ok _ _ _ R2). cbn [bind Bool.eqb]. rewrite wr_ok by lia. cbn [bind]. rewrite wr_ok by lia. cbn [bind].
  unfold set_thread. cbn [threads]. rewrite ?Z.eqb_refl, ?Hut. cbn [t_pc owned t_view bind existsb Z.eqb orb]. unfold access at 1. cbn [hist p0 length seq map combine existsb bind threads flags f_view].
  unfold set_thread. cbn [pstep threads]. rewrite ?Z.eqb_refl, ?Hut. cbn [t_pc owned t_view bind p0 threads pstep]. rewrite ?Z.eqb_refl, ?Hut. cbn [t_pc owned t_view bind p0 threads pstep].
  replace (0 <? N) with true by lia. unfold access. cbn [hist app length seq map combine existsb threads t_view]. rewrite ?Z.eqb_refl. reflexivity.
Qed.
