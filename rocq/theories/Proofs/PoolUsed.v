(* Proofs for C142. *)
From Verif.Common Require Import Base Lemmas Lists.
From Verif.Model Require Import PoolConc PoolUsed.
From Verif.Proofs Require Import PoolConc.

Lemma upd_eq {A} (f : Z -> A) k x : upd f k x k = x.
Proof. unfold upd. rewrite Z.eqb_refl. reflexivity. Qed.
Lemma upd_ne {A} (f : Z -> A) k x u : u <> k -> upd f k x u = f u.
Proof. unfold upd. intros. replace (u =? k) with false by lia. reflexivity. Qed.

Section V.
Variable N : Z.
Hypothesis HN : 0 <= N.

Definition newest (s : vcfg) (i : Z) : Z := zlen (msgs s i) - 1.

(** [es]: the events so far *)
Record VInv (s : vcfg) (es : list vevent) : Prop := {
  v_inv : Inv N (base s);
  v_len : forall i, 0 < zlen (msgs s i);
  v_last : forall i, 0 <= i < N -> exists m, znth (msgs s i) (newest s i) = Some m /\
      znth (flags (base s)) i = Some (m_val m) /\ znth (f_view (base s)) i = Some (m_view m);
  v_seen : forall t i, 0 <= seen s t i <= newest s i;
  v_mseen : forall i j m f, znth (msgs s i) j = Some m -> 0 <= m_seen m f <= newest s f;
  v_held : forall t i, holds (base s) t i -> seen s t i = newest s i;
  v_true : forall i j m, znth (msgs s i) j = Some m -> m_val m = true -> In (VBase (EReturn (Some i))) es;
  v_free : forall t i id, 0 <= i < N -> znth (flags (base s)) i = Some false -> seen s t i = newest s i ->
      znth (hist (base s)) id = Some i -> In id (t_view (threads (base s) t));
  v_mfree : forall f j m i id, znth (msgs s f) j = Some m -> 0 <= i < N -> znth (flags (base s)) i = Some false ->
      m_seen m i = newest s i -> znth (hist (base s)) id = Some i -> In id (m_view m) }.

Lemma access_ok c t i c' : access c t i = Ok c' ->
  c' = Cfg (flags c) (f_view c) (hist c ++ [i]) (set_thread c t (Thread (t_pc (threads c t)) (owned (threads c t)) (zlen (hist c) :: t_view (threads c t)))).
Proof. unfold access. destruct (existsb _ _); [discriminate|]. intros [= <-]. reflexivity. Qed.

(** What a step that is not an exchange does. *)
Definition quiet (c : cfg) (t : Z) (c' : cfg) (e : event) : Prop :=
  flags c' = flags c /\ f_view c' = f_view c /\ (forall u i, holds c' u i -> holds c u i) /\
  (hist c' = hist c \/ exists i, holds c t i /\ hist c' = hist c ++ [i]) /\
  (forall u, incl (t_view (threads c u)) (t_view (threads c' u))).
(** What an exchange on flag [i] does. *)
Definition exch (c : cfg) (t i : Z) (c' : cfg) (e : event) : Prop :=
  0 <= i < N /\ hist c' = hist c /\
  exists f fv, znth (flags c) i = Some f /\ znth (f_view c) i = Some fv /\
    (forall u, t_view (threads c' u) = if u =? t then t_view (threads c t) ++ fv else t_view (threads c u)) /\
    ((f = true /\ flags c' = flags c /\ f_view c' = f_view c /\ (forall u k, holds c' u k -> holds c u k)) \/
     (flags c' = zupd (flags c) i (negb f) /\ f_view c' = zupd (f_view c) i (t_view (threads c t) ++ fv) /\
      (f = false -> e = EReturn (Some i)) /\ (f = true -> holds c t i) /\
      (forall u k, holds c' u k -> (f = false /\ u = t /\ k = i) \/ (k <> i /\ holds c u k)))).

Lemma pstep_cases c l c' e : Inv N c -> no_clear l -> pstep true true N c l = Ok (c', e) ->
  match flag_of N c l with Some i => exch c (fst l) i c' e | None => quiet c (fst l) c' e end.
Proof.
  intros HI Hn Hs. destruct l as [t a]. unfold no_clear in Hn. cbn [snd] in Hn. cbn [pstep] in Hs. cbn [fst]. pose proof HI as [].
  assert (Hnop : c' = c -> quiet c t c' e).
  { intros ->. unfold quiet. splits; auto. intros u. apply incl_refl. }
  assert (Hthr : forall th', c' = Cfg (flags c) (f_view c) (hist c) (set_thread c t th') ->
     (forall i, In i (owned th') \/ t_pc th' = Destroying i -> holds c t i) -> t_view th' = t_view (threads c t) -> quiet c t c' e).
  { intros th' -> Hh Hv. unfold quiet. splits; auto.
    - intros u i. unfold holds, set_thread; cbn [threads]. destruct (Z.eqb_spec u t); [subst u; intros H; exact (Hh _ H)|tauto].
    - intros u. unfold set_thread; cbn [threads]. destruct (Z.eqb_spec u t); [subst u; rewrite Hv|]; apply incl_refl. }
  destruct a as [|i| |i|]; [| | | |contradiction]; cbn [flag_of]; destruct (t_pc (threads c t)) as [|j|j|j] eqn:Epc;
    try (apply Hnop; congruence); try (exfalso; eapply i_nclr; eauto; fail).
  - injection Hs as <- <-. eapply Hthr; [reflexivity| |reflexivity]. cbn [owned t_pc]. intros i [H|H]; [left; assumption|discriminate].
  - destruct (existsb (Z.eqb i) (owned (threads c t))) eqn:Eo; [|apply Hnop; congruence]. apply existsb_In in Eo. injection Hs as <- <-.
    eapply Hthr; [reflexivity| |reflexivity]. cbn [owned t_pc]. intros j [H|[= <-]]; left; [apply filter_In in H; tauto|assumption].
  - (* create step *)
    pose proof (i_pc t j Epc) as Hj0. destruct (Z.ltb_spec j N) as [Hj|Hj].
    + destruct (cas_ok N true true c t j false HI) as (f & fv & Hf & Hv & E); [lia|]. rewrite E in Hs. cbn zeta in Hs.
      unfold exch. split; [lia|]. destruct f; cbn [Bool.eqb bind] in Hs; injection Hs as <- <-; split; try reflexivity; do 2 eexists; (split; [exact Hf|]; split; [exact Hv|]; split).
      * intros u. cbn [threads]. unfold set_thread. destruct (u =? t); reflexivity.
      * left. splits; auto. intros u k. unfold holds, set_thread; cbn [threads]. destruct (Z.eqb_spec u t); cbn [owned t_pc]; [subst u; rewrite Epc|]; intuition discriminate.
      * intros u. cbn [threads]. unfold set_thread. destruct (u =? t); reflexivity.
      * right. cbn [flags f_view]. splits; auto; try discriminate.
        intros u k. unfold holds, set_thread; cbn [threads].
        assert (Hno : forall v, ~ holds c v j) by (intros v Hh; destruct (i_held _ _ Hh); congruence).
        destruct (Z.eqb_spec u t); cbn [owned t_pc In].
        -- subst u. intros [[->|H]|H]; [auto| |discriminate]. right. split; [|auto]. intros ->. apply (Hno t). left; assumption.
        -- intros H. right. split; [|assumption]. intros ->. apply (Hno u). exact H.
    + injection Hs as <- <-. eapply Hthr; [reflexivity| |reflexivity]. cbn [owned t_pc]. intros i [H|H]; [left; assumption|discriminate].
  - (* destroy step *)
    assert (Hh : holds c t j) by (right; assumption). destruct (i_held _ _ Hh) as [Hj Hf].
    replace (j <? N) with true in * by lia.
    destruct (cas_ok N true true c t j true HI Hj) as (f & fv & Hf' & Hv & E). rewrite E in Hs. cbn zeta in Hs. rewrite Hf in Hf'. injection Hf' as <-.
    cbn [Bool.eqb bind] in Hs. injection Hs as <- <-. unfold exch. splits; try lia; auto. do 2 eexists; (split; [exact Hf|]; split; [exact Hv|]; split).
    * intros u. cbn [threads]. unfold set_thread. destruct (u =? t); reflexivity.
    * right. cbn [flags f_view]. splits; auto; try discriminate.
      intros u k. unfold holds, set_thread; cbn [threads]. destruct (Z.eqb_spec u t); cbn [owned t_pc In].
      -- subst u. intros [H|H]; [|discriminate]. right. split; [|left; exact H]. intros ->. eapply i_dest; eauto.
      -- intros H. right. split; [|assumption]. intros ->. apply n. eapply i_excl; [exact H|exact Hh].
  - (* access *)
    destruct (existsb (Z.eqb i) (owned (threads c t))) eqn:Eo; [|apply Hnop; congruence]. apply existsb_In in Eo.
    destruct (access c t i) as [c1| |] eqn:Ea; cbn [bind] in Hs; try discriminate. injection Hs as <- <-. rewrite (access_ok _ _ _ _ Ea).
    unfold quiet. splits; auto; cbn [flags f_view hist threads].
    + intros u k. unfold holds, set_thread; cbn [threads]. destruct (Z.eqb_spec u t); cbn [owned t_pc]; [subst u|]; tauto.
    + right. exists i. split; [left; exact Eo|reflexivity].
    + intros u. unfold set_thread. destruct (Z.eqb_spec u t); [subst u; cbn [t_view]; apply incl_tl|]; apply incl_refl.
Qed.

Lemma vinv_init : VInv (v0 N) [].
Proof.
  constructor; cbn [base msgs seen v0]; unfold newest; cbn [msgs v0].
  - apply inv_init. exact HN.
  - intros i. reflexivity.
  - intros i Hi. exists (Msg false [] (fun _ => 0)). cbn. rewrite !znth_zrepeat by lia. auto.
  - intros t i. cbn. lia.
  - intros i j m f Hj. pose proof (znth_some_range _ _ _ Hj) as R. cbn in R. assert (j = 0) by lia; subst j. injection Hj as <-. cbn. lia.
  - intros t i [[]|H]; discriminate.
  - intros i j m Hj Hm. pose proof (znth_some_range _ _ _ Hj) as R. cbn in R. assert (j = 0) by lia; subst j. injection Hj as <-. discriminate.
  - intros t i id _ _ _ H. cbn in H. rewrite znth_nil in H. discriminate.
  - intros f j m i id _ _ _ _ H. cbn in H. rewrite znth_nil in H. discriminate.
Qed.

Lemma quiet_inv s es c' e t l : VInv s es -> no_clear l -> pstep true true N (base s) l = Ok (c', e) -> quiet (base s) t c' e ->
  VInv (VCfg c' (msgs s) (seen s)) (es ++ [VBase e]).
Proof.
  intros V Hn Hs (Q1 & Q2 & Q3 & Q4 & Q5). destruct (inv_step N (base s) l (v_inv _ _ V) Hn) as (c1 & e1 & E1 & HI & _). rewrite Hs in E1. injection E1 as <- <-.
  destruct V. constructor; unfold newest in *; cbn [base msgs seen] in *; rewrite ?Q1, ?Q2; auto.
  - intros i j m Hj Hm. apply in_or_app. left. eauto.
  - intros u i id Hi Hf Hk Hid. apply Q5. destruct Q4 as [E|(k & Hk2 & E)]; rewrite E in Hid; [eauto|].
    destruct (Z.eq_dec k i) as [->|]; [destruct (i_held N _ v_inv0 _ _ Hk2); congruence|]. rewrite znth_app, znth_cons, znth_nil in Hid.
    destruct (id <? zlen (hist (base s))); [eauto|]. destruct (_ =? 0); [congruence|]. destruct (_ <? 0); discriminate.
  - intros f j m i id Hj Hi Hf Hk Hid. destruct Q4 as [E|(k & Hk2 & E)]; rewrite E in Hid; [eauto|].
    destruct (Z.eq_dec k i) as [->|]; [destruct (i_held N _ v_inv0 _ _ Hk2); congruence|]. rewrite znth_app, znth_cons, znth_nil in Hid.
    destruct (id <? zlen (hist (base s))); [eauto|]. destruct (_ =? 0); [congruence|]. destruct (_ <? 0); discriminate.
Qed.

Lemma exch_inv s es c' e t i l : VInv s es -> no_clear l -> pstep true true N (base s) l = Ok (c', e) -> exch (base s) t i c' e ->
  VInv (exchanged s c' t i) (es ++ [VBase e]).
Proof.
  intros V Hn Hs (Hi & Q1 & f & fv & Q2 & Q3 & Q4 & Q5). destruct (inv_step N (base s) l (v_inv _ _ V) Hn) as (c1 & e1 & E1 & HI & _). rewrite Hs in E1. injection E1 as <- <-.
  pose proof V as []. destruct (v_last0 i Hi) as (m & Hm & Hf & Hv). rewrite Q2 in Hf. injection Hf as ->. rewrite Q3 in Hv. injection Hv as ->.
  unfold exchanged. unfold newest in *. rewrite Hm.
  assert (Hinc : forall u, incl (t_view (threads (base s) u)) (t_view (threads c' u))).
  { intros u x Hx. rewrite Q4. destruct (Z.eqb_spec u t); [subst u; apply in_or_app; left|]; assumption. }
  assert (Hkn : forall k id, 0 <= k < N -> znth (flags (base s)) k = Some false -> Z.max (seen s t k) (m_seen m k) = zlen (msgs s k) - 1 ->
            znth (hist (base s)) id = Some k -> In id (t_view (threads (base s) t) ++ m_view m)).
  { intros k id Hk Hfk Hmx Hid. apply in_or_app. pose proof (v_seen0 t k). pose proof (v_mseen0 _ _ _ k Hm).
    destruct (Z.max_spec (seen s t k) (m_seen m k)) as [[_ E]|[_ E]]; rewrite E in Hmx; [right; eauto|left; eauto]. }
  destruct Q5 as [(Ef & F1 & F2 & F3)|(F1 & F2 & F3 & F4 & F5)].
  - (* the exchange failed *)
    rewrite F1, F2, Q2, Q3, Bool.eqb_reflx.
    constructor; unfold newest; cbn [base msgs seen]; rewrite ?F1, ?F2, ?Q1; auto.
    + intros u k. unfold upd. destruct (u =? t); [|apply v_seen0]. destruct (Z.eqb_spec k i); [subst k; specialize (v_len0 i); lia|].
      pose proof (v_seen0 t k). pose proof (v_mseen0 _ _ _ k Hm). lia.
    + intros u k Hk. apply F3 in Hk. pose proof (v_held0 _ _ Hk). unfold upd. destruct (Z.eqb_spec u t); [subst u|assumption].
      destruct (Z.eqb_spec k i); [subst k; reflexivity|]. pose proof (v_mseen0 _ _ _ k Hm). lia.
    + intros k j m' Hj Hm'. apply in_or_app. left. eauto.
    + intros u k id Hk Hfk Hsn Hid. unfold upd in Hsn. rewrite Q4. destruct (Z.eqb_spec u t); [subst u|eauto].
      destruct (Z.eqb_spec k i); [subst k; congruence|]. eapply Hkn; eauto.
  - (* it succeeded *)
    pose proof (i_len N _ v_inv0) as L1. pose proof (i_vlen N _ v_inv0) as L2.
    assert (Z1 : znth (flags c') i = Some (negb (m_val m))) by (rewrite F1, znth_zupd_eq; [reflexivity|lia]).
    assert (Z2 : znth (f_view c') i = Some (t_view (threads (base s) t) ++ m_view m)) by (rewrite F2, znth_zupd_eq; [reflexivity|lia]).
    assert (Z3 : forall k, k <> i -> znth (flags c') k = znth (flags (base s)) k) by (intros k Hk; rewrite F1, znth_zupd_ne; [reflexivity|lia]).
    assert (Z4 : forall k, k <> i -> znth (f_view c') k = znth (f_view (base s)) k) by (intros k Hk; rewrite F2, znth_zupd_ne; [reflexivity|lia]).
    rewrite Z1, Z2. replace (Bool.eqb (m_val m) (negb (m_val m))) with false by (destruct (m_val m); reflexivity).
    set (nm := Msg (negb (m_val m)) (t_view (threads (base s) t) ++ m_view m) (upd (fun f => Z.max (seen s t f) (m_seen m f)) i (zlen (msgs s i)))).
    assert (Hat : forall k j m', znth (upd (msgs s) i (msgs s i ++ [nm]) k) j = Some m' -> (k = i /\ j = zlen (msgs s i) /\ m' = nm) \/ znth (msgs s k) j = Some m').
    { intros k j m' Hj. unfold upd in Hj. destruct (Z.eqb_spec k i); [subst k|right; exact Hj]. rewrite znth_app in Hj. destruct (Z.ltb_spec j (zlen (msgs s i))); [right; exact Hj|].
      left. rewrite znth_cons, znth_nil in Hj. destruct (Z.eqb_spec (j - zlen (msgs s i)) 0); [injection Hj as <-; splits; auto; lia|destruct (_ <? 0); discriminate]. }
    assert (Hlen : forall k, zlen (upd (msgs s) i (msgs s i ++ [nm]) k) = zlen (msgs s k) + (if k =? i then 1 else 0)).
    { intros k. unfold upd. destruct (Z.eqb_spec k i); [subst k; rewrite zlen_app; reflexivity|lia]. }
    assert (Hkb : forall k, 0 <= m_seen nm k <= zlen (msgs s k) + (if k =? i then 1 else 0) - 1).
    { intros k. cbn [nm m_seen]. unfold upd. destruct (Z.eqb_spec k i); [subst k; specialize (v_len0 i); lia|]. pose proof (v_seen0 t k). pose proof (v_mseen0 _ _ _ k Hm). lia. }
    assert (Hfree : forall k id, 0 <= k < N -> znth (flags c') k = Some false -> m_seen nm k = zlen (msgs s k) + (if k =? i then 1 else 0) - 1 ->
              znth (hist (base s)) id = Some k -> In id (t_view (threads (base s) t) ++ m_view m)).
    { intros k id Hk Hfk Hsn Hid. cbn [nm m_seen] in Hsn. unfold upd in Hsn. destruct (Z.eqb_spec k i).
      - subst k. rewrite Z1 in Hfk. injection Hfk as Hfk. destruct (m_val m); [|discriminate]. apply in_or_app. left. eapply (i_tview N _ v_inv0); [apply F4; reflexivity|exact Hid].
      - rewrite Z3 in Hfk by assumption. eapply Hkn; eauto. lia. }
    change (upd (fun f => Z.max (seen s t f) (m_seen m f)) i (zlen (msgs s i))) with (m_seen nm).
    constructor; unfold newest; cbn [base msgs seen]; rewrite ?Q1; auto.
    + intros k. rewrite Hlen. specialize (v_len0 k). destruct (k =? i); lia.
    + intros k Hk. rewrite Hlen. destruct (Z.eqb_spec k i).
      * subst k. exists nm. rewrite upd_eq, znth_app_r by lia. replace (zlen (msgs s i) + 1 - 1 - zlen (msgs s i)) with 0 by lia. auto.
      * rewrite upd_ne by assumption. rewrite Z3, Z4 by assumption. replace (zlen (msgs s k) + 0 - 1) with (zlen (msgs s k) - 1) by lia. auto.
    + intros u k. rewrite Hlen. unfold upd. destruct (u =? t); [exact (Hkb k)|]. specialize (v_seen0 u k). destruct (k =? i); lia.
    + intros k j m' g Hj. rewrite Hlen. destruct (Hat _ _ _ Hj) as [(-> & -> & ->)|H]; [apply Hkb|]. pose proof (v_mseen0 _ _ _ g H). destruct (g =? i); lia.
    + intros u k Hk. rewrite Hlen. destruct (F5 _ _ Hk) as [(_ & -> & ->)|[Hne Hk']].
      * rewrite upd_eq, Z.eqb_refl. cbn [nm m_seen]. rewrite upd_eq. lia.
      * pose proof (v_held0 _ _ Hk'). replace (k =? i) with false by lia. unfold upd at 1. destruct (Z.eqb_spec u t); [subst u|lia].
        cbn [nm m_seen]. rewrite upd_ne by assumption. pose proof (v_mseen0 _ _ _ k Hm). lia.
    + intros k j m' Hj Hm'. apply in_or_app. destruct (Hat _ _ _ Hj) as [(-> & -> & ->)|H]; [|left; eauto].
      right. left. cbn [nm m_val] in Hm'. rewrite F3; [reflexivity|]. destruct (m_val m); [discriminate|reflexivity].
    + intros u k id Hk Hfk Hsn Hid. rewrite Hlen in Hsn. rewrite Q4. unfold upd in Hsn. destruct (Z.eqb_spec u t); [subst u; eapply Hfree; eauto|].
      destruct (Z.eqb_spec k i); [subst k; specialize (v_seen0 u i); lia|]. rewrite Z3 in Hfk by assumption. eapply v_free0; eauto. lia.
    + intros g j m' k id Hj Hk Hfk Hsn Hid. rewrite Hlen in Hsn. destruct (Hat _ _ _ Hj) as [(-> & -> & ->)|H]; [eapply Hfree; eauto|].
      destruct (Z.eqb_spec k i); [subst k; pose proof (v_mseen0 _ _ _ i H); lia|]. rewrite Z3 in Hfk by assumption. eapply v_mfree0; eauto. lia.
Qed.

Lemma used_inv s es t i j m : VInv s es -> 0 <= i < N -> seen s t i <= j -> znth (msgs s i) j = Some m ->
  VInv (VCfg (Cfg (flags (base s)) (f_view (base s)) (hist (base s))
           (set_thread (base s) t (Thread (t_pc (threads (base s) t)) (owned (threads (base s) t)) (t_view (threads (base s) t) ++ m_view m))))
         (msgs s) (upd (seen s) t (upd (fun f => Z.max (seen s t f) (m_seen m f)) i j))) (es ++ [VUsed (m_val m)]).
Proof.
  intros V Hi Hj Hm. pose proof V as []. unfold newest in *. pose proof (znth_some_range _ _ _ Hm) as R.
  assert (Hh : forall u k, holds (Cfg (flags (base s)) (f_view (base s)) (hist (base s))
           (set_thread (base s) t (Thread (t_pc (threads (base s) t)) (owned (threads (base s) t)) (t_view (threads (base s) t) ++ m_view m)))) u k -> holds (base s) u k).
  { intros u k. unfold holds, set_thread; cbn [threads]. destruct (Z.eqb_spec u t); [subst u|]; cbn [owned t_pc]; tauto. }
  constructor; unfold newest; cbn [base msgs seen flags f_view hist]; auto.
  - apply inv_thread; cbn [owned t_pc t_view]; auto.
    + apply (i_nodup N _ v_inv0).
    + apply (i_dest N _ v_inv0).
    + apply (i_pc N _ v_inv0).
    + apply (i_nclr N _ v_inv0).
    + apply incl_appl, incl_refl.
  - intros u k. unfold upd. destruct (u =? t); [|apply v_seen0]. destruct (Z.eqb_spec k i); [subst k; lia|]. pose proof (v_seen0 t k). pose proof (v_mseen0 _ _ _ k Hm). lia.
  - intros u k Hk. apply Hh in Hk. pose proof (v_held0 _ _ Hk). unfold upd. destruct (Z.eqb_spec u t); [subst u|assumption].
    destruct (Z.eqb_spec k i); [subst k; lia|]. pose proof (v_mseen0 _ _ _ k Hm). lia.
  - intros k j' m' Hj' Hm'. apply in_or_app. left. eauto.
  - intros u k id Hk Hfk Hsn Hid. cbn [threads]. unfold set_thread. unfold upd in Hsn. destruct (Z.eqb_spec u t); [subst u|eauto]. cbn [t_view]. apply in_or_app.
    destruct (Z.eqb_spec k i).
    + subst k. right. destruct (v_last0 i Hi) as (m' & Hm' & Hf' & Hv'). assert (m' = m) by congruence. subst m'. eapply (i_fview N _ v_inv0); eauto.
    + pose proof (v_seen0 t k). pose proof (v_mseen0 _ _ _ k Hm). destruct (Z.max_spec (seen s t k) (m_seen m k)) as [[_ E]|[_ E]]; rewrite E in Hsn; [right; eauto|left; eauto].
Qed.

Lemma vstep_inv s es a : VInv s es -> disciplined a -> exists s' e, vstep N s a = Ok (s', e) /\ VInv s' (es ++ [e]).
Proof.
  intros V Hd. assert (Same : forall e, (forall x, e <> VBase x) -> VInv s (es ++ [e])).
  { intros e He. destruct V. constructor; auto. intros i j m Hj Hm. apply in_or_app. left. eauto. }
  destruct a as [l|t i j|t i]; cbn [vstep disciplined] in *; [| |contradiction].
  - destruct (inv_step N (base s) l (v_inv _ _ V) Hd) as (c' & e & E & _). rewrite E. cbn [bind]. do 2 eexists; split; [reflexivity|].
    pose proof (pstep_cases _ _ _ _ (v_inv _ _ V) Hd E) as H. destruct (flag_of N (base s) l); [eapply exch_inv; eauto|eapply quiet_inv; eauto].
  - destruct (t_pc (threads (base s) t)) eqn:Ep; try (do 2 eexists; split; [reflexivity|apply Same; discriminate]).
    destruct (Z.leb_spec N i); [do 2 eexists; split; [reflexivity|apply Same; discriminate]|].
    destruct (Z.ltb_spec j (seen s t i)); [do 2 eexists; split; [reflexivity|apply Same; discriminate]|].
    destruct (znth (msgs s i) j) as [m|] eqn:Em; [|do 2 eexists; split; [reflexivity|apply Same; discriminate]].
    do 2 eexists; split; [reflexivity|]. rewrite <- Ep. apply used_inv; auto.
Qed.

Lemma vrun_inv l : forall s es, VInv s es -> Forall disciplined l -> exists s' es', run (vstep N) s l = Ok (s', es') /\ VInv s' (es ++ es').
Proof.
  induction l as [|a l IH]; intros s es V HF; cbn [run].
  - exists s, []. rewrite app_nil_r. auto.
  - inversion HF as [|? ? Ha HF']; subst. destruct (vstep_inv s es a V Ha) as (s1 & e & E & V1). rewrite E. cbn [bind].
    destruct (IH _ _ V1 HF') as (s2 & es2 & E2 & V2). rewrite E2. cbn [bind]. exists s2, (e :: es2). split; [reflexivity|]. rewrite <- app_assoc in V2. exact V2.
Qed.

Lemma vrun_ok l s es : Forall disciplined l -> run (vstep N) (v0 N) l = Ok (s, es) -> VInv s es.
Proof. intros HF E. destruct (vrun_inv l _ _ vinv_init HF) as (s' & es' & E' & V). rewrite E in E'. injection E' as <- <-. exact V. Qed.
Lemma vrun_total l : Forall disciplined l -> exists s es, run (vstep N) (v0 N) l = Ok (s, es).
Proof. intros HF. destruct (vrun_inv l _ _ vinv_init HF) as (s' & es' & E' & V). eauto. Qed.

(** the owner sees its slot used *)
Lemma owner_sees_used l s es t i j s' b : Forall disciplined l -> run (vstep N) (v0 N) l = Ok (s, es) ->
  holds (base s) t i -> vstep N s (IsUsed t i j) = Ok (s', VUsed b) -> b = true.
Proof.
  intros HF E Hh Es. destruct (vrun_ok _ _ _ HF E). pose proof (i_held N _ v_inv0 _ _ Hh) as [Hi Hf]. pose proof (v_held0 _ _ Hh) as Hs. destruct (v_last0 i Hi) as (m & Hm & Hfm & _). unfold newest in *.
  cbn [vstep] in Es. destruct (t_pc (threads (base s) t)); try discriminate. replace (N <=? i) with false in Es by lia.
  destruct (Z.ltb_spec j (seen s t i)); [discriminate|]. destruct (znth (msgs s i) j) as [m'|] eqn:Em; [|discriminate].
  pose proof (znth_some_range _ _ _ Em). assert (j = zlen (msgs s i) - 1) by lia. subst j. injection Es as <- <-. congruence.
Qed.
Lemma used_was_created l s es t i j s' : Forall disciplined l -> run (vstep N) (v0 N) l = Ok (s, es) ->
  vstep N s (IsUsed t i j) = Ok (s', VUsed true) -> In (VBase (EReturn (Some i))) es.
Proof.
  intros HF E Es. destruct (vrun_ok _ _ _ HF E). cbn [vstep] in Es. destruct (t_pc (threads (base s) t)); try discriminate.
  destruct (N <=? i); [discriminate|]. destruct (Z.ltb_spec j (seen s t i)); [discriminate|]. destruct (znth (msgs s i) j) as [m'|] eqn:Em; [|discriminate]. injection Es as <- Hm. eauto.
Qed.
(** reading the newest value is exact and, if it is free, orders all earlier accesses before *)
Lemma newest_is_exact l s es t i s' b : Forall disciplined l -> run (vstep N) (v0 N) l = Ok (s, es) -> 0 <= i < N ->
  vstep N s (IsUsed t i (zlen (msgs s i) - 1)) = Ok (s', VUsed b) ->
  znth (flags (base s)) i = Some b /\ (b = false -> exists s2 e, vstep N s' (Peek t i) = Ok (s2, e)).
Proof.
  intros HF E Hi Es. pose proof (vrun_ok _ _ _ HF E) as V. pose proof V as []. destruct (v_last0 i Hi) as (m & Hm & Hfm & _). unfold newest in *.
  cbn [vstep] in Es. destruct (t_pc (threads (base s) t)) eqn:Ep; try discriminate. replace (N <=? i) with false in Es by lia.
  destruct (Z.ltb_spec (zlen (msgs s i) - 1) (seen s t i)) as [|Hle]; [discriminate|]. rewrite Hm in Es.
  pose proof (used_inv s es t i _ m V Hi Hle Hm) as V1. rewrite Ep in V1. injection Es as <- <-. split; [assumption|]. intros Eb. rewrite Eb in *.
  cbn [vstep base threads]. unfold set_thread at 1. rewrite Z.eqb_refl. cbn [t_pc]. unfold access.
  destruct (existsb _ _) eqn:Er; [|cbn [bind]; eauto]. exfalso.
  apply existsb_exists in Er. destruct Er as ([id k] & HIn & Hb). cbn [fst snd] in Hb. apply andb_prop in Hb. destruct Hb as [Hk Hno].
  apply Z.eqb_eq in Hk. subst k. apply (combine_ids _ 0) in HIn. destruct HIn as [H0 Hz]. replace (id - Z.of_nat 0) with id in Hz by lia.
  assert (HIn : existsb (Z.eqb id) (t_view (threads (base (VCfg (Cfg (flags (base s)) (f_view (base s)) (hist (base s)) (set_thread (base s) t (Thread Idle (owned (threads (base s) t)) (t_view (threads (base s) t) ++ m_view m)))) (msgs s) (upd (seen s) t (upd (fun f => Z.max (seen s t f) (m_seen m f)) i (zlen (msgs s i) - 1))))) t)) = true).
  { apply existsb_In. eapply (v_free _ _ V1); eauto. cbn [seen]. rewrite !upd_eq. reflexivity. }
  cbn [base threads t_view] in HIn, Hno. unfold set_thread in HIn, Hno. rewrite Z.eqb_refl in HIn, Hno. cbn [t_view] in HIn, Hno. rewrite HIn in Hno. discriminate.
Qed.

(** a used flag has a holder *)
Definition Held (c : cfg) : Prop := forall i, znth (flags c) i = Some true -> exists u, holds c u i.
Lemma held_step c l c' e : Inv N c -> Held c -> no_clear l -> pstep true true N c l = Ok (c', e) -> Held c'.
Proof.
  intros HI HH Hn Hs. destruct l as [t a]. unfold no_clear in Hn. cbn [snd] in Hn. cbn [pstep] in Hs. pose proof HI as [].
  assert (Hthr : forall fl fv hs th', c' = Cfg fl fv hs (set_thread c t th') ->
     (forall i, znth fl i = Some true -> (In i (owned th') \/ t_pc th' = Destroying i) \/
         (znth (flags c) i = Some true /\ (holds c t i -> In i (owned th') \/ t_pc th' = Destroying i))) -> Held c').
  { intros fl fv hs th' -> Hh i Hi. destruct (Hh i Hi) as [H|[H1 H2]].
    - exists t. unfold holds, set_thread; cbn [threads]. rewrite Z.eqb_refl. exact H.
    - destruct (HH i H1) as [u Hu]. exists u. unfold holds, set_thread; cbn [threads]. destruct (Z.eqb_spec u t); [subst u; auto|exact Hu]. }
  destruct a as [|i| |i|]; [| | | |contradiction]; destruct (t_pc (threads c t)) as [|j|j|j] eqn:Epc;
    try (injection Hs as <- <-; exact HH); try (exfalso; eapply i_nclr; eauto; fail).
  - injection Hs as <- <-. eapply Hthr; [reflexivity|]. intros i Hi. right. split; [exact Hi|]. unfold holds. rewrite Epc. cbn. intros [H|H]; [auto|discriminate].
  - destruct (existsb (Z.eqb i) (owned (threads c t))) eqn:Eo; injection Hs as <- <-; [|exact HH].
    eapply Hthr; [reflexivity|]. intros k Hk. right. split; [exact Hk|]. unfold holds. rewrite Epc. cbn. intros [H|H]; [|discriminate].
    destruct (Z.eq_dec i k) as [->|]; [auto|left]. apply filter_In. split; [exact H|]. apply Bool.negb_true_iff, Z.eqb_neq. congruence.
  - pose proof (i_pc t j Epc) as Hj0. destruct (Z.ltb_spec j N) as [Hj|Hj].
    + destruct (cas_ok N true true c t j false HI) as (f & fv & Hf & Hv & E); [lia|]. rewrite E in Hs. cbn zeta in Hs.
      destruct f; cbn [Bool.eqb bind] in Hs; injection Hs as <- <-; (eapply Hthr; [reflexivity|]); intros k Hk; cbn [owned t_pc].
      * right. split; [exact Hk|]. unfold holds. rewrite Epc. intros [H|H]; [auto|discriminate].
      * destruct (Z.eq_dec j k) as [->|Hne]; [left; left; left; reflexivity|right]. rewrite znth_zupd_ne in Hk by lia. split; [exact Hk|]. unfold holds. rewrite Epc. intros [H|H]; [left; right; exact H|discriminate].
    + injection Hs as <- <-. eapply Hthr; [reflexivity|]. intros i Hi. right. split; [exact Hi|]. unfold holds. rewrite Epc. cbn. intros [H|H]; [auto|discriminate].
  - assert (Hh : holds c t j) by (right; assumption). destruct (i_held _ _ Hh) as [Hj Hf]. replace (j <? N) with true in * by lia.
    destruct (cas_ok N true true c t j true HI Hj) as (f & fv & Hf' & Hv & E). rewrite E in Hs. cbn zeta in Hs. rewrite Hf in Hf'. injection Hf' as <-.
    cbn [Bool.eqb bind] in Hs. injection Hs as <- <-. eapply Hthr; [reflexivity|]. intros k Hk. cbn [owned t_pc].
    destruct (Z.eq_dec j k) as [->|Hne]; [rewrite znth_zupd_eq in Hk by lia; discriminate|]. rewrite znth_zupd_ne in Hk by lia. right. split; [exact Hk|]. unfold holds. rewrite Epc. intros [H|H]; [auto|congruence].
  - destruct (existsb (Z.eqb i) (owned (threads c t))) eqn:Eo; [|injection Hs as <- <-; exact HH].
    destruct (access c t i) as [c1| |] eqn:Ea; cbn [bind] in Hs; try discriminate. injection Hs as <- <-. rewrite (access_ok _ _ _ _ Ea) in *.
    eapply Hthr; [reflexivity|]. intros k Hk. right. split; [exact Hk|]. cbn [owned t_pc]. unfold holds. tauto.
Qed.

Lemma exchanged_base s c' t i : base (exchanged s c' t i) = c'.
Proof. unfold exchanged. destruct (znth _ _); [|reflexivity]. destruct (znth _ _); [|reflexivity]. destruct (znth _ _); [|reflexivity]. destruct (Bool.eqb _ _); reflexivity. Qed.

Lemma vheld_step s es a s' e : VInv s es -> Held (base s) -> disciplined a -> vstep N s a = Ok (s', e) -> Held (base s').
Proof.
  intros V HH Hd Hs. destruct a as [l|t i j|t i]; cbn [vstep disciplined] in *; [| |contradiction].
  - destruct (pstep true true N (base s) l) as [[c' x]| |] eqn:E; cbn [bind] in Hs; try discriminate. injection Hs as <- <-.
    pose proof (held_step _ _ _ _ (v_inv _ _ V) HH Hd E). destruct (flag_of N (base s) l); [rewrite exchanged_base|]; assumption.
  - destruct (t_pc (threads (base s) t)) eqn:Ep; try (injection Hs as <- <-; exact HH).
    destruct (N <=? i); [injection Hs as <- <-; exact HH|]. destruct (j <? seen s t i); [injection Hs as <- <-; exact HH|].
    destruct (znth (msgs s i) j) as [m|]; injection Hs as <- <-; [|exact HH]. cbn [base]. intros k Hk. destruct (HH k Hk) as [u Hu]. exists u.
    unfold holds, set_thread in *; cbn [threads]. destruct (Z.eqb_spec u t); [subst u; cbn [owned t_pc]; rewrite Ep in Hu; exact Hu|exact Hu].
Qed.
Lemma vrun_held l : forall s es s' es', VInv s es -> Held (base s) -> Forall disciplined l -> run (vstep N) s l = Ok (s', es') -> Held (base s').
Proof.
  induction l as [|a l IH]; intros s es s' es' V HH HF E; cbn [run] in E; [injection E as <- <-; exact HH|].
  inversion HF as [|? ? Ha HF']; subst. destruct (vstep_inv s es a V Ha) as (s1 & e & E1 & V1). rewrite E1 in E. cbn [bind] in E.
  destruct (run (vstep N) s1 l) as [[s2 es2]| |] eqn:E2; cbn [bind] in E; try discriminate. injection E as <- <-.
  eapply IH; [exact V1|exact (vheld_step _ _ _ _ _ V HH Ha E1)|exact HF'|exact E2].
Qed.
Lemma newest_is_held l s es t i s' b : Forall disciplined l -> run (vstep N) (v0 N) l = Ok (s, es) -> 0 <= i < N ->
  vstep N s (IsUsed t i (zlen (msgs s i) - 1)) = Ok (s', VUsed b) -> (b = true <-> exists u, holds (base s) u i).
Proof.
  intros HF E Hi Es. destruct (newest_is_exact l s es t i s' b HF E Hi Es) as [Hz _]. pose proof (vrun_ok _ _ _ HF E) as V. split.
  - intros ->. eapply (vrun_held l (v0 N) []); [apply vinv_init|..]; eauto. intros k Hk. cbn in Hk.
    pose proof (znth_some_range _ _ _ Hk) as R. rewrite zlen_zrepeat in R by lia. rewrite znth_zrepeat in Hk by lia. discriminate.
  - intros [u Hu]. destruct (PoolConc.i_held N _ (v_inv _ _ V) _ _ Hu). congruence.
Qed.

(** one thread alone always reads the newest value *)
Lemma alone_step s es t a s' e : VInv s es -> disciplined a -> only_thread t a -> (forall i, seen s t i = newest s i) -> vstep N s a = Ok (s', e) -> forall i, seen s' t i = newest s' i.
Proof.
  intros V Hd Ho HS Hs. destruct a as [[u a]|u i j|u i]; cbn [vstep disciplined only_thread] in *; [| |contradiction]; subst u.
  - destruct (pstep true true N (base s) (t, a)) as [[c' x]| |] eqn:E; cbn [bind] in Hs; try discriminate.
    destruct (flag_of N (base s) (t, a)) as [k|]; injection Hs as <- <-; [|exact HS]. cbn [fst]. unfold exchanged, newest in *. destruct V. unfold newest in *.
    destruct (znth (msgs s k) (zlen (msgs s k) - 1)) as [m|] eqn:Em; [|exact HS]. destruct (znth (flags c') k) as [b|]; [|exact HS]. destruct (znth (f_view c') k); [|exact HS].
    destruct (Bool.eqb _ _); cbn [seen msgs]; intros i; rewrite upd_eq; unfold upd; pose proof (v_mseen0 _ _ _ i Em); pose proof (HS i); destruct (Z.eqb_spec i k); try (subst k); try lia.
    rewrite zlen_app. cbn. lia.
  - destruct (t_pc (threads (base s) t)); try (injection Hs as <- <-; exact HS).
    destruct (N <=? i); [injection Hs as <- <-; exact HS|]. destruct (Z.ltb_spec j (seen s t i)); [injection Hs as <- <-; exact HS|].
    destruct (znth (msgs s i) j) as [m|] eqn:Em; injection Hs as <- <-; [|exact HS]. unfold newest in *. cbn [seen msgs]. destruct V. unfold newest in *. pose proof (znth_some_range _ _ _ Em).
    intros k. rewrite upd_eq; unfold upd; pose proof (v_mseen0 _ _ _ k Em); pose proof (HS k). destruct (Z.eqb_spec k i); [subst k|]; lia.
Qed.
Lemma alone_run t l : forall s es s' es', VInv s es -> Forall disciplined l -> Forall (only_thread t) l -> (forall i, seen s t i = newest s i) -> run (vstep N) s l = Ok (s', es') -> forall i, seen s' t i = newest s' i.
Proof.
  induction l as [|a l IH]; intros s es s' es' V HF HO HS E; cbn [run] in E; [injection E as <- <-; exact HS|].
  inversion HF as [|? ? Ha HF']; subst. inversion HO as [|? ? Ho HO']; subst. destruct (vstep_inv s es a V Ha) as (s1 & e & E1 & V1). rewrite E1 in E. cbn [bind] in E.
  destruct (run (vstep N) s1 l) as [[s2 es2]| |] eqn:E2; cbn [bind] in E; try discriminate. injection E as <- <-.
  eapply IH; [exact V1|exact HF'|exact HO'|eapply (alone_step s es t a); eauto|exact E2].
Qed.
Lemma alone_exact t l s es i j s' b : Forall disciplined l -> Forall (only_thread t) l -> run (vstep N) (v0 N) l = Ok (s, es) -> 0 <= i < N ->
  vstep N s (IsUsed t i j) = Ok (s', VUsed b) -> (b = true <-> exists u, holds (base s) u i).
Proof.
  intros HF HO E Hi Es. assert (HS : forall k, seen s t k = newest s k) by exact (alone_run t l (v0 N) [] s es vinv_init HF HO (fun k => eq_refl) E).
  assert (j = zlen (msgs s i) - 1); [|subst j; eapply newest_is_held; eauto].
  specialize (HS i). unfold newest in HS. cbn [vstep] in Es. destruct (t_pc (threads (base s) t)); try discriminate. replace (N <=? i) with false in Es by lia.
  destruct (Z.ltb_spec j (seen s t i)); [discriminate|]. destruct (znth (msgs s i) j) as [m|] eqn:Em; [|discriminate]. pose proof (znth_some_range _ _ _ Em). lia.
Qed.
End V.

(* ---------------- reading without owning ---------------- *)
(* nobody knows of an access that has not happened *)
Definition Bnd (c : cfg) : Prop :=
  (forall t id, In id (t_view (threads c t)) -> id < zlen (hist c)) /\
  (forall i v id, znth (f_view c) i = Some v -> In id v -> id < zlen (hist c)).
Definition VBnd (s : vcfg) : Prop :=
  Bnd (base s) /\ forall f j m id, znth (msgs s f) j = Some m -> In id (m_view m) -> id < zlen (hist (base s)).

Lemma bnd_thread c t th' : Bnd c -> (forall id, In id (t_view th') -> id < zlen (hist c)) ->
  Bnd (Cfg (flags c) (f_view c) (hist c) (set_thread c t th')).
Proof.
  intros [B1 B2] H. split; cbn [threads hist f_view]; [|exact B2]. intros u id. unfold set_thread. destruct (u =? t); eauto.
Qed.
Lemma bnd_access c t i c' : Bnd c -> access c t i = Ok c' -> Bnd c' /\ zlen (hist c) <= zlen (hist c').
Proof.
  intros [B1 B2] E. apply access_ok in E. subst c'. split; [split|]; cbn [threads hist f_view]; rewrite ?zlen_app; change (zlen [i]) with 1; try lia.
  - intros u id. unfold set_thread. destruct (u =? t); cbn [t_view].
    + intros [<-|H]; [lia|]. specialize (B1 _ _ H). lia.
    + intros H. specialize (B1 _ _ H). lia.
  - intros k v id Hk Hid. specialize (B2 _ _ _ Hk Hid). lia.
Qed.
Lemma bnd_cas c t i expected b fl fv v : Bnd c -> cas true true c t i expected = Ok (b, fl, fv, v) ->
  (forall id, In id v -> id < zlen (hist c)) /\ (forall k w id, znth fv k = Some w -> In id w -> id < zlen (hist c)).
Proof.
  intros [B1 B2] E. unfold cas in E. destruct (rd (flags c) i) as [f| |]; cbn [bind] in E; try discriminate.
  destruct (rd (f_view c) i) as [w| |] eqn:Ew; cbn [bind] in E; try discriminate. apply rd_inv in Ew.
  assert (Hj : forall id, In id (t_view (threads c t) ++ w) -> id < zlen (hist c)) by (intros id H; apply in_app_or in H as [H|H]; eauto).
  destruct (Bool.eqb f expected).
  - destruct (wr (flags c) i _) as [fl'| |]; cbn [bind] in E; try discriminate.
    destruct (wr (f_view c) i _) as [fvs| |] eqn:Ev; cbn [bind] in E; try discriminate. injection E as <- <- <- <-.
    apply wr_inv in Ev as [Hr ->]. split; [exact Hj|]. intros k w0 id. destruct (Z.eq_dec k i) as [->|Hne].
    + rewrite znth_zupd_eq by lia. intros [= <-]. apply Hj.
    + rewrite znth_zupd_ne by lia. apply B2.
  - injection E as <- <- <- <-. split; [exact Hj|exact B2].
Qed.
Lemma bnd_pstep N c l c' e : Bnd c -> no_clear l -> (forall t i, t_pc (threads c t) <> Clearing i) ->
  pstep true true N c l = Ok (c', e) -> Bnd c' /\ zlen (hist c) <= zlen (hist c').
Proof.
  intros B Hn Hc E. destruct l as [t a]. unfold no_clear in Hn. cbn [snd] in Hn. cbn [pstep] in E.
  assert (Ht : forall th', t_view th' = t_view (threads c t) -> forall id, In id (t_view th') -> id < zlen (hist c)).
  { intros th' -> id. apply B. }
  assert (Hnop : c' = c -> Bnd c' /\ zlen (hist c) <= zlen (hist c')) by (intros ->; split; [exact B|lia]).
  destruct a as [|i| |i|]; [| | | |contradiction]; destruct (t_pc (threads c t)) as [|j|j|j] eqn:Epc; try (apply Hnop; congruence);
    try (exfalso; eapply Hc; eauto; fail).
  - injection E as <- <-. split; [|cbn [hist]; lia]. apply bnd_thread; [exact B|apply Ht; reflexivity].
  - destruct (existsb _ _); [|apply Hnop; congruence]. injection E as <- <-. split; [|cbn [hist]; lia]. apply bnd_thread; [exact B|apply Ht; reflexivity].
  - destruct (j <? N).
    + destruct (cas true true c t j false) as [[[[b fl] fv] v]| |] eqn:Ec; cbn [bind] in E; try discriminate.
      destruct (bnd_cas _ _ _ _ _ _ _ _ B Ec) as [H1 H2]. destruct B as [B1 B2].
      destruct b; injection E as <- <-; (split; [split|]; cbn [threads hist f_view]; [|exact H2|lia]); intros u id; unfold set_thread;
        destruct (u =? t); cbn [t_view]; eauto.
    + injection E as <- <-. split; [|cbn [hist]; lia]. apply bnd_thread; [exact B|apply Ht; reflexivity].
  - destruct (j <? N).
    + destruct (cas true true c t j true) as [[[[b fl] fv] v]| |] eqn:Ec; cbn [bind] in E; try discriminate.
      destruct (bnd_cas _ _ _ _ _ _ _ _ B Ec) as [H1 H2]. destruct B as [B1 B2].
      injection E as <- <-. split; [split|]; cbn [threads hist f_view]; [|exact H2|lia]. intros u id; unfold set_thread;
        destruct (u =? t); cbn [t_view]; eauto.
    + injection E as <- <-. split; [|cbn [hist]; lia]. apply bnd_thread; [exact B|apply Ht; reflexivity].
  - destruct (existsb _ _); [|apply Hnop; congruence]. destruct (access c t i) as [c1| |] eqn:Ea; cbn [bind] in E; try discriminate.
    injection E as <- <-. eapply bnd_access; eauto.
Qed.
Lemma vbnd_step N s a s' e : VBnd s -> disciplined a -> (forall t i, t_pc (threads (base s) t) <> Clearing i) ->
  vstep N s a = Ok (s', e) -> VBnd s'.
Proof.
  intros [B M] Hd Hc E. destruct a as [l|t i j|t i]; cbn [vstep disciplined] in *; [| |contradiction].
  - destruct (pstep true true N (base s) l) as [[c' e']| |] eqn:Ep; cbn [bind] in E; try discriminate. injection E as <- <-.
    destruct (bnd_pstep _ _ _ _ _ B Hd Hc Ep) as [B' L].
    assert (Keep : VBnd (VCfg c' (msgs s) (seen s))).
    { split; [exact B'|]. cbn [base msgs]. intros f j m id Hm Hid. specialize (M _ _ _ _ Hm Hid). lia. }
    destruct (flag_of N (base s) l) as [i|]; [|exact Keep]. unfold exchanged.
    destruct (znth (msgs s i) (zlen (msgs s i) - 1)) as [m|] eqn:Em; [|exact Keep]. destruct (znth (flags c') i) as [b|]; [|exact Keep].
    destruct (znth (f_view c') i) as [fv|] eqn:Ef; [|exact Keep]. destruct (Bool.eqb (m_val m) b); (split; [exact B'|]); cbn [base msgs].
    + intros f j m0 id Hm Hid. specialize (M _ _ _ _ Hm Hid). lia.
    + intros f j m0 id. unfold upd. destruct (Z.eqb_spec f i) as [->|Hne].
      * rewrite znth_app. destruct (j <? zlen (msgs s i)).
        -- intros Hm Hid. specialize (M _ _ _ _ Hm Hid). lia.
        -- rewrite znth_cons, znth_nil. destruct (_ =? 0); [|destruct (_ <? 0); discriminate]. intros [= <-]. cbn [m_view]. destruct B' as [_ B2]. eapply B2; eauto.
      * intros Hm Hid. specialize (M _ _ _ _ Hm Hid). lia.
  - destruct (t_pc (threads (base s) t)) eqn:Epc; try (injection E as <- <-; split; assumption).
    destruct (N <=? i); [injection E as <- <-; split; assumption|]. destruct (j <? seen s t i); [injection E as <- <-; split; assumption|].
    destruct (znth (msgs s i) j) as [m|] eqn:Em; injection E as <- <-; [|split; assumption].
    split; cbn [base msgs hist]; [|exact M]. destruct B as [B1 B2]. split; cbn [threads hist f_view]; [|exact B2].
    intros u id. unfold set_thread. destruct (u =? t); cbn [t_view]; [|apply B1]. intros H. apply in_app_or in H as [H|H]; eauto.
Qed.
Lemma vbnd_run N (HN : 0 <= N) l : forall s es s' es', VInv N s es -> VBnd s -> Forall disciplined l ->
  run (vstep N) s l = Ok (s', es') -> VBnd s'.
Proof.
  induction l as [|a l IH]; intros s es s' es' V B HF E; cbn [run] in E; [injection E as <- <-; exact B|].
  inversion HF as [|? ? Ha HF']; subst. destruct (vstep_inv N s es a V Ha) as (s1 & e1 & E1 & V1). rewrite E1 in E. cbn [bind] in E.
  destruct (run (vstep N) s1 l) as [[s2 es2]| |] eqn:E2; cbn [bind] in E; try discriminate. injection E as <- <-.
  eapply IH; [exact V1| |exact HF'|exact E2]. eapply vbnd_step; eauto. apply (v_inv _ _ _ V).
Qed.
Lemma vbnd_init N : 0 <= N -> VBnd (v0 N).
Proof.
  intros HN. split; [split|]; cbn [base v0 p0 threads t_view f_view hist msgs].
  - intros _ id [].
  - intros i v id H. destruct (Z_lt_dec i 0); [|destruct (Z_lt_dec i N)]; [|rewrite znth_zrepeat in H by lia; injection H as <-; intros []|];
      pose proof (znth_some_range _ _ _ H) as R; rewrite zlen_zrepeat in R; lia.
  - intros f j m id H. unfold znth in H. destruct (j <? 0); [discriminate|]. destruct (Z.to_nat j) as [|[|n]]; cbn in H; try discriminate. injection H as <-. intros [].
Qed.

Lemma access_unknown c t i id : znth (hist c) id = Some i -> ~ In id (t_view (threads c t)) -> access c t i = UB DataRace.
Proof.
  intros Hid Hn. unfold access. replace (existsb _ _) with true; [reflexivity|]. symmetry. apply existsb_exists. exists (id, i). cbn [fst snd].
  pose proof (znth_some_range _ _ _ Hid) as R. split.
  - unfold znth in Hid. destruct (id <? 0); [discriminate|]. set (n := Z.to_nat id) in *.
    replace id with (Z.of_nat n) by lia. clearbody n.
    assert (G : forall (h : list Z) k n, nth_error h n = Some i -> In (Z.of_nat (k + n), i) (combine (map Z.of_nat (seq k (length h))) h)).
    { induction h as [|x h IHh]; intros k [|m] H; cbn in *; try discriminate.
      - injection H as ->. left. f_equal. lia.
      - right. replace (k + S m)%nat with (S k + m)%nat by lia. apply IHh. exact H. }
    exact (G (hist c) 0%nat n Hid).
  - rewrite Z.eqb_refl. cbn [andb]. apply negb_true_iff. apply not_true_is_false. intros H. apply existsb_exists in H as (y & Hy & E). apply Z.eqb_eq in E. subst y. contradiction.
Qed.

Section Race.
Variables (N t u i : Z) (l : list vact) (s : vcfg) (es : list vevent).
Hypotheses (HN : 0 <= N) (HF : Forall disciplined l) (E : run (vstep N) (v0 N) l = Ok (s, es))
  (Ho : In i (owned (threads (base s) t))) (Ht : t_pc (threads (base s) t) = Idle) (Hu : t_pc (threads (base s) u) = Idle) (Htu : t <> u).

Let n := zlen (hist (base s)).
Lemma owner_access : exists s1, vstep N s (Act (t, AAccess i)) = Ok (s1, VBase ENone) /\
  msgs s1 = msgs s /\ seen s1 = seen s /\ flags (base s1) = flags (base s) /\ f_view (base s1) = f_view (base s) /\ hist (base s1) = hist (base s) ++ [i] /\
  threads (base s1) t = Thread Idle (owned (threads (base s) t)) (n :: t_view (threads (base s) t)) /\ threads (base s1) u = threads (base s) u.
Proof using HN HF E Ho Ht Htu.
  pose proof (vrun_ok N HN l s es HF E) as V.
  destruct (vstep_inv N s es (Act (t, AAccess i)) V) as (s1 & e1 & E1 & _); [unfold disciplined, no_clear; discriminate|].
  exists s1. cbn [vstep pstep] in *. rewrite Ht in *.
  assert (Eo : existsb (Z.eqb i) (owned (threads (base s) t)) = true) by (apply existsb_exists; exists i; split; [exact Ho|apply Z.eqb_refl]).
  rewrite Eo in *. destruct (access (base s) t i) as [c1| |] eqn:Ea; cbn [bind flag_of] in *; try discriminate. injection E1 as <- <-.
  apply access_ok in Ea. subst c1. rewrite Ht. splits; auto; cbn [base threads]; unfold set_thread.
  - rewrite Z.eqb_refl. reflexivity.
  - replace (u =? t) with false by lia. reflexivity.
Qed.
Lemma unknown_to_others : (forall w id, In id (t_view (threads (base s) w)) -> id < n) /\
  (forall f j m id, znth (msgs s f) j = Some m -> In id (m_view m) -> id < n).
Proof using HN HF E.
  destruct (vbnd_run N HN l _ [] _ _ (vinv_init N HN) (vbnd_init N HN) HF E) as [[B1 _] M]. split; [exact B1|exact M].
Qed.

Lemma used_then_read_races : exists s1 s2,
  vstep N s (Act (t, AAccess i)) = Ok (s1, VBase ENone) /\
  vstep N s1 (IsUsed u i (zlen (msgs s1 i) - 1)) = Ok (s2, VUsed true) /\ vstep N s2 (Peek u i) = UB DataRace.
Proof using All.
  pose proof (vrun_ok N HN l s es HF E) as V.
  destruct owner_access as (s1 & E1 & H1 & H2 & H3 & H4 & H5 & H6 & H7). destruct unknown_to_others as [B M].
  destruct (i_held N _ (v_inv _ _ _ V) t i (or_introl Ho)) as [Hi Hf].
  destruct (v_last _ _ _ V i Hi) as (m & Hm & Hmf & _). unfold newest in Hm. rewrite Hf in Hmf. injection Hmf as Hmf.
  pose proof (v_seen _ _ _ V u i) as Hs. unfold newest in Hs.
  exists s1. cbn [vstep]. rewrite H7, Hu, H1, H2. replace (N <=? i) with false by lia. replace (_ <? _) with false by lia. rewrite Hm, <- Hmf.
  eexists. split; [exact E1|]. split; [reflexivity|]. cbn [base threads]. unfold set_thread. rewrite Z.eqb_refl. cbn [t_pc].
  rewrite (access_unknown _ u i n); [reflexivity| |].
  - cbn [hist]. rewrite H5. unfold n. rewrite znth_app, Z.ltb_irrefl, Z.sub_diag. reflexivity.
  - cbn [threads]. unfold set_thread. rewrite Z.eqb_refl. cbn [t_view]. intros H. apply in_app_or in H as [H|H]; [apply B in H|eapply M in H; eauto]; lia.
Qed.

Lemma stale_read_races : exists s1 es1, run (vstep N) s [Act (t, AAccess i); Act (t, ADestroy i); Act (t, AStep)] = Ok (s1, es1) /\
  znth (flags (base s1)) i = Some false /\
  forall j b s2, j < zlen (msgs s1 i) - 1 -> vstep N s1 (IsUsed u i j) = Ok (s2, VUsed b) -> vstep N s2 (Peek u i) = UB DataRace.
Proof using All.
  pose proof (vrun_ok N HN l s es HF E) as V.
  destruct owner_access as (s1 & E1 & H1 & H2 & H3 & H4 & H5 & H6 & H7). destruct unknown_to_others as [B M].
  destruct (i_held N _ (v_inv _ _ _ V) t i (or_introl Ho)) as [Hi Hf].
  destruct (v_last _ _ _ V i Hi) as (m & Hm & Hmf & Hmv). unfold newest in Hm. rewrite Hf in Hmf. injection Hmf as Hmf.
  pose proof (i_len N _ (v_inv _ _ _ V)) as L1. pose proof (i_vlen N _ (v_inv _ _ _ V)) as L2.
  assert (Eo : existsb (Z.eqb i) (owned (threads (base s) t)) = true) by (apply existsb_exists; exists i; split; [exact Ho|apply Z.eqb_refl]).
  assert (E2 : exists s2, vstep N s1 (Act (t, ADestroy i)) = Ok (s2, VBase ENone) /\
    msgs s2 = msgs s /\ seen s2 = seen s /\ flags (base s2) = flags (base s) /\ f_view (base s2) = f_view (base s) /\ hist (base s2) = hist (base s) ++ [i] /\
    t_pc (threads (base s2) t) = Destroying i /\ threads (base s2) u = threads (base s) u).
  { cbn [vstep pstep]. rewrite H6. cbn [t_pc owned t_view]. rewrite Eo. cbn [bind flag_of]. eexists. split; [reflexivity|].
    cbn [base msgs seen flags f_view hist threads]. unfold set_thread. rewrite Z.eqb_refl. replace (u =? t) with false by lia. splits; auto. }
  destruct E2 as (s2 & E2 & G1 & G2 & G3 & G4 & G5 & G6 & G7).
  assert (E3 : exists s3 e3 m3, vstep N s2 (Act (t, AStep)) = Ok (s3, e3) /\ msgs s3 i = msgs s i ++ [m3] /\
    znth (flags (base s3)) i = Some false /\ hist (base s3) = hist (base s) ++ [i] /\ threads (base s3) u = threads (base s) u).
  { cbn [vstep pstep flag_of]. rewrite G6. replace (i <? N) with true by lia. unfold cas. rewrite G3, G4, (rd_ok _ _ _ Hf), (rd_ok _ _ _ Hmv).
    cbn [bind Bool.eqb negb]. rewrite wr_ok by lia. cbn [bind]. rewrite wr_ok by lia. cbn [bind]. unfold exchanged. cbn [fst flags f_view].
    rewrite G1, Hm, !znth_zupd_eq, <- Hmf by lia. cbn [Bool.eqb]. eexists _, _, _. split; [reflexivity|]. cbn [msgs base flags hist threads].
    rewrite upd_eq. unfold set_thread. replace (u =? t) with false by lia. splits; eauto. apply znth_zupd_eq. lia. }
  destruct E3 as (s3 & e3 & m3 & E3 & K1 & K2 & K3 & K4).
  cbn [run]. rewrite E1. cbn [bind]. rewrite E2. cbn [bind]. rewrite E3. cbn [bind]. eexists _, _. split; [reflexivity|]. split; [exact K2|].
  intros j b s4 Hj E4. rewrite K1, zlen_app in Hj. change (zlen [m3]) with 1 in Hj.
  cbn [vstep] in E4. rewrite K4, Hu in E4. replace (N <=? i) with false in E4 by lia.
  destruct (j <? seen s3 u i); [discriminate|]. rewrite K1, znth_app in E4. replace (j <? zlen (msgs s i)) with true in E4 by lia.
  destruct (znth (msgs s i) j) as [mj|] eqn:Emj; [|discriminate]. injection E4 as <- <-.
  cbn [vstep base threads]. unfold set_thread at 1. rewrite Z.eqb_refl. cbn [t_pc].
  rewrite (access_unknown _ u i n); [reflexivity| |].
  - cbn [hist]. rewrite K3. unfold n. rewrite znth_app, Z.ltb_irrefl, Z.sub_diag. reflexivity.
  - cbn [threads]. unfold set_thread. rewrite Z.eqb_refl. cbn [t_view].
    intros H. apply in_app_or in H as [H|H]; [apply B in H|eapply M in H; eauto]; lia.
Qed.
End Race.
