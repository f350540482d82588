From Verif.Common Require Import Base Lemmas.
From Verif.Spec Require Import Queue Linearizable SeekSpec.
From Verif.Model Require Import Fifo FifoConc FifoSeek.
From Verif.Proofs Require Import Fifo FifoConc.
Ltac Zify.zify_post_hook ::= Z.div_mod_to_equations.

Section Proof.
Context {T : Type}.
Variables (W : Z) (dflt : T) (slot : Z -> Z -> outcome Z) (cap : Z).
Hypothesis Hcap : 0 < cap < 2 ^ W.
Hypothesis Hslot : forall p, okpos W cap p -> slot cap (word W p) = Ok (p mod cap).
Variable nowrap : Prop.
Hypothesis Hlim : (cap | 2 ^ W) \/ nowrap.
Notation Inv := (Inv (T := T) W dflt cap nowrap).
Notation kstep := (kstep W dflt slot).

Lemma inv_filled s q sn stP stC n : Inv s q sn stP stC n -> filled W s = zlen (qitems q).
Proof using All.
  intros (H0 & Tl & Em & Eq & Hb & Eh & Et & Hn & Hle & _). unfold filled. rewrite Eh, Et.
  apply word_diff; [exact Hn|]. pose proof (zlen_nonneg (qitems q)). lia.
Qed.

(* what the producer leaves alone *)
Lemma producer_step s q sn stP stC n a s' vis : Inv s q sn stP stC n -> by_producer a = true -> action_ok false a = true ->
  cstep W dflt slot s a = Ok (s', vis) ->
  c_tail s' = c_tail s /\ c_cons s' = c_cons s /\
  (c_head s' = c_head s \/ (c_head s' = word W (c_head s + 1) /\ zlen (qitems q) < cap)).
Proof using All.
  intros (H0 & Tl & Em & Eq & Hb & Eh & Et & Hn & Hle & Hnw & Hcont & HP & HC) Ha Hok E.
  destruct a as [[|] o|[|]]; try discriminate Ha; cbn [cstep] in E.
  - cbn [get_pc] in E. destruct (c_prod s); try (injection E as <- <-; auto). destruct (allowed Prod o); injection E as <- <-; cbn; auto.
  - unfold tstep in E. cbn [get_pc set_pc] in E. destruct (c_prod s) as [|o|o v|o v|o v it|o v r|r]; cbn [PInv] in HP.
    + injection E as <- <-; auto.
    + destruct o; injection E as <- <-; cbn; auto.
    + destruct o; try (injection E as <- <-; cbn; auto; fail); repeat match type of E with context[if ?b then _ else _] => destruct b end; injection E as <- <-; cbn; auto.
    + destruct HP as (_ & _ & _ & x & ->). destruct (slot (c_max s) v) as [i| |]; try discriminate E. cbn [bind] in E.
      destruct (wr (c_buf s) i x); try discriminate E. cbn [bind] in E. injection E as <- <-; cbn; auto.
    + contradiction.
    + destruct HP as (_ & -> & Hroom & _ & x & -> & _). injection E as <- <-; cbn. splits; auto. right. split; [|exact Hroom].
      rewrite Eh. rewrite word_add_l. reflexivity.
    + injection E as <- <-; cbn; auto.
Qed.

Lemma producer_grows s q sn stP stC n a s' vis q' sn' stP' stC' n' : Inv s q sn stP stC n -> by_producer a = true -> action_ok false a = true ->
  cstep W dflt slot s a = Ok (s', vis) -> Inv s' q' sn' stP' stC' n' -> zlen (qitems q) <= zlen (qitems q').
Proof using All.
  intros HI Ha Hok E HI'. destruct (producer_step _ _ _ _ _ _ _ _ _ HI Ha Hok E) as (Et & _ & Eh).
  rewrite <- (inv_filled _ _ _ _ _ _ HI), <- (inv_filled _ _ _ _ _ _ HI'). pose proof (inv_filled _ _ _ _ _ _ HI) as F. pose proof (zlen_nonneg (qitems q)).
  unfold filled in *. rewrite Et. destruct Eh as [->|[-> Hr]]; [lia|].
  replace (word W (word W (c_head s + 1) - c_tail s)) with (word W (zlen (qitems q) + 1)); [rewrite (word_small W (zlen (qitems q) + 1)) by lia; lia|].
  rewrite <- F. rewrite word_add_l, word_sub_l. f_equal. lia.
Qed.

Definition KSt (s : kstate T) (q : queue T) (m : Z) (stK : sstatus T) (stC : status T) : Prop :=
  match k_pc s with
  | KNo => stK = Plain stC
  | KCalled k => stC = Idle /\ stK = Seeking k /\ 0 <= k <= zlen (qitems q) /\ c_cons (k_c s) = PcIdle
  | KGot k head => stC = Idle /\ stK = Looked /\ 0 <= k /\ 0 <= m /\ m + k <= zlen (qitems q) /\ head = word W (c_tail (k_c s) + m + k) /\ c_cons (k_c s) = PcIdle
  | KRet => stC = Idle /\ stK = Moved /\ c_cons (k_c s) = PcIdle
  end.
Definition KInv s q sn m stP stK n : Prop := exists stC, Inv (k_c s) q sn stP stC n /\ KSt s q m stK stC.

(* moving the tail over [m] items between two calls *)
Lemma inv_drop s q sn stP n m v : Inv s q sn stP Idle n -> c_cons s = PcIdle -> 0 <= m <= zlen (qitems q) -> v = word W (c_tail s + m) ->
  Inv (CState (c_max s) (c_head s) v (c_buf s) (c_prod s) (c_cons s)) (Queue (qcap q) (skipn (Z.to_nat m) (qitems q))) sn stP Idle n.
Proof using All.
  intros (H0 & Tl & Em & Eq & Hb & Eh & Et & Hn & Hle & Hnw & Hcont & HP & HC) Ec Hm ->.
  exists H0, (Tl + m). destruct s; cbn in *; subst. rewrite zlen_skipn by lia. rewrite word_add_l.
  splits; auto; try lia; try (intros Hw; specialize (Hnw Hw); lia).
  - intros i Hi _. rewrite znth_skipn by lia. rewrite <- Hcont by (try lia; intros X; discriminate X). f_equal; f_equal; lia.
  - destruct c_prod as [|o'|o' v'|o' v'|o' v' it'|o' v' r''|r'']; cbn [PInv] in *; auto.
    + destruct HP as (? & ? & ? & ?); splits; auto. rewrite zlen_skipn by lia; lia.
    + destruct HP as (? & ? & ? & ?); splits; try tauto. rewrite zlen_skipn by lia; lia.
Qed.

Definition kbudget (a : kaction T) : Z := match a with Do a => budget_of a | _ => 0 end.
(* what one action contributes *)
Definition KAdv stP stK q sn m (es : list (sev T)) stP' stK' q' sn' m' vis : Prop :=
  filter seen es = vis /\
  (forall h, sexplained (Plain stP') (filter (by_thread Prod) h) -> sexplained (Plain stP) (filter (by_thread Prod) (es ++ h))) /\
  (forall h, sexplained stK' (filter (by_thread Cons) h) -> sexplained stK (filter (by_thread Cons) (es ++ h))) /\
  (forall h, slegal dflt q' sn' m' h -> slegal dflt q sn m (es ++ h)) /\
  (nowrap -> ~ In (SeekMove false) es).

Lemma kadv_nil stP stK q sn m : KAdv stP stK q sn m [] stP stK q sn m [].
Proof using. unfold KAdv; cbn; splits; auto. Qed.

Lemma kadv_eff es stP stC q sn m stP' stC' q' sn' s' vis : Advance dflt stP stC q sn es stP' stC' q' sn' s' vis ->
  KAdv stP (Plain stC) q sn m (map Q es) stP' (Plain stC') q' sn' m (map Q vis).
Proof using All.
  intros (Hv & _ & _ & _ & He). unfold Eff in He. destruct es as [|e [|e2 es]]; [| |contradiction].
  - cbn in *. destruct He as (-> & -> & -> & ->). subst vis. apply kadv_nil.
  - destruct He as (Hq & Ht). subst vis. unfold KAdv. cbn. splits.
    + destruct (visible e); reflexivity.
    + intros h Hh. destruct (ev_tid e); cbn; [destruct Ht; econstructor; eauto|destruct Ht as [_ ->]; exact Hh].
    + intros h Hh. destruct (ev_tid e); cbn; [destruct Ht as [_ ->]; exact Hh|destruct Ht; econstructor; eauto].
    + intros h Hh. econstructor; eauto.
    + intros _ [X|[]]; discriminate X.
Qed.

(* the consumer is in the seek: only the producer acts *)
Lemma kadv_prod es stP stC q sn m stP' stC' q' sn' s' vis stK : Advance dflt stP stC q sn es stP' stC' q' sn' s' vis ->
  stC = Idle -> stC' = Idle ->
  KAdv stP stK q sn m (map Q es) stP' stK q' sn' m (map Q vis).
Proof using All.
  intros (Hv & _ & _ & _ & He) -> ->. unfold Eff in He. destruct es as [|e [|e2 es]]; [| |contradiction].
  - cbn in *. destruct He as (-> & _ & -> & ->). subst vis. apply kadv_nil.
  - destruct He as (Hq & Ht). subst vis. unfold KAdv. cbn.
    assert (HT : ev_tid e = Prod) by (destruct (ev_tid e); [reflexivity|destruct Ht as [X _]; inversion X]).
    rewrite HT in Ht |- *. cbn. splits.
    + destruct (visible e); reflexivity.
    + intros h Hh. destruct Ht; econstructor; eauto.
    + intros h Hh. exact Hh.
    + intros h Hh. econstructor; eauto.
    + intros _ [X|[]]; discriminate X.
Qed.

Lemma inv_cons_idle s q sn stP stC n : Inv s q sn stP stC n -> c_cons s = PcIdle -> stC = Idle.
Proof using All. intros (H0 & Tl & Em & Eq & Hb & Eh & Et & Hn & Hle & Hnw & Hcont & HP & HC) Ec. rewrite Ec in HC. exact HC. Qed.

Lemma inv_budget s q sn stP stC n n' : Inv s q sn stP stC n -> n' <= n -> Inv s q sn stP stC n'.
Proof using All.
  intros (H0 & Tl & Em & Eq & Hb & Eh & Et & Hn & Hle & Hnw & Hcont & HP & HC) Hn'. exists H0, Tl. splits; auto. intros Hw; specialize (Hnw Hw); lia.
Qed.

Lemma inv_head s q sn stP stC n : Inv s q sn stP stC n -> c_head s = word W (c_tail s + zlen (qitems q)).
Proof using All. intros (H0 & Tl & Em & Eq & Hb & Eh & Et & Hn & _). rewrite Eh, Et, word_add_l. f_equal. lia. Qed.

Lemma inv_nowrap s q sn stP stC n d : Inv s q sn stP stC n -> nowrap -> 1 <= n -> 0 <= d <= zlen (qitems q) -> d <= word W (c_tail s + d).
Proof using All.
  intros (H0 & Tl & Em & Eq & Hb & Eh & Et & Hn & Hle & Hnw & _) Hw H1 Hd. specialize (Hnw Hw).
  assert (0 <= pending_put (c_prod s)) by (destruct (c_prod s) as [|[]|[]|[]| |[]|]; cbn; lia).
  rewrite Et, word_add_l, word_small by lia. lia.
Qed.

Lemma kstep_ok s q sn m stP stK n a :
  KInv s q sn m stP stK (n + kbudget a) -> 1 <= n -> kaction_ok a = true ->
  match a with Seek k => k_pc s = KNo -> c_cons (k_c s) = PcIdle -> 0 <= k <= filled W (k_c s) | _ => True end ->
  exists s' vis es stP' stK' q' sn' m',
    kstep s a = Ok (s', vis) /\ KAdv stP stK q sn m es stP' stK' q' sn' m' vis /\ KInv s' q' sn' m' stP' stK' n.
Proof using All.
  intros (stC & HI & HK) Hn Hok Hfw. destruct s as [c p]. cbn [k_c k_pc] in *.
  destruct a as [a|k|]; cbn [FifoSeek.kstep k_pc k_c kaction_ok kbudget] in *.
  - destruct (step_ok W dflt slot cap Hcap Hslot nowrap Hlim c q sn stP stC n a HI ltac:(lia) Hok)
      as (c1 & vis & es & stP1 & stC1 & q1 & sn1 & E1 & HA & HI1).
    assert (Hprod : p <> KNo -> by_producer a = true -> exists s' vis0 es0 stP' stK' q' sn' m',
      (let* (c0, e) := cstep W dflt slot c a in Ok (KS c0 p, map Q e)) = Ok (s', vis0) /\ KAdv stP stK q sn m es0 stP' stK' q' sn' m' vis0 /\ KInv s' q' sn' m' stP' stK' n).
    { intros Hp Hb. rewrite E1. cbn [bind].
      destruct (producer_step _ _ _ _ _ _ _ _ _ HI Hb Hok E1) as (Et & Ec & _).
      pose proof (producer_grows _ _ _ _ _ _ _ _ _ _ _ _ _ _ HI Hb Hok E1 HI1) as HG.
      assert (Hidle : c_cons c = PcIdle) by (destruct p; cbn in HK; [congruence|tauto|tauto|tauto]).
      pose proof (inv_cons_idle _ _ _ _ _ _ HI Hidle) as HC0. pose proof (inv_cons_idle _ _ _ _ _ _ HI1 ltac:(congruence)) as HC1.
      do 8 eexists. split; [reflexivity|]. split; [eapply kadv_prod; [exact HA|exact HC0|exact HC1]|].
      exists stC1. cbn [k_c]. split; [exact HI1|]. subst stC stC1. destruct p; cbn [KSt k_pc k_c] in *; [congruence|..]; rewrite ?Et, ?Ec; cbn in HK; splits; try tauto; lia. }
    destruct p as [|k|k hd|].
    + rewrite E1. cbn [bind]. cbn in HK. subst stK. do 8 eexists. split; [reflexivity|]. split; [eapply kadv_eff; exact HA|]. exists stC1. split; [exact HI1|reflexivity].
    + destruct (by_producer a) eqn:Eb; [apply Hprod; [discriminate|reflexivity]|].
      do 8 eexists. split; [reflexivity|]. split; [apply kadv_nil|]. exists stC. split; [eapply inv_budget; [exact HI|destruct a as [? []|]; cbn; lia]|exact HK].
    + destruct (by_producer a) eqn:Eb; [apply Hprod; [discriminate|reflexivity]|].
      do 8 eexists. split; [reflexivity|]. split; [apply kadv_nil|]. exists stC. split; [eapply inv_budget; [exact HI|destruct a as [? []|]; cbn; lia]|exact HK].
    + destruct (by_producer a) eqn:Eb; [apply Hprod; [discriminate|reflexivity]|].
      do 8 eexists. split; [reflexivity|]. split; [apply kadv_nil|]. exists stC. split; [eapply inv_budget; [exact HI|destruct a as [? []|]; cbn; lia]|exact HK].
  - rewrite Z.add_0_r in HI.
    assert (Hskip : exists s' vis es stP' stK' q' sn' m',
      Ok (KS c p, @nil (sev T)) = Ok (s', vis) /\ KAdv stP stK q sn m es stP' stK' q' sn' m' vis /\ KInv s' q' sn' m' stP' stK' n).
    { do 8 eexists. split; [reflexivity|]. split; [apply kadv_nil|]. exists stC. split; [exact HI|exact HK]. }
    destruct p; try exact Hskip. destruct (c_cons c) eqn:Ec; try exact Hskip. clear Hskip.
    cbn in HK. pose proof (inv_cons_idle _ _ _ _ _ _ HI Ec) as ->. subst stK. specialize (Hfw eq_refl eq_refl). rewrite (inv_filled _ _ _ _ _ _ HI) in Hfw.
    exists (KS c (KCalled k)), [SeekCall k], [SeekCall k], stP, (Seeking k), q, sn, m. split; [reflexivity|]. split.
    + unfold KAdv. cbn. splits; auto; try (intros h Hh; constructor; exact Hh). intros _ [X|[]]; discriminate X.
    + exists Idle. split; [exact HI|]. cbn. auto.
  - rewrite Z.add_0_r in HI. destruct p as [|k|k hd|].
    + do 8 eexists. split; [reflexivity|]. split; [apply kadv_nil|]. exists stC. split; [exact HI|exact HK].
    + cbn in HK. destruct HK as (-> & -> & Hk & Ec).
      exists (KS c (KGot k (c_head c))), [], [SeekLook k], stP, Looked, q, sn, (zlen (qitems q) - k). split; [reflexivity|]. split.
      * unfold KAdv. cbn. splits; auto; try (intros h Hh; constructor; auto; exact Hh). intros _ [X|[]]; discriminate X.
      * exists Idle. split; [exact HI|]. cbn. splits; auto; try lia. rewrite (inv_head _ _ _ _ _ _ HI). f_equal. lia.
    + cbn in HK. destruct HK as (-> & -> & Hk & Hm & Hmk & -> & Ec).
      destruct (Z.leb_spec k (word W (c_tail c + m + k))) as [L|L].
      * do 2 eexists. exists [SeekMove true], stP, Moved, (Queue (qcap q) (skipn (Z.to_nat m) (qitems q))), sn, 0. split; [reflexivity|]. split.
        -- unfold KAdv. cbn. splits; auto; try (intros h Hh; constructor; auto; exact Hh). intros _ [X|[]]; discriminate X.
        -- exists Idle. split; [|cbn; auto]. cbn [k_c]. apply inv_drop; auto; [lia|]. rewrite word_sub_l. f_equal. lia.
      * exists (KS c KRet), [], [SeekMove false], stP, Moved, q, sn, 0. split; [reflexivity|]. split.
        -- unfold KAdv. cbn. splits; auto; try (intros h Hh; constructor; auto; exact Hh). intros Hw _.
           pose proof (inv_nowrap _ _ _ _ _ _ (m + k) HI Hw Hn ltac:(lia)) as X. rewrite Z.add_assoc in X. lia.
        -- exists Idle. split; [exact HI|cbn; auto].
    + cbn in HK. destruct HK as (-> & -> & Ec). exists (KS c KNo), [SeekDone], [SeekDone], stP, (Plain Idle), q, sn, m. split; [reflexivity|]. split.
      * unfold KAdv. cbn. splits; auto; try (intros h Hh; constructor; auto; exact Hh). intros _ [X|[]]; discriminate X.
      * exists Idle. split; [exact HI|reflexivity].
Qed.

Lemma kputs_cons a (l : list (kaction T)) : kputs (a :: l) = kputs l + kbudget a.
Proof using All. destruct a as [[t o|t]| |]; cbn [kputs kbudget budget_of invoked_puts]; try lia. destruct o; lia. Qed.
Lemma kputs_nonneg (l : list (kaction T)) : 0 <= kputs l.
Proof using All. induction l as [|a l IH]; [cbn; lia|]. rewrite kputs_cons. destruct a as [[t o|t]| |]; cbn; try lia. destruct o; cbn; lia. Qed.

Lemma krun_ok : forall sched s q sn m stP stK,
  KInv s q sn m stP stK (kputs sched + 1) -> forallb kaction_ok sched = true -> forward W dflt slot s sched ->
  exists s' h h' q' sn' m' stP' stK',
    krun W dflt slot s sched = Ok (s', h) /\ filter seen h' = h /\
    sexplained (Plain stP) (filter (by_thread Prod) h') /\ sexplained stK (filter (by_thread Cons) h') /\ slegal dflt q sn m h' /\
    (nowrap -> ~ In (SeekMove false) h') /\ KInv s' q' sn' m' stP' stK' 1.
Proof using All.
  induction sched as [|a sched IH]; intros s q sn m stP stK HI Hf Hw; cbn [krun].
  - exists s, [], [], q, sn, m, stP, stK. splits; auto; constructor.
  - rewrite kputs_cons in HI. cbn [forallb] in Hf. apply andb_prop in Hf. destruct Hf as [Ha Hf]. cbn [forward] in Hw. destruct Hw as [Hw1 Hw2].
    replace (kputs sched + kbudget a + 1) with (kputs sched + 1 + kbudget a) in HI by lia. pose proof (kputs_nonneg sched).
    destruct (kstep_ok _ _ _ _ _ _ _ _ HI ltac:(lia) Ha Hw1) as (s1 & vis & es & stP1 & stK1 & q1 & sn1 & m1 & E1 & (A1 & A2 & A3 & A4 & A5) & HI1).
    rewrite E1 in Hw2 |- *. cbn [bind].
    destruct (IH _ _ _ _ _ _ HI1 Hf Hw2) as (s2 & h & h' & q2 & sn2 & m2 & stP2 & stK2 & E2 & F2 & P2 & C2 & L2 & N2 & HI2).
    rewrite E2; cbn [bind]. exists s2, (vis ++ h), (es ++ h'), q2, sn2, m2, stP2, stK2. splits; auto.
    + rewrite filter_app, A1, F2. reflexivity.
    + intros Hn Hin. apply in_app_or in Hin. destruct Hin as [Hin|Hin]; [exact (A5 Hn Hin)|exact (N2 Hn Hin)].
Qed.

Lemma seek_run h buf sched (b : bool) :
  zlen buf = cap -> 0 <= h < 2 ^ W -> (nowrap -> h + kputs sched < 2 ^ W) -> (b = false -> nowrap) ->
  forallb kaction_ok sched = true -> forward W dflt slot (kinit cap h buf) sched ->
  exists s' hist, krun W dflt slot (kinit cap h buf) sched = Ok (s', hist) /\
    seek_linearizable dflt b (Queue cap []) hist /\
    (forall i j, slot_access slot Prod (k_c s') = Some (Ok i) -> slot_access slot Cons (k_c s') = Some (Ok j) -> i <> j).
Proof using All.
  intros Hb Hh Hn Hbn Hf Hw.
  assert (HI : KInv (kinit cap h buf) (Queue cap []) (fun _ => 0) 0 Idle (Plain Idle) (kputs sched + 1)).
  { exists Idle. split; [|reflexivity]. unfold kinit; cbn [k_c]. apply Inv_start with (slot := slot); auto. intros X; specialize (Hn X); lia. }
  destruct (krun_ok sched _ _ _ _ _ _ HI Hf Hw) as (s' & hist & h' & q' & sn' & m' & stP' & stK' & E & F & P & C & L & N & (stC & HI' & _)).
  exists s', hist. splits; [exact E| |].
  - exists h'. splits; auto. intros []; assumption.
  - apply (Inv_exclusive W dflt slot cap Hcap Hslot nowrap Hlim (k_c s') q' sn' stP' stC). eapply inv_budget; [exact HI'|lia].
Qed.
End Proof.

Section Final.
Context {T : Type}.
Variable dflt : T.

Lemma static_seek W k h buf sched :
  0 <= k < W -> 0 <= h < 2 ^ W -> zlen buf = 2 ^ k ->
  forallb (kaction_ok (T := T)) sched = true -> forward W dflt slot_static (kinit (2 ^ k) h buf) sched ->
  exists s' hist, krun W dflt slot_static (kinit (2 ^ k) h buf) sched = Ok (s', hist) /\
    seek_linearizable dflt (2 ^ W <=? h + kputs sched) (Queue (2 ^ k) []) hist /\
    (forall i j, slot_access slot_static Prod (k_c s') = Some (Ok i) -> slot_access slot_static Cons (k_c s') = Some (Ok j) -> i <> j).
Proof using All.
  intros Hk Hh Hb Hf Hw.
  pose proof (ex_intro _ k (conj Hk eq_refl) : static_valid W (2 ^ k)) as Hv.
  pose proof (static_valid_range _ _ Hv). pose proof (pow2_pos k ltac:(lia)).
  apply (seek_run W dflt slot_static (2 ^ k)) with (nowrap := h + kputs sched < 2 ^ W); auto; try lia.
  - intros p Hp; apply static_slot; auto; lia.
  - left; apply static_valid_div; assumption.
Qed.

Lemma dyn_seek W cap h buf sched :
  0 <= W -> 0 < cap < 2 ^ W -> 0 <= h < 2 ^ W -> zlen buf = cap ->
  ((cap | 2 ^ W) \/ h + kputs sched < 2 ^ W) ->
  forallb (kaction_ok (T := T)) sched = true -> forward W dflt slot_dyn (kinit cap h buf) sched ->
  exists s' hist, krun W dflt slot_dyn (kinit cap h buf) sched = Ok (s', hist) /\
    seek_linearizable dflt (2 ^ W <=? h + kputs sched) (Queue cap []) hist /\
    (forall i j, slot_access slot_dyn Prod (k_c s') = Some (Ok i) -> slot_access slot_dyn Cons (k_c s') = Some (Ok j) -> i <> j).
Proof using All.
  intros HW Hc Hh Hb Hl Hf Hw.
  apply (seek_run W dflt slot_dyn cap) with (nowrap := h + kputs sched < 2 ^ W); auto; try lia.
  intros p Hp; apply dyn_slot; auto; unfold dyn_valid; lia.
Qed.
End Final.

(** Moving back. *)
Section Back.
Context {T : Type}.
Variables (W : Z) (dflt : T) (slot : Z -> Z -> outcome Z) (cap h : Z) (buf : list T).
Hypothesis Hc : 0 < cap <= h.
Hypothesis Hh : h + 2 < 2 ^ W.
Hypothesis Hs : forall p, 0 <= p < 2 ^ W -> slot cap p = Ok (p mod cap).
Hypothesis Hb : zlen buf = cap.
Notation krun := (krun W dflt slot).

Lemma krun_app l1 l2 s : krun s (l1 ++ l2) =
  match krun s l1 with Ok (s1, e1) => match krun s1 l2 with Ok (s2, e2) => Ok (s2, e1 ++ e2) | UB k => UB k | OutOfFuel => OutOfFuel end | UB k => UB k | OutOfFuel => OutOfFuel end.
Proof using All.
  revert s. induction l1 as [|a l1 IH]; intros s; cbn [app FifoSeek.krun].
  - destruct (krun s l2) as [[? ?]| |]; reflexivity.
  - destruct (kstep W dflt slot s a) as [[s1 e1]| |]; cbn [bind]; auto. rewrite IH. destruct (krun s1 l1) as [[s2 e2]| |]; cbn [bind]; auto.
    destruct (krun s2 l2) as [[s3 e3]| |]; cbn [bind]; auto. rewrite app_assoc. reflexivity.
Qed.

Definition put_steps (x : T) : list (kaction T) := Do (Invoke Prod (Put x)) :: repeat (Do (Step Prod)) 5.
Lemma run_put hd tl b x p : word W (hd - tl) <> cap -> 0 <= hd < 2 ^ W -> zlen b = cap ->
  krun (KS (CState cap hd tl b PcIdle PcIdle) p) (put_steps x) =
  Ok (KS (CState cap (word W (hd + 1)) tl (zupd b (hd mod cap) x) PcIdle PcIdle) p, [Q (EInv Prod (Put x)); Q (ERes Prod (RBool true))]).
Proof using All.
  intros H1 H2 H3. pose proof (Z.mod_pos_bound hd cap ltac:(lia)).
  assert (E : forall p0, krun (KS (CState cap hd tl b PcIdle PcIdle) p0) (put_steps x) =
    match p0 with KNo | KCalled _ | KGot _ _ | KRet => krun (KS (CState cap hd tl b PcIdle PcIdle) p0) (put_steps x) end) by (intros []; reflexivity).
  destruct p; unfold put_steps; cbn -[word Z.modulo Z.eqb]; replace (word W (hd - tl) =? cap) with false by lia; cbn -[word Z.modulo];
    rewrite Hs by lia; cbn -[word Z.modulo]; rewrite wr_ok by lia; reflexivity.
Qed.

Lemma back_overfills x y : exists sched s',
  krun (kinit cap h buf) sched = Ok (s', [SeekCall cap; Q (EInv Prod (Put x)); Q (ERes Prod (RBool true)); SeekDone;
    Q (EInv Cons NumFilled); Q (ERes Cons (RNum (cap + 1))); Q (EInv Prod (Put y)); Q (ERes Prod (RBool true))]).
Proof using All.
  exists ([Seek cap; KStep] ++ put_steps x ++ [KStep; KStep; Do (Invoke Cons NumFilled); Do (Step Cons); Do (Step Cons); Do (Step Cons)] ++ put_steps y).
  eexists. rewrite krun_app. unfold kinit, cinit. cbn -[put_steps word]. rewrite krun_app, run_put by (try lia; rewrite Z.sub_diag, word_small; lia).
  cbn -[put_steps word Z.modulo Z.leb]. replace (cap <=? h) with true by lia. cbn -[put_steps word Z.modulo Z.leb]. unfold set_cons. cbn -[put_steps word Z.modulo Z.leb FifoSeek.krun].
  pose proof (Z.mod_pos_bound h cap ltac:(lia)).
  rewrite !(word_small W (h + 1)), (word_small W (h - cap)) by lia. rewrite run_put.
  - cbn -[word Z.modulo]. replace (h + 1 - (h - cap)) with (cap + 1) by lia. rewrite (word_small W (cap + 1)) by lia. reflexivity.
  - replace (h + 1 - (h - cap)) with (cap + 1) by lia. rewrite word_small by lia. lia.
  - lia.
  - rewrite zlen_zupd. exact Hb.
Qed.

Lemma back_races x : exists sched s' hist,
  krun (kinit cap h buf) sched = Ok (s', hist) /\ filter (by_thread Prod) hist = [Q (EInv Prod (Put x))] /\
  filter (by_thread Cons) hist = [SeekCall cap; SeekDone; Q (EInv Cons Get)] /\
  slot_access slot Prod (k_c s') = Some (Ok (h mod cap)) /\ slot_access slot Cons (k_c s') = Some (Ok (h mod cap)).
Proof using All.
  exists [Do (Invoke Prod (Put x)); Do (Step Prod); Do (Step Prod); Seek cap; KStep; KStep; KStep; Do (Invoke Cons Get); Do (Step Cons); Do (Step Cons)].
  pose proof (Z.mod_pos_bound h cap ltac:(lia)).
  do 2 eexists. unfold kinit, cinit. cbn -[word Z.modulo Z.eqb Z.leb]. rewrite Z.sub_diag, (word_small W 0) by lia. replace (0 =? cap) with false by lia.
  cbn -[word Z.modulo Z.eqb Z.leb]. replace (cap <=? h) with true by lia. cbn -[word Z.modulo Z.eqb Z.leb]. rewrite (word_small W (h - cap)) by lia.
  replace (h - cap =? h) with false by lia. cbn -[word Z.modulo]. split; [reflexivity|]. splits; try reflexivity; unfold slot_access; cbn -[Z.modulo]; rewrite Hs by lia; [reflexivity|].
  do 2 f_equal. replace (h - cap) with (h + (-1) * cap) by lia. apply Z.mod_add. lia.
Qed.
End Back.

Section BackFinal.
Context {T : Type}.
Variable dflt : T.
Lemma static_pos W k p : 0 <= k < W -> 0 <= p < 2 ^ W -> slot_static (2 ^ k) p = Ok (p mod 2 ^ k).
Proof using.
  intros Hk Hp. pose proof (pow2_pos k ltac:(lia)). rewrite <- (word_small W p) at 1 by lia. apply static_slot; [exact (ex_intro _ k (conj Hk eq_refl))|lia|].
  left. apply static_valid_div. exact (ex_intro _ k (conj Hk eq_refl)).
Qed.
Lemma dyn_pos W cap p : 0 <= W -> 0 < cap < 2 ^ W -> 0 <= p < 2 ^ W -> slot_dyn cap p = Ok (p mod cap).
Proof using. intros HW Hc Hp. rewrite <- (word_small W p) at 1 by lia. apply dyn_slot; unfold dyn_valid; try lia. right. lia. Qed.

Lemma seek_back W k h (buf : list T) x y : 0 <= k < W -> 2 ^ k <= h -> h + 2 < 2 ^ W -> zlen buf = 2 ^ k ->
  (exists sched s', krun W dflt slot_static (kinit (2 ^ k) h buf) sched =
     Ok (s', [SeekCall (2 ^ k); Q (EInv Prod (Put x)); Q (ERes Prod (RBool true)); SeekDone;
              Q (EInv Cons NumFilled); Q (ERes Cons (RNum (2 ^ k + 1))); Q (EInv Prod (Put y)); Q (ERes Prod (RBool true))])) /\
  (exists sched s' hist, krun W dflt slot_static (kinit (2 ^ k) h buf) sched = Ok (s', hist) /\
     filter (by_thread Prod) hist = [Q (EInv Prod (Put x))] /\ filter (by_thread Cons) hist = [SeekCall (2 ^ k); SeekDone; Q (EInv Cons Get)] /\
     slot_access slot_static Prod (k_c s') = Some (Ok (h mod 2 ^ k)) /\ slot_access slot_static Cons (k_c s') = Some (Ok (h mod 2 ^ k))).
Proof using All.
  intros Hk Hh H2 Hb. pose proof (pow2_pos k ltac:(lia)). split.
  - apply (back_overfills W dflt slot_static (2 ^ k) h buf); auto; try lia. intros; apply static_pos with W; auto.
  - apply (back_races W dflt slot_static (2 ^ k) h buf); auto; try lia. intros; apply static_pos with W; auto.
Qed.
Lemma seek_back_dyn W cap h (buf : list T) x y : 0 <= W -> 0 < cap <= h -> h + 2 < 2 ^ W -> zlen buf = cap ->
  (exists sched s', krun W dflt slot_dyn (kinit cap h buf) sched =
     Ok (s', [SeekCall cap; Q (EInv Prod (Put x)); Q (ERes Prod (RBool true)); SeekDone;
              Q (EInv Cons NumFilled); Q (ERes Cons (RNum (cap + 1))); Q (EInv Prod (Put y)); Q (ERes Prod (RBool true))])) /\
  (exists sched s' hist, krun W dflt slot_dyn (kinit cap h buf) sched = Ok (s', hist) /\
     filter (by_thread Prod) hist = [Q (EInv Prod (Put x))] /\ filter (by_thread Cons) hist = [SeekCall cap; SeekDone; Q (EInv Cons Get)] /\
     slot_access slot_dyn Prod (k_c s') = Some (Ok (h mod cap)) /\ slot_access slot_dyn Cons (k_c s') = Some (Ok (h mod cap))).
Proof using All.
  intros HW Hc H2 Hb. split.
  - apply (back_overfills W dflt slot_dyn cap h buf); auto; try lia. intros; apply dyn_pos with W; auto; lia.
  - apply (back_races W dflt slot_dyn cap h buf); auto; try lia. intros; apply dyn_pos with W; auto; lia.
Qed.
End BackFinal.

(** The counter has wrapped. *)
Lemma seek_wrapped {T} (dflt : T) W k (buf : list T) x y z : 2 <= k < W -> zlen buf = 2 ^ k ->
  exists sched s' puts, krun W dflt slot_static (kinit (2 ^ k) (2 ^ W - 2) buf) sched = Ok (s', puts ++ [SeekCall 2; SeekDone; Q (EInv Cons NumFilled); Q (ERes Cons (RNum 3))]) /\
    puts = flat_map (fun v => [Q (EInv Prod (Put v)); Q (ERes Prod (RBool true))]) [x; y; z].
Proof.
  intros Hk Hb. assert (H4 : 2 ^ 2 <= 2 ^ k) by (apply Z.pow_le_mono_r; lia). assert (HW : 2 * 2 ^ k <= 2 ^ W) by (rewrite <- Z.pow_succ_r by lia; apply Z.pow_le_mono_r; lia).
  assert (Hs : forall p, 0 <= p < 2 ^ W -> slot_static (2 ^ k) p = Ok (p mod 2 ^ k)) by (intros; apply static_pos with W; auto; lia).
  set (cap := 2 ^ k) in *. clearbody cap. set (M := 2 ^ W) in *.
  pose proof (run_put W dflt slot_static cap cap buf ltac:(lia) ltac:(unfold M in *; lia) Hs Hb) as RP.
  pose proof (krun_app W dflt slot_static cap cap buf ltac:(lia) ltac:(unfold M in *; lia) Hs Hb) as KA.
  exists (put_steps x ++ put_steps y ++ put_steps z ++ [Seek 2; KStep; KStep; KStep; Do (Invoke Cons NumFilled); Do (Step Cons); Do (Step Cons); Do (Step Cons)]).
  assert (W0 : word W (M - 2 - (M - 2)) = 0) by (rewrite Z.sub_diag; apply word_small; unfold M in *; lia).
  assert (W1 : word W (M - 2 + 1) = M - 1) by (replace (M - 2 + 1) with (M - 1) by lia; apply word_small; unfold M in *; lia).
  assert (W2 : word W (M - 1 - (M - 2)) = 1) by (replace (M - 1 - (M - 2)) with 1 by lia; apply word_small; unfold M in *; lia).
  assert (W3 : word W (M - 1 + 1) = 0) by (replace (M - 1 + 1) with M by lia; unfold word, M; apply Z.mod_same; lia).
  assert (W4 : word W (0 - (M - 2)) = 2) by (unfold word; fold M; symmetry; apply Z.mod_unique with (-1); lia).
  assert (W5 : word W (0 + 1) = 1) by (apply word_small; unfold M in *; lia).
  assert (W6 : word W (1 - (M - 2)) = 3) by (unfold word; fold M; symmetry; apply Z.mod_unique with (-1); lia).
  eexists. exists (flat_map (fun v => [Q (EInv Prod (Put v)); Q (ERes Prod (RBool true))]) [x; y; z]). split; [|reflexivity]. unfold kinit, cinit.
  rewrite KA. rewrite RP by (rewrite ?W0; lia || assumption). rewrite W1.
  rewrite KA. rewrite RP by (rewrite ?W2, ?zlen_zupd; lia || assumption). rewrite W3.
  rewrite KA. rewrite RP by (rewrite ?W4, ?zlen_zupd; lia || assumption). rewrite W5.
  cbn -[word Z.modulo Z.sub]. rewrite W6. reflexivity.
Qed.
