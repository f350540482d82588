(* CircularBuffer shared with an interrupt handler. *)
From Verif.Common Require Import Base Lemmas.
From Verif.Spec Require Import RingSpec IrqSpec.
From Verif.Model Require Import Circular Irq CircularIrq.
From Verif.Proofs Require Import Circular Irq.

Section CQ.
Context {T : Type}.
Variables (W k : Z).
Hypothesis Hk : 0 <= k < W.
Notation cap := (2 ^ k).
Notation qstep := (@cq_step T W cap).
Notation qmain := (@cq_main T W cap).
Notation sstep := (total (@lossless_step T cap)).

Definition Room (s : cbuf T) (q : list T) : Prop := Rel k s q /\ zlen q < cap.

Lemma room_full s q : Room s q -> cb_full s = false.
Proof using Hk. intros [(_ & _ & _ & _ & Hf & _) Hq]. rewrite Hf. lia. Qed.

Lemma put_ok (s : cbuf T) (q : list T) (x : T) : Rel k s q -> zlen q < cap -> exists s', cb_put W cap s x = Ok s' /\ Rel k s' (q ++ [x]) /\ cb_tail s' = cb_tail s.
Proof using Hk.
  intros HR Hq. pose proof (step_refines W k x Hk s q (RPut x) HR I) as X. cbn [cb_step ring_step] in X.
  replace (zlen q =? cap) with false in X by lia. destruct X as (s' & E & X). cbn in E.
  unfold cb_put in *. destruct (wr (cb_buf s) (cb_head s) x) as [b|?|] eqn:Ew; cbn [bind] in E; [|discriminate E..].
  eexists. split; [reflexivity|]. injection E as <-. split; [exact X|]. cbn. destruct HR as (_ & _ & _ & _ & Hf & _). rewrite Hf.
  replace (zlen q =? cap) with false by lia. reflexivity.
Qed.

Lemma puts_run : forall l, Forall puts l -> forall s q, Room s q ->
  exists s' more qs, run qstep s l = Ok (s', qs) /\ run sstep q l = Ok (q ++ more, qs) /\ Room s' (q ++ more) /\ cb_tail s' = cb_tail s.
Proof using Hk.
  intros l H. induction H as [|o l [x ->] _ IH]; intros s q HR.
  - exists s, [], []. rewrite app_nil_r. auto.
  - destruct HR as [HR Hq]. cbn [run]. unfold total at 1. cbn [lossless_step cq_step]. rewrite (count_ok W k Hk s q HR).
    destruct (zlen q <? cap - 1) eqn:E.
    + destruct (put_ok s q x HR Hq) as (s1 & -> & HR1 & Ht). cbn [bind].
      destruct (IH s1 (q ++ [x])) as (s' & more & qs & E1 & E2 & HR' & Ht'); [split; [exact HR1|]; rewrite zlen_app; change (zlen [x]) with 1; lia|].
      exists s', ([x] ++ more), (OBool true :: qs). rewrite E1, E2. rewrite app_assoc. cbn [bind]. split; [reflexivity|]. split; [reflexivity|]. split; [exact HR'|congruence].
    + cbn [bind]. destruct (IH s q) as (s' & more & qs & E1 & E2 & HR' & Ht'); [split; assumption|].
      exists s', more, (OBool false :: qs). rewrite E1, E2. auto.
Qed.

(* the call [m] takes effect at some moment from now on; it has taken effect with result [r] *)
Definition lin (m : qop T) (q : list T) (gaps : list (list (qop T))) (res : outcome (cbuf T * rout T * list (rout T))) : Prop :=
  exists s1 r qq a b qa qb q', res = Ok (s1, r, qq) /\ concat gaps = a ++ b /\ length qa = length a /\ qq = qa ++ qb /\
    run sstep q (a ++ m :: b) = Ok (q', qa ++ r :: qb) /\ Room s1 q'.
Definition done (r : rout T) (q : list T) (gaps : list (list (qop T))) (res : outcome (cbuf T * rout T * list (rout T))) : Prop :=
  exists s1 qq q', res = Ok (s1, r, qq) /\ run sstep q (concat gaps) = Ok (q', qq) /\ Room s1 q'.

Lemma lin_now m r q q2 gaps res : lossless_step cap q m = (q2, r) -> done r q2 gaps res -> lin m q gaps res.
Proof using Hk.
  intros E (s1 & qq & q' & -> & E2 & HR). exists s1, r, qq, [], (concat gaps), [], qq, q'. cbn [app].
  do 4 (split; [reflexivity|]). split; [|exact HR]. cbn [run]. unfold total at 1. rewrite E. cbn [bind]. rewrite E2. reflexivity.
Qed.
Lemma done_ret r s q gaps : Room s q -> Forall (Forall puts) gaps -> done r q gaps (iexec qstep (Ret r) s gaps).
Proof using Hk.
  intros HR HG. destruct (puts_run (concat gaps) (proj2 (proj2 (Forall_parts _ _ HG))) s q HR) as (s' & more & qs & E1 & E2 & HR' & _).
  exists s', qs, (q ++ more). cbn [iexec]. rewrite E1. auto.
Qed.
Lemma done_acc r f s q gaps : Room s q -> Forall (Forall puts) gaps ->
  (forall s1 more, Room s1 (q ++ more) -> cb_tail s1 = cb_tail s -> exists s2 p, f s1 = Ok (s2, p) /\ done r (q ++ more) (tl gaps) (iexec qstep p s2 (tl gaps))) ->
  done r q gaps (iexec qstep (Acc f) s gaps).
Proof using Hk.
  intros HR HG H. destruct (puts_run (hd [] gaps) (proj1 (Forall_parts _ _ HG)) s q HR) as (s1 & more & qs & E1 & E2 & HR1 & Ht).
  destruct (H s1 more HR1 Ht) as (s2 & p & Ef & s3 & qq & q' & E3 & E4 & HR3).
  exists s3, (qs ++ qq), q'. cbn [iexec]. rewrite E1. cbn [bind]. rewrite Ef, E3. cbn [bind]. split; [reflexivity|]. split; [|exact HR3].
  rewrite (concat_hd gaps). eapply run_cat_ok; eauto.
Qed.
Lemma lin_acc m f s q gaps : Room s q -> Forall (Forall puts) gaps ->
  (forall s1 more, Room s1 (q ++ more) -> cb_tail s1 = cb_tail s -> exists s2 p, f s1 = Ok (s2, p) /\ lin m (q ++ more) (tl gaps) (iexec qstep p s2 (tl gaps))) ->
  lin m q gaps (iexec qstep (Acc f) s gaps).
Proof using Hk.
  intros HR HG H. destruct (puts_run (hd [] gaps) (proj1 (Forall_parts _ _ HG)) s q HR) as (s1 & more & qs & E1 & E2 & HR1 & Ht).
  destruct (H s1 more HR1 Ht) as (s2 & p & Ef & s3 & r & qq & a & b & qa & qb & q' & E3 & Ec & El & -> & E4 & HR3).
  exists s3, r, (qs ++ qa ++ qb), (hd [] gaps ++ a), b, (qs ++ qa), qb, q'. cbn [iexec]. rewrite E1. cbn [bind]. rewrite Ef, E3. cbn [bind]. split; [reflexivity|].
  split; [rewrite (concat_hd gaps), Ec; apply app_assoc|]. split; [rewrite !app_length, (run_size _ _ _ _ _ E1); congruence|]. split; [apply app_assoc|]. split; [|exact HR3].
  rewrite <- !app_assoc. eapply run_cat_ok; eauto.
Qed.

Lemma room_empty s q : Room s q -> (cb_head s =? cb_tail s) = (zlen q =? 0).
Proof using Hk. intros HR. pose proof (empty_ok W k Hk s q (proj1 HR)) as X. unfold cb_empty in X. rewrite (room_full _ _ HR) in X. exact X. Qed.
Lemma set_same s q : Room s q -> set_full false s = s.
Proof using Hk. intros HR. pose proof (room_full _ _ HR) as X. destruct s as [b h t f]. cbn in *. subst f. reflexivity. Qed.
Lemma take_room s x q t : Room s (x :: q) -> t = cb_tail s -> rd (cb_buf s) t = Ok x /\ Room (set_tl (inc W cap t) s) q.
Proof using Hk.
  intros HR ->. pose proof (room_full _ _ HR) as X. destruct (take_ok W k Hk s x q (proj1 HR)) as [E HR']. split; [exact E|].
  split; [unfold set_tl; rewrite X; exact HR'|]. destruct HR as [_ HR]. rewrite zlen_cons in HR. lia.
Qed.

Ltac access s more HR Ht := match goal with |- lin _ _ _ (iexec _ _ _ ?g) => apply lin_acc; [assumption|assumption|]; intros s more HR Ht; cbn beta iota; do 2 eexists; split; [try reflexivity|] end.

Lemma inc_tail_lin m r s x q gaps : Room s (x :: q) -> Forall (Forall puts) gaps -> (forall more, lossless_step cap (x :: q ++ more) m = (q ++ more, r)) ->
  lin m (x :: q) gaps (iexec qstep (inc_tail W cap (Ret r)) s gaps).
Proof using Hk.
  intros HR HG Hm. unfold inc_tail, load, store. pose proof (proj1 (proj2 (Forall_parts _ _ HG))) as HG1. pose proof (proj1 (proj2 (Forall_parts _ _ HG1))) as HG2.
  access s1 m1 HR1 Ht1. cbn [app] in *. access s2 m2 HR2 Ht2. cbn [app] in *. rewrite <- !app_assoc in *.
  eapply lin_now; [apply Hm|]. apply done_ret; [|exact HG2]. apply (take_room s2 x); [exact HR2|congruence].
Qed.

Lemma get_lin m s q gaps : takes m -> Room s q -> Forall (Forall puts) gaps -> lin m q gaps (iexec qstep (qmain m) s gaps).
Proof using Hk.
  intros Hm HR HG. pose proof (proj1 (proj2 (Forall_parts _ _ HG))) as HG1. pose proof (proj1 (proj2 (Forall_parts _ _ HG1))) as HG2.
  pose proof (proj1 (proj2 (Forall_parts _ _ HG2))) as HG3. pose proof (proj1 (proj2 (Forall_parts _ _ HG3))) as HG4.
  pose proof (proj1 (proj2 (Forall_parts _ _ HG4))) as HG5. pose proof (proj1 (proj2 (Forall_parts _ _ HG5))) as HG6.
  assert (K : forall no, (forall s x q, Room s (x :: q) -> lin m (x :: q) (tl (tl (tl gaps))) (iexec qstep no s (tl (tl (tl gaps))))) ->
    forall r, lossless_step cap [] m = ([], r) -> lin m q gaps (iexec qstep (if_empty (Ret r) no) s gaps)).
  { intros no Hno r Hr. unfold if_empty, load. access s0 m0 HR0 Ht0. rewrite (room_full _ _ HR0). access s1 m1 HR1 Ht1.
    rewrite <- app_assoc in *. destruct (q ++ m0 ++ m1) as [|x qq] eqn:EQ.
    - eapply lin_now; [exact Hr|]. apply done_acc; [assumption|assumption|]. intros s2 m2 HR2 Ht2. do 2 eexists. split; [reflexivity|].
      pose proof (room_empty _ _ HR1) as X. rewrite Ht2, X. change (zlen [] =? 0) with true. cbn beta iota. apply done_ret; assumption.
    - access s2 m2 HR2 Ht2. pose proof (room_empty _ _ HR1) as X. rewrite Ht2, X. rewrite zlen_cons. pose proof (zlen_nonneg qq). replace (zlen qq + 1 =? 0) with false by lia.
      cbn [app] in *. apply Hno. exact HR2. }
  destruct Hm as [-> | ->]; cbn [cq_main]; apply K; try reflexivity; clear K s q HR; intros s x q HR.
  - unfold load. access s3 m3 HR3 Ht3. cbn [app] in *. unfold load_item. apply lin_acc; [assumption|assumption|]. intros s4 m4 HR4 Ht4.
    cbn [app] in HR4. destruct (take_room s4 x _ (cb_tail s3) HR4 ltac:(congruence)) as [E _]. rewrite E. cbn [bind]. do 2 eexists. split; [reflexivity|].
    unfold store. cbn [app] in *. access s5 m5 HR5 Ht5. rewrite (set_same _ _ HR5). apply inc_tail_lin; [exact HR5|assumption|]. intros more. reflexivity.
  - unfold store. access s3 m3 HR3 Ht3. rewrite (set_same _ _ HR3). cbn [app] in *. apply inc_tail_lin; [exact HR3|assumption|]. intros more. reflexivity.
Qed.

Lemma lossless_lin : forall h, Forall (calls_by takes puts) h -> forall s q, Room s q ->
  exists s' q' rs qs, irun qstep qmain s h = Ok (s', rs, qs) /\ atomically sstep q h rs qs q'.
Proof using Hk.
  intros h H. induction H as [|c h Hc _ IH]; intros s q HR.
  - exists s, q, [], []. split; [reflexivity|constructor].
  - destruct c as [i|m gaps]; cbn in Hc.
    + destruct (puts_run [i] ltac:(constructor; [exact Hc|constructor]) s q HR) as (s1 & more & qs & E1 & E2 & HR1 & _).
      cbn [run] in E1, E2. destruct (qstep s i) as [[s1' r]|?|] eqn:E3; cbn [bind] in E1; [|discriminate E1..]. injection E1 as -> <-.
      destruct (sstep q i) as [[q1 r']|?|] eqn:E4; cbn [bind] in E2; [|discriminate E2..]. injection E2 as -> <-.
      destruct (IH _ _ HR1) as (s' & q' & rs & qs & F1 & F2). exists s', q', rs, (r' :: qs). cbn [irun]. rewrite E3. cbn [bind]. rewrite F1. split; [reflexivity|]. econstructor; eauto.
    + destruct Hc as [Hm Hg]. destruct (get_lin m s q gaps Hm HR Hg) as (s1 & r & qq & a & b & qa & qb & q1 & E1 & Ec & El & -> & E2 & HR1).
      destruct (IH _ _ HR1) as (s' & q' & rs & qs & F1 & F2). exists s', q', (r :: rs), ((qa ++ qb) ++ qs). cbn [irun]. rewrite E1. cbn [bind fst snd]. rewrite F1. split; [reflexivity|].
      rewrite <- app_assoc. econstructor; eauto.
Qed.

(* ---- what fails ---- *)
Ltac stp := cbn [irun iexec cq_main if_empty load load_item store store_item inc_tail inc_head run hd tl bind cq_step concat app fst snd].
Lemma fill_ok : forall q s p, Rel k s p -> zlen p + zlen q <= cap -> exists s' o, run qstep s (map QPutAny q) = Ok (s', o) /\ Rel k s' (p ++ q) /\ cb_tail s' = cb_tail s.
Proof using Hk.
  induction q as [|x q IH]; intros s p HR Hl.
  - exists s, []. rewrite app_nil_r. auto.
  - rewrite zlen_cons in Hl. pose proof (zlen_nonneg q). destruct (put_ok s p x HR ltac:(lia)) as (s1 & E & HR1 & Ht).
    destruct (IH s1 (p ++ [x]) HR1) as (s' & o & E1 & HR' & Ht'); [rewrite zlen_app; change (zlen [x]) with 1; lia|].
    exists s', (OUnit :: o). cbn [map run cq_step]. rewrite E. cbn [bind]. rewrite E1. cbn [bind]. rewrite <- app_assoc in HR'. split; [reflexivity|]. split; [exact HR'|congruence].
Qed.
Lemma start_ok (buf : list T) t : zlen buf = cap -> 0 <= t < cap -> Rel k (CBuf buf t t false) [].
Proof using Hk.
  intros Hb Ht. unfold Rel. cbn [cb_buf cb_head cb_tail cb_full]. change (zlen (@nil T)) with 0.
  split; [exact Hb|]. split; [exact Ht|]. split; [lia|]. split; [rewrite Z.add_0_r, Z.mod_small; lia|]. split; [lia|]. intros i Hi. lia.
Qed.
Lemma drain : forall q s, Rel k s q -> exists s', run qstep s (repeat QGet (length q + 1)) = Ok (s', map (fun x => OOpt (Some x)) q ++ [OOpt None]).
Proof using Hk.
  induction q as [|x q IH]; intros s HR.
  - exists s. cbn [length Nat.add repeat run cq_step]. unfold cb_get_opt. rewrite (empty_ok W k Hk s [] HR). reflexivity.
  - destruct (take_ok W k Hk s x q HR) as [E HR']. destruct (IH _ HR') as (s' & E').
    exists s'. cbn [length Nat.add repeat run cq_step]. unfold cb_get_opt. rewrite (empty_ok W k Hk s _ HR), zlen_cons. pose proof (zlen_nonneg q).
    replace (zlen q + 1 =? 0) with false by lia. rewrite E. cbn [bind]. rewrite E'. reflexivity.
Qed.

Lemma item_skipped (buf : list T) t a b q x : zlen buf = cap -> 0 <= t < cap -> zlen (a :: b :: q) = cap ->
  exists s o s1 s2, run qstep (CBuf buf t t false) (map QPutAny (a :: b :: q)) = Ok (s, o) /\
    irun qstep qmain s [Call QGet [[]; []; []; [QPutAny x]]] = Ok (s1, [OOpt (Some a)], [OUnit]) /\
    run qstep s1 (repeat QGet (length (q ++ [x]) + 1)) = Ok (s2, map (fun v => OOpt (Some v)) (q ++ [x]) ++ [OOpt None]).
Proof using Hk.
  intros Hb Ht Hl. destruct (fill_ok (a :: b :: q) _ [] (start_ok buf t Hb Ht)) as (s & o & E & HR & _); [change (zlen (@nil T)) with 0; lia|]. cbn [app] in HR.
  pose proof (step_refines W k x Hk s _ (RPut x) HR I) as X. cbn [cb_step ring_step fst snd tl] in X. rewrite Hl, Z.eqb_refl in X. destruct X as (s3 & Ep & HR3).
  destruct (cb_put W cap s x) as [s3'|?|] eqn:Ep'; cbn [bind] in Ep; [|discriminate Ep..]. injection Ep as <-.
  destruct (take_ok W k Hk s a _ HR) as [Ea _]. destruct (take_ok W k Hk s3' b _ HR3) as [_ HR4]. destruct (drain _ _ HR4) as (s2 & Ed).
  assert (F : cb_full s = true). { destruct HR as (_ & _ & _ & _ & Hf & _). rewrite Hf, Hl. apply Z.eqb_refl. }
  exists s, o, (CBuf (cb_buf s3') (cb_head s3') (inc W cap (cb_tail s3')) false), s2. split; [exact E|]. split; [|exact Ed].
  stp. rewrite F. stp. rewrite Ea. stp. rewrite Ep'. reflexivity.
Qed.

Lemma room_lost (buf : list T) t a b q x y : zlen buf = cap -> 0 <= t < cap -> zlen (a :: b :: q) = cap - 1 ->
  exists s o s1 s2, run qstep (CBuf buf t t false) (map QPutAny (a :: b :: q)) = Ok (s, o) /\
    irun qstep qmain s [Call QGet [[]; []; []; []; []; []; []; [QPutAny x]]; Irq (QPutAny y)] = Ok (s1, [OOpt (Some a)], [OUnit; OUnit]) /\
    run qstep s1 (repeat QGet (length (q ++ [x; y]) + 1)) = Ok (s2, map (fun v => OOpt (Some v)) (q ++ [x; y]) ++ [OOpt None]).
Proof using Hk.
  intros Hb Ht Hl. destruct (fill_ok (a :: b :: q) _ [] (start_ok buf t Hb Ht)) as (s & o & E & HR & _); [change (zlen (@nil T)) with 0; lia|]. cbn [app] in HR.
  destruct (put_ok s _ x HR ltac:(lia)) as (s3 & Ep & HR3 & T3). cbn [app] in HR3.
  destruct (take_ok W k Hk s a _ HR) as [Ea _]. destruct (take_ok W k Hk s3 a _ HR3) as [_ HR4].
  assert (L : zlen (b :: q ++ [x]) = cap - 1). { rewrite !zlen_cons in *. rewrite zlen_app. change (zlen [x]) with 1. lia. }
  destruct (put_ok _ _ y HR4 ltac:(lia)) as (s5 & Ep5 & HR5 & T5). cbn [app] in HR5. rewrite <- app_assoc in HR5. cbn [app] in HR5.
  destruct (take_ok W k Hk s5 b _ HR5) as [_ HR6]. destruct (drain _ _ HR6) as (s2 & Ed).
  exists s, o, (CBuf (cb_buf s5) (cb_head s5) (inc W cap (cb_tail s5)) false), s2. split; [exact E|]. split; [|exact Ed].
  assert (RM : Room s (a :: b :: q)) by (split; [exact HR|lia]).
  stp. rewrite (room_full _ _ RM). stp. rewrite (room_empty _ _ RM).
  rewrite zlen_cons. pose proof (zlen_nonneg (b :: q)). replace (zlen (b :: q) + 1 =? 0) with false by lia.
  stp. rewrite Ea. stp. rewrite (set_same _ _ RM). stp. rewrite Ep. stp.
  unfold cb_put in Ep5 |- *. cbn [cb_buf cb_head cb_tail cb_full] in Ep5. unfold set_tl. cbn [cb_buf cb_head cb_tail cb_full]. rewrite <- T3.
  destruct (wr (cb_buf s3) (cb_head s3) y) as [bb|?|]; cbn [bind] in Ep5 |- *; [|discriminate Ep5..]. injection Ep5 as <-. cbn [cb_buf cb_head cb_tail cb_full] in *.
  destruct HR3 as (_ & _ & _ & _ & F3 & _). replace (zlen (a :: b :: q ++ [x]) =? cap) with true in F3 by (rewrite zlen_cons; lia). rewrite F3. cbn [fst snd].
  pose proof (empty_ok W k Hk _ _ HR6) as X. unfold cb_empty in X. cbn [cb_buf cb_head cb_tail cb_full negb andb] in X. rewrite X, zlen_app. change (zlen [x; y]) with 2. pose proof (zlen_nonneg q). replace (zlen q + 2 =? 0) with false by lia. reflexivity.
Qed.

Lemma count_wrong (buf : list T) t q x : zlen buf = cap -> 0 < t < cap -> zlen q = cap - 1 - t ->
  exists s o s1, run qstep (CBuf buf t t false) (map QPutAny q) = Ok (s, o) /\
    irun qstep qmain s [Call QCount [[]; []; []; [QPutAny x]]] = Ok (s1, [ONum (2 ^ W - t)], [OUnit]).
Proof using Hk.
  intros Hb Ht Hl. destruct (fill_ok q _ [] (start_ok buf t Hb ltac:(lia))) as (s & o & E & HR & T1); [change (zlen (@nil T)) with 0; lia|]. cbn [app cb_tail] in *.
  destruct (put_ok s _ x HR ltac:(lia)) as (s3 & Ep & HR3 & T3).
  exists s, o, s3. split; [exact E|]. assert (RM : Room s q) by (split; [exact HR|lia]).
  assert (H0 : cb_head s = cap - 1). { destruct HR as (_ & _ & _ & Hh & _). rewrite Hh, T1, Hl. rewrite Z.mod_small; lia. }
  assert (H3 : cb_head s3 = 0). { destruct HR3 as (_ & _ & _ & Hh & _). rewrite Hh, T3, T1, zlen_app, Hl. change (zlen [x]) with 1. replace (t + (cap - 1 - t + 1)) with cap by lia. apply Z_mod_same_full. }
  stp. rewrite (room_full _ _ RM). stp. rewrite H0, T1. replace (cap - 1 >=? t) with true by lia.
  stp. rewrite Ep. stp. rewrite H3, T3, T1. do 4 f_equal. unfold word.
  pose proof (cap_bounds W k Hk) as [Hc HW]. replace (0 - t) with (2 ^ W - t + (-1) * 2 ^ W) by lia. rewrite Z_mod_plus_full, Z.mod_small by lia. reflexivity.
Qed.

Lemma hidden_items (buf : list T) t q x : zlen buf = cap -> 0 <= t < cap -> 1 <= zlen q -> zlen q = cap - 1 ->
  exists s o s1 s2, run qstep (CBuf buf t t false) (map QPutAny q) = Ok (s, o) /\
    irun qstep qmain s [Call (QPutAny x) [[]; []; []; []; []; [QGet]]] = Ok (s1, [OUnit], [OOpt None]) /\
    run qstep s1 (repeat QGet (length (q ++ [x]) + 1)) = Ok (s2, map (fun v => OOpt (Some v)) (q ++ [x]) ++ [OOpt None]).
Proof using Hk.
  intros Hb Ht Hp Hl. destruct (fill_ok q _ [] (start_ok buf t Hb Ht)) as (s & o & E & HR & T1); [change (zlen (@nil T)) with 0; lia|]. cbn [app cb_tail] in *.
  destruct (put_ok s _ x HR ltac:(lia)) as (s3 & Ep & HR3 & T3). destruct (drain _ _ HR3) as (s2 & Ed).
  exists s, o, s3, s2. split; [exact E|]. split; [|exact Ed]. assert (RM : Room s q) by (split; [exact HR|lia]).
  pose proof (empty_ok W k Hk _ _ HR3) as X. pose proof HR3 as (_ & _ & _ & _ & F3 & _). unfold cb_put in Ep. rewrite (room_full _ _ RM) in Ep.
  stp. destruct (wr (cb_buf s) (cb_head s) x) as [bb|?|]; cbn [bind] in Ep |- *; [|discriminate Ep..]. injection Ep as <-.
  cbn [cb_buf cb_head cb_tail cb_full] in *. stp. unfold set_buf at 1. cbn [cb_full]. rewrite (room_full _ _ RM).
  stp. unfold set_buf, set_hd, cb_get_opt, cb_empty. cbn [cb_buf cb_head cb_tail cb_full].
  assert (F : (inc W cap (cb_head s) =? cb_tail s) = true). { rewrite F3, zlen_app, Hl. change (zlen [x]) with 1. lia. }
  rewrite F, (room_full _ _ RM). stp. unfold set_full. cbn [cb_buf cb_head cb_tail cb_full]. cbn [negb andb]. stp. cbn [cb_buf cb_head cb_tail cb_full]. rewrite ?F. reflexivity.
Qed.

Lemma stale_items (buf : list T) t x old : 1 <= k -> zlen buf = cap -> 0 <= t < cap -> znth buf ((t + 1) mod cap) = Some old ->
  exists s1 s2, irun qstep qmain (CBuf buf t t false) [Call (QPutAny x) [[]; []; []; []; []; [QGet]]] = Ok (s1, [OUnit], [OOpt (Some x)]) /\
    run qstep s1 [QCount; QGet] = Ok (s2, [ONum cap; OOpt (Some old)]).
Proof using Hk.
  intros K1 Hb Ht Ho. assert (K2 : 2 <= cap) by (change 2 with (2 ^ 1); apply Z.pow_le_mono_r; lia).
  assert (I1 : inc W cap t = (t + 1) mod cap) by (apply (inc_ok W k Hk); exact Ht).
  assert (N : (t + 1) mod cap <> t).
  { intros X. assert (Y : (t + 1) mod cap = (if t + 1 =? cap then 0 else t + 1)). { destruct (Z.eqb_spec (t + 1) cap) as [e|e]; [rewrite e; apply Z_mod_same_full|apply Z.mod_small; lia]. } destruct (Z.eqb_spec (t + 1) cap); lia. }
  pose proof (Z.mod_pos_bound (t + 1) cap ltac:(lia)) as M.
  set (b' := zupd buf t x).
  assert (Lb : zlen b' = cap) by (unfold b'; rewrite zlen_zupd; exact Hb).
  assert (R0 : rd b' t = Ok x). { unfold rd, b'. rewrite znth_zupd_eq by lia. reflexivity. }
  assert (R1 : rd b' ((t + 1) mod cap) = Ok old). { unfold rd, b'. rewrite znth_zupd_ne by congruence. rewrite Ho. reflexivity. }
  exists (CBuf b' ((t + 1) mod cap) ((t + 1) mod cap) true), (CBuf b' ((t + 1) mod cap) (inc W cap ((t + 1) mod cap)) false). split.
  - stp. cbn [cb_buf cb_head cb_tail cb_full]. rewrite (wr_ok buf t x) by lia. fold b'. stp. cbn [cb_buf cb_head cb_tail cb_full set_buf]. stp. unfold set_buf, set_hd, cb_get_opt, cb_empty. cbn [cb_buf cb_head cb_tail cb_full negb andb]. rewrite I1.
    replace ((t + 1) mod cap =? t) with false by lia. rewrite R0. stp. cbn [cb_buf cb_head cb_tail cb_full]. unfold set_full. cbn [cb_buf cb_head cb_tail cb_full]. rewrite Z.eqb_refl. reflexivity.
  - stp. unfold cb_count, cb_get_opt, cb_empty. cbn [cb_buf cb_head cb_tail cb_full negb andb]. rewrite R1. reflexivity.
Qed.
End CQ.
Lemma from_empty {T} W k (buf : list T) t h : 0 <= k < W -> zlen buf = 2 ^ k -> 0 <= t < 2 ^ k -> Forall (calls_by takes puts) h ->
  exists s' items rs qs, irun (cq_step W (2 ^ k)) (cq_main W (2 ^ k)) (CBuf buf t t false) h = Ok (s', rs, qs) /\
    atomically (total (lossless_step (2 ^ k))) [] h rs qs items.
Proof.
  intros Hk Hb Ht Hh. destruct (lossless_lin W k Hk h Hh (CBuf buf t t false) []) as (s' & q' & rs & qs & E & A).
  - split; [apply (start_ok W k Hk); assumption|]. change (zlen (@nil T)) with 0. lia.
  - exists s', q', rs, qs. auto.
Qed.

Lemma uninterrupted_ring {T} W cap (s : cbuf T) o : irun (cq_step W cap) (cq_main W cap) s [Call o []] =
  match cq_step W cap s o with Ok (s', r) => Ok (s', [r], []) | UB k => UB k | OutOfFuel => OutOfFuel end.
Proof.
  destruct s as [b h t f], o; cbn -[word inc rd wr Z.eqb Z.geb]; unfold cb_put, cb_get_opt, cb_remove_first, cb_count, cb_empty; cbn -[word inc rd wr Z.eqb Z.geb].
  all: try destruct (wr b h x); try destruct f; cbn -[word inc rd wr Z.eqb Z.geb]; try reflexivity.
  all: repeat match goal with |- context[if ?b then _ else _] => destruct b; cbn -[word inc rd wr Z.eqb Z.geb] end; try reflexivity.
  all: try destruct (wr b h x); try destruct (rd b t); cbn -[word inc rd wr Z.eqb Z.geb]; reflexivity.
Qed.
