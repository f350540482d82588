(* SeqMap shared with an interrupt handler. *)
From Verif.Common Require Import Base Lemmas Lists.
From Verif.Spec Require Import MapSpec MapIrqSpec.
From Verif.Model Require Import Maps Irq MapIrq.
From Verif.Proofs Require Import Maps SeqMap Irq Readers.

Section SQ.
Context {K V : Type}.
Variables (keq : K -> K -> bool) (N : Z) (dk : K) (dv : V).
Hypothesis HN : 0 < N.
Notation step := (q_step keq N dk dv).
Notation St := (seqmap K V).
Definition qspec (q : list (K * V) * Z) (o : qmop K V) (r : mout K V) (q' : list (K * V) * Z) : Prop := slot_step keq dk dv N q o = (q', r).
Definition qabs (s : St) : list (K * V) * Z := (q_slots s, q_oldest s).
(* the position of the oldest entry may be one too far for a moment *)
Definition qinv (s : St) : Prop := zlen (q_keys s) = N /\ zlen (q_vals s) = N /\ 0 <= q_sz s <= N.
Definition qok (s : St) : Prop := qinv s /\ 0 <= q_oldest s < N.

Lemma combine_map {A B} : forall (l : list (A * B)), combine (map fst l) (map snd l) = l.
Proof using All. induction l as [|[a b] l IH]; cbn; [reflexivity|]. f_equal. exact IH. Qed.
Lemma map_combine {A B} : forall (a : list A) (b : list B), length a = length b -> map fst (combine a b) = a /\ map snd (combine a b) = b.
Proof using All. induction a as [|x a IH]; intros [|y b] H; cbn in *; try discriminate; auto. injection H as H. destruct (IH b H) as [-> ->]. auto. Qed.
Lemma slots_keys s : qinv s -> map fst (q_slots s) = firstn (Z.to_nat (q_sz s)) (q_keys s) /\ map snd (q_slots s) = firstn (Z.to_nat (q_sz s)) (q_vals s).
Proof using All. intros (H1 & H2 & H3). apply map_combine. rewrite !firstn_length. unfold zlen in *. lia. Qed.
Lemma slots_len s : qinv s -> zlen (q_slots s) = q_sz s.
Proof using All. intros H. rewrite <- (SeqMap.zlen_map fst). rewrite (proj1 (slots_keys s H)). destruct H as (H1 & H2 & H3). apply zlen_firstn. lia. Qed.
Lemma rel_of s : qok s -> QRel N s (qabs s).
Proof using All. intros [H Ho]. pose proof (slots_len s H) as HL. destruct (slots_keys s H) as [HA HB]. destruct H as (H1 & H2 & H3). unfold QRel, qabs. cbn [fst snd]. splits; auto; lia. Qed.
Lemma rel_abs s q : QRel N s q -> q = qabs s /\ qok s.
Proof using All.
  intros (H1 & H2 & H3 & H4 & H5 & H6 & H7 & H8). destruct q as [l o]. cbn [fst snd] in *. pose proof (zlen_nonneg l). split; [|split; [split|]; auto; lia].
  unfold qabs, q_slots. rewrite H7, H8, combine_map, H5. reflexivity.
Qed.
Lemma qwhole s m : qok s -> exists s' r, step s m = Ok (s', r) /\ qspec (qabs s) m r (qabs s') /\ qok s'.
Proof using All.
  intros H. destruct (q_refines keq N dk dv HN s (qabs s) m (rel_of s H)) as (s' & E & HR). destruct (rel_abs _ _ HR) as [Ha Hk].
  exists s', (snd (slot_step keq dk dv N (qabs s) m)). split; [exact E|]. split; [|exact Hk]. unfold qspec. rewrite <- Ha. apply surjective_pairing.
Qed.
Lemma qstep_spec s m s' r : qok s -> step s m = Ok (s', r) -> qspec (qabs s) m r (qabs s') /\ qok s'.
Proof using All. intros H E. destruct (qwhole s m H) as (s1 & r1 & E1 & Hp & Hi). rewrite E in E1. injection E1 as <- <-. auto. Qed.

(* looking *)
Lemma qlooks s o : qinv s -> q_reads o -> exists r, step s o = Ok (s, r) /\ qspec (qabs s) o r (qabs s).
Proof using All.
  intros H Hr. set (s0 := SeqMap (q_keys s) (q_vals s) (q_sz s) 0). assert (H0 : qok s0) by (split; [exact H|cbn; lia]).
  destruct (qwhole s0 o H0) as (s' & r & E & Hp & _). exists r. destruct s as [ks vs sz old]. unfold qabs, qspec in *. change (q_slots s0) with (q_slots (SeqMap ks vs sz old)) in Hp.
  destruct o; cbn in Hr; try contradiction; cbn [slot_step] in *; cbn [q_step] in *; unfold q_get, q_exists, active in *; cbn in E; cbn.
  - destruct (sz <=? zlen ks); [|discriminate E]. cbn in *. destruct (find_key keq k 0 (firstn (Z.to_nat sz) ks)); [destruct (rd vs z); cbn in *; try discriminate E|cbn in *]; injection E as <- <-; injection Hp as <-; auto.
  - destruct (sz <=? zlen ks); [|discriminate E]. cbn in *. injection E as <- <-. injection Hp as <-. auto.
  - injection E as <- <-. split; [reflexivity|]. congruence.
Qed.

Notation bef := (before step qspec qabs q_reads).
Notation aft := (after step qspec qabs q_reads).

Lemma scan_quiet s key found missing : forall n i, qinv s -> 0 <= i -> i + Z.of_nat n = q_sz s ->
  quiet s (scan_keys keq key n i found missing) (match key_index keq key i (skipn (Z.to_nat i) (q_slots s)) with Some j => found j | None => missing end).
Proof using All.
  induction n as [|n IH]; intros i H Hi Hn; cbn [scan_keys]; pose proof (slots_len s H) as HL.
  - rewrite skipn_all2 by (unfold zlen in HL; lia). cbn. constructor.
  - destruct (znth_some (q_slots s) i) as [[k' v'] He]; [lia|].
    assert (Hk : znth (q_keys s) i = Some k').
    { assert (X : znth (map fst (q_slots s)) i = Some k') by (rewrite SeqMap.znth_map, He; reflexivity). rewrite (proj1 (slots_keys s H)), znth_firstn_if in X. replace (i <? q_sz s) with true in X by lia. exact X. }
    assert (Hs : skipn (Z.to_nat i) (q_slots s) = (k', v') :: skipn (Z.to_nat (i + 1)) (q_slots s)).
    { apply znth_opt_ext. intros j Hj. rewrite znth_cons, !znth_skipn by lia. destruct (Z.eqb_spec j 0) as [->|]; [rewrite Z.add_0_r; exact He|].
      replace (j <? 0) with false by lia. rewrite znth_skipn by lia. f_equal. lia. }
    rewrite Hs. cbn [key_index fst]. eapply quiet_acc; [cbn; rewrite (rd_ok _ _ _ Hk); reflexivity|].
    destruct (keq k' key); [constructor|]. apply IH; auto; lia.
Qed.
Lemma look_quiet s key found missing : qinv s -> quiet s (look_for keq key found missing) (match key_index keq key 0 (q_slots s) with Some j => found j | None => missing end).
Proof using All.
  intros H. unfold look_for. pose proof H as (H1 & H2 & H3). eapply quiet_acc; [cbn; replace (q_sz s <=? zlen (q_keys s)) with true by lia; reflexivity|].
  pose proof (scan_quiet s key found missing (Z.to_nat (q_sz s)) 0 H ltac:(lia) ltac:(lia)) as Q. cbn [Z.to_nat skipn] in Q. exact Q.
Qed.
(* finding in the model of the uninterrupted call *)
Lemma find_quiet s key : qinv s -> active s = Ok (map fst (q_slots s)) /\ find_key keq key 0 (map fst (q_slots s)) = key_index keq key 0 (q_slots s).
Proof using All.
  intros H. split; [|apply find_key_index]. unfold active. destruct (slots_keys s H) as [-> _]. destruct H as (H1 & H2 & H3). replace (q_sz s <=? zlen (q_keys s)) with true by lia. reflexivity.
Qed.

(* a slot beyond the end is not seen *)
Lemma slots_beyond ks vs sz old i a b : 0 <= sz <= i ->
  q_slots (SeqMap (zupd ks i a) vs sz old) = q_slots (@SeqMap K V ks vs sz old) /\ q_slots (SeqMap ks (zupd vs i b) sz old) = q_slots (@SeqMap K V ks vs sz old).
Proof using All.
  intros H. assert (U : forall {A} (d : list A) x, firstn (Z.to_nat sz) (zupd d i x) = firstn (Z.to_nat sz) d).
  { intros A d x. apply znth_opt_ext. intros j Hj. rewrite !znth_firstn_if, znth_zupd. destruct (Z.ltb_spec j sz); [|reflexivity]. replace (i =? j) with false by lia. reflexivity. }
  unfold q_slots. cbn. rewrite !U. auto.
Qed.
Lemma slots_bk ks vs sz old i a : 0 <= sz <= i -> q_slots (SeqMap (zupd ks i a) vs sz old) = q_slots (@SeqMap K V ks vs sz old).
Proof using All. intros H. exact (proj1 (slots_beyond ks vs sz old i a dv H)). Qed.
Lemma slots_bv ks vs sz old i b : 0 <= sz <= i -> q_slots (SeqMap ks (zupd vs i b) sz old) = q_slots (@SeqMap K V ks vs sz old).
Proof using All. intros H. exact (proj2 (slots_beyond ks vs sz old i dk b H)). Qed.
(* a store to a slot that is seen *)
Lemma slots_key ks vs sz old i a e : zlen ks = N -> zlen vs = N -> 0 <= i < sz -> sz <= N -> znth (q_slots (@SeqMap K V ks vs sz old)) i = Some e ->
  q_slots (SeqMap (zupd ks i a) vs sz old) = zupd (q_slots (SeqMap ks vs sz old)) i (a, snd e).
Proof using All.
  intros H1 H2 Hi Hs He. assert (I1 : qinv (SeqMap ks vs sz old)) by (split; [|split]; cbn; auto; lia).
  assert (I2 : qinv (SeqMap (zupd ks i a) vs sz old)) by (split; [|split]; cbn; rewrite ?zlen_zupd; auto; lia).
  rewrite <- (combine_map (q_slots (SeqMap (zupd ks i a) vs sz old))), <- (combine_map (zupd _ _ _)). rewrite !map_zupd. cbn [fst snd].
  rewrite (proj1 (slots_keys _ I2)), (proj2 (slots_keys _ I2)), (proj1 (slots_keys _ I1)), (proj2 (slots_keys _ I1)). cbn [q_sz q_keys q_vals].
  rewrite firstn_zupd_in by lia. f_equal. symmetry. apply zupd_same. pose proof (proj2 (slots_keys _ I1)) as X. cbn [q_sz q_vals] in X. rewrite <- X, SeqMap.znth_map, He. reflexivity.
Qed.
Lemma slots_val ks vs sz old i b e : zlen ks = N -> zlen vs = N -> 0 <= i < sz -> sz <= N -> znth (q_slots (@SeqMap K V ks vs sz old)) i = Some e ->
  q_slots (SeqMap ks (zupd vs i b) sz old) = zupd (q_slots (SeqMap ks vs sz old)) i (fst e, b).
Proof using All.
  intros H1 H2 Hi Hs He. assert (I1 : qinv (SeqMap ks vs sz old)) by (split; [|split]; cbn; auto; lia).
  assert (I2 : qinv (SeqMap ks (zupd vs i b) sz old)) by (split; [|split]; cbn; rewrite ?zlen_zupd; auto; lia).
  rewrite <- (combine_map (q_slots (SeqMap ks (zupd vs i b) sz old))), <- (combine_map (zupd _ _ _)). rewrite !map_zupd. cbn [fst snd].
  rewrite (proj1 (slots_keys _ I2)), (proj2 (slots_keys _ I2)), (proj1 (slots_keys _ I1)), (proj2 (slots_keys _ I1)). cbn [q_sz q_keys q_vals].
  rewrite firstn_zupd_in by lia. f_equal. symmetry. apply zupd_same. pose proof (proj1 (slots_keys _ I1)) as X. cbn [q_sz q_keys] in X. rewrite <- X, SeqMap.znth_map, He. reflexivity.
Qed.
Lemma slots_grow ks vs sz old k0 v0 : zlen ks = N -> zlen vs = N -> 0 <= sz < N -> znth ks sz = Some k0 -> znth vs sz = Some v0 ->
  q_slots (@SeqMap K V ks vs (sz + 1) old) = q_slots (SeqMap ks vs sz old) ++ [(k0, v0)].
Proof using All.
  intros H1 H2 Hs Hk Hv. assert (I1 : qinv (SeqMap ks vs sz old)) by (split; [|split]; cbn; auto; lia). assert (I2 : qinv (SeqMap ks vs (sz + 1) old)) by (split; [|split]; cbn; auto; lia).
  rewrite <- (combine_map (q_slots (SeqMap ks vs (sz + 1) old))), <- (combine_map (_ ++ _)). rewrite !map_app. cbn [map fst snd].
  rewrite (proj1 (slots_keys _ I2)), (proj2 (slots_keys _ I2)), (proj1 (slots_keys _ I1)), (proj2 (slots_keys _ I1)). cbn [q_sz q_keys q_vals].
  assert (U : forall {A} (d : list A) x, znth d sz = Some x -> zlen d = N -> firstn (Z.to_nat (sz + 1)) d = firstn (Z.to_nat sz) d ++ [x]).
  { intros A d x Hx Hd. rewrite <- (zupd_same d sz x Hx) at 1. apply firstn_zupd_end. lia. }
  rewrite (U _ _ _ Hk H1), (U _ _ _ Hv H2). reflexivity.
Qed.
Lemma key_index_hit k (l : list (K * V)) j : key_index keq k 0 l = Some j -> exists e, 0 <= j < zlen l /\ znth l j = Some e /\ lookup keq k l = Some (snd e).
Proof using All. intros E. destruct (key_index_some keq k l 0 j E) as (Hj & k' & v' & H1 & H2 & _). rewrite Z.sub_0_r in *. exists (k', v'). auto. Qed.

Notation befq := (before_quiet step qspec qabs q_reads qinv qlooks).
Notation aftq := (after_quiet step qspec qabs q_reads qinv qlooks).

Lemma q_bef_ret m r s : qok s -> step s m = Ok (s, r) -> bef m (Ret r) s.
Proof using All. intros H E. apply before_ret with (inv := qinv); [exact qlooks|apply H|]. apply (qstep_spec s m s r H E). Qed.
Lemma q_aft_ret r s : qinv s -> aft r (Ret r) s.
Proof using All. intros H. apply after_ret with (inv := qinv); [exact qlooks|exact H]. Qed.

Theorem seq_interrupted s m gaps : zlen (q_keys s) = N -> zlen (q_vals s) = N -> 0 <= q_sz s <= N -> 0 <= q_oldest s < N ->
  q_simple keq (q_slots s) m -> Forall q_reads (concat gaps) ->
  exists s' r a b qa qb, iexec step (q_main keq N dk dv m) s gaps = Ok (s', r, qa ++ qb) /\ concat gaps = a ++ b /\ length qa = length a /\
    rel_run (fun q o r q' => slot_step keq dk dv N q o = (q', r)) (q_slots s, q_oldest s) (a ++ m :: b) (qa ++ r :: qb) (q_slots s', q_oldest s').
Proof using All.
  intros H1 H2 H3 H4 Hm HG. assert (Hi : qinv s) by (split; auto). assert (Hs : qok s) by (split; auto). revert gaps HG. change (bef m (q_main keq N dk dv m) s).
  destruct m as [k v|k|k| |k v|k|]; cbn [q_main q_simple] in *; try contradiction.
  - eapply befq; [exact Hi|apply look_quiet; exact Hi|]. destruct (key_index keq k 0 (q_slots s)) as [j|] eqn:Ej.
    2: { unfold has in Hm. rewrite (proj1 (key_index_none keq k _ 0 Ej)) in Hm. discriminate Hm. }
    destruct (key_index_hit _ _ _ Ej) as (e & Hj & He & _). rewrite (slots_len s Hi) in Hj. destruct (find_quiet s k Hi) as [Ea Ef].
    assert (Hr : znth (zupd (q_vals s) j v) j = Some v) by (apply znth_zupd_eq; lia).
    assert (E : step s (QOverwrite k v) = Ok (SeqMap (q_keys s) (zupd (q_vals s) j v) (q_sz s) (q_oldest s), MoOpt (Some v))).
    { cbn [q_step]. unfold q_overwrite. rewrite Ea. cbn [bind]. rewrite Ef, Ej, wr_ok by lia. cbn [bind]. rewrite (rd_ok _ _ _ Hr). reflexivity. }
    destruct (qstep_spec s _ _ _ Hs E) as [Hp Hk]. eapply commit_acc with (inv := qinv); [exact qlooks|exact Hi|cbn; rewrite wr_ok by lia; reflexivity|exact Hp|].
    eapply after_acc with (inv := qinv); [exact qlooks|apply Hk|cbn; rewrite (rd_ok _ _ _ Hr); reflexivity|reflexivity|]. apply q_aft_ret. apply Hk.
  - eapply befq; [exact Hi|apply look_quiet; exact Hi|]. destruct (find_quiet s k Hi) as [Ea Ef]. destruct (key_index keq k 0 (q_slots s)) as [j|] eqn:Ej.
    + destruct (key_index_hit _ _ _ Ej) as (e & Hj & He & _). rewrite (slots_len s Hi) in Hj. destruct (znth_some (q_vals s) j) as [x Hx]; [lia|].
      eapply befq; [exact Hi|eapply quiet_acc; [cbn; rewrite (rd_ok _ _ _ Hx); reflexivity|constructor]|]. apply q_bef_ret; [exact Hs|].
      cbn [q_step]. unfold q_get. rewrite Ea. cbn [bind]. rewrite Ef, (rd_ok _ _ _ Hx). reflexivity.
    + apply q_bef_ret; [exact Hs|]. cbn [q_step]. unfold q_get. rewrite Ea. cbn [bind]. rewrite Ef. reflexivity.
  - eapply befq; [exact Hi|apply look_quiet; exact Hi|]. destruct (find_quiet s k Hi) as [Ea Ef].
    destruct (key_index keq k 0 (q_slots s)) as [j|] eqn:Ej; (apply q_bef_ret; [exact Hs|]); cbn [q_step]; unfold q_exists; rewrite Ea; cbn [bind]; rewrite Ef; reflexivity.
  - eapply befq; [exact Hi|eapply quiet_acc; [reflexivity|constructor]|]. apply q_bef_ret; [exact Hs|]. reflexivity.
  - eapply befq; [exact Hi|eapply quiet_acc; [reflexivity|constructor]|]. destruct (Z.geb_spec (q_sz s) N) as [Hc|Hc].
    { apply q_bef_ret; [exact Hs|]. cbn [q_step]. unfold q_insert. replace (q_sz s >=? N) with true by lia. reflexivity. }
    destruct s as [ks vs sz old]. cbn [q_keys q_vals q_sz q_oldest] in *.
    eapply befq; [exact Hi|eapply quiet_acc; [reflexivity|constructor]|]. cbn [q_sz].
    eapply before_acc with (inv := qinv); [exact qlooks|exact Hi|cbn; rewrite wr_ok by lia; reflexivity|unfold qabs; cbn [q_oldest]; f_equal; apply slots_bk; lia|].
    set (s1 := SeqMap (zupd ks sz k) vs sz old). assert (I1 : qinv s1) by (split; [|split]; cbn; rewrite ?zlen_zupd; auto; lia).
    eapply befq; [exact I1|eapply quiet_acc; [reflexivity|constructor]|]. cbn [q_sz s1].
    eapply before_acc with (inv := qinv); [exact qlooks|exact I1|cbn; rewrite wr_ok by lia; reflexivity|unfold qabs; cbn [q_oldest]; f_equal; apply slots_bv; lia|].
    set (s2 := SeqMap (zupd ks sz k) (zupd vs sz v) sz old). assert (I2 : qinv s2) by (split; [|split]; cbn; rewrite ?zlen_zupd; auto; lia).
    eapply befq; [exact I2|eapply quiet_acc; [reflexivity|constructor]|]. cbn [q_sz s2].
    assert (E : step (SeqMap ks vs sz old) (QInsert k v) = Ok (SeqMap (zupd ks sz k) (zupd vs sz v) (sz + 1) old, MoBool true)).
    { cbn [q_step]. unfold q_insert. cbn. replace (sz >=? N) with false by lia. rewrite !wr_ok by lia. reflexivity. }
    destruct (qstep_spec _ _ _ _ Hs E) as [Hp Hk]. eapply commit_acc with (inv := qinv); [exact qlooks|exact I2|reflexivity| |apply q_aft_ret; apply Hk].
    replace (qabs s2) with (qabs (SeqMap ks vs sz old)); [exact Hp|]. unfold qabs, s2. cbn [q_oldest]. f_equal. symmetry.
    rewrite slots_bv by lia. apply slots_bk. lia.
  - eapply befq; [exact Hi|eapply quiet_acc; [reflexivity|constructor]|].
    assert (E : step s QRemoveLast = Ok (q_remove_last s, MoUnit)) by reflexivity. unfold q_remove_last in E. destruct (Z.gtb_spec (q_sz s) 0) as [Hc|Hc].
    + eapply befq; [exact Hi|eapply quiet_acc; [reflexivity|constructor]|]. destruct (qstep_spec _ _ _ _ Hs E) as [Hp Hk].
      eapply commit_acc with (inv := qinv); [exact qlooks|exact Hi|reflexivity|exact Hp|apply q_aft_ret; apply Hk].
    + apply q_bef_ret; [exact Hs|exact E].
Qed.

(* ---- other keys ---- *)
Lemma lookup_slot_key k' k a b : keq k k' = false -> forall (l : list (K * V)) i, lookup keq k' (zupd l i (k, a)) = lookup keq k' (zupd l i (k, b)).
Proof using All.
  intros Hk l i. unfold zupd. destruct (i <? 0); [reflexivity|]. generalize (Z.to_nat i). clear i. induction l as [|[k1 v1] l IH]; intros [|n]; cbn; try reflexivity.
  - rewrite Hk. reflexivity.
  - destruct (keq k1 k'); [reflexivity|]. apply IH.
Qed.
Lemma lookup_prefix k' v (l r : list (K * V)) : lookup keq k' l = Some v -> lookup keq k' (l ++ r) = Some v.
Proof using All. induction l as [|[k1 v1] l IH]; cbn; [discriminate|]. destruct (keq k1 k'); auto. Qed.

Section Other.
Variables (k' : K) (w : V).
Definition qj (s : St) : Prop := qinv s /\ lookup keq k' (q_slots s) = Some w.
Notation thr Post := (through step q_reads qj Post).
Notation thrq := (through_quiet step qspec qabs q_reads qinv qlooks).
Lemma q_thr_acc (Post : St -> mout K V -> Prop) f s s1 p : qj s -> f s = Ok (s1, p) -> thr Post p s1 -> thr Post (Acc f) s.
Proof using All. intros H E Hp. eapply through_acc; [exact qlooks|apply H|exact H|exact E|exact Hp]. Qed.
Lemma q_thr_ret (Post : St -> mout K V -> Prop) r s : qj s -> Post s r -> thr Post (Ret r) s.
Proof using All. intros H HP. eapply through_ret; [exact qlooks|apply H|exact H|exact HP]. Qed.
Lemma q_thr_quiet (Post : St -> mout K V -> Prop) p p' s : qj s -> quiet s p p' -> thr Post p' s -> thr Post p s.
Proof using All. intros H Q Hp. eapply thrq; [apply H|exact H|exact Q|exact Hp]. Qed.
Lemma q_thr_sz (Post : St -> mout K V -> Prop) k s : qj s -> thr Post (k (q_sz s)) s -> thr Post (load_sz k) s.
Proof using All. intros H Hp. eapply q_thr_acc; [exact H|reflexivity|exact Hp]. Qed.
Lemma q_thr_old (Post : St -> mout K V -> Prop) k s : qj s -> thr Post (k (q_oldest s)) s -> thr Post (load_old k) s.
Proof using All. intros H Hp. eapply q_thr_acc; [exact H|reflexivity|exact Hp]. Qed.

Theorem seq_other m s gaps : (forall a b, keq a b = true <-> a = b) ->
  zlen (q_keys s) = N -> zlen (q_vals s) = N -> 0 <= q_sz s <= N -> 0 <= q_oldest s < N ->
  q_key m <> Some k' -> (forall k, m = QRemove k -> k' <> dk) ->
  lookup keq k' (q_slots s) = Some w -> lookup keq k' (fst (fst (slot_step keq dk dv N (q_slots s, q_oldest s) m))) = Some w ->
  Forall q_reads (concat gaps) ->
  exists s' r q, iexec step (q_main keq N dk dv m) s gaps = Ok (s', r, q) /\ slot_step keq dk dv N (q_slots s, q_oldest s) m = ((q_slots s', q_oldest s'), r) /\
    Forall2 (fun o r => (o = QGet k' -> r = MoOpt (Some w)) /\ (o = QExists k' -> r = MoBool true)) (concat gaps) q.
Proof using All.
  intros Hk H1 H2 H3 H4 Hm Hd Hl Hl' HG. assert (Hi : qinv s) by (split; auto). assert (Hs : qok s) by (split; auto). assert (Hj : qj s) by (split; auto).
  destruct (qwhole s m Hs) as (sf & rf & E & Hp & Hf). unfold qspec, qabs in Hp. rewrite Hp in Hl'. cbn [fst] in Hl'. assert (Hjf : qj sf) by (split; [apply Hf|exact Hl']).
  assert (X : thr (fun s' r => s' = sf /\ r = rf) (q_main keq N dk dv m) s).
  { clear HG gaps Hp. assert (KF : forall k, k <> k' -> keq k k' = false) by (intros k Hn; destruct (keq k k') eqn:Ek; [apply Hk in Ek; contradiction|reflexivity]).
    destruct m as [k v|k|k| |k v|k|]; cbn [q_main q_key] in *; cbn [q_step] in E.
    - eapply q_thr_quiet; [exact Hj|apply look_quiet; exact Hi|]. destruct (find_quiet s k Hi) as [Ea Ef]. unfold q_overwrite in E. rewrite Ea in E. cbn [bind] in E. rewrite Ef in E.
      assert (Kk : keq k k' = false) by (apply KF; congruence). destruct (key_index keq k 0 (q_slots s)) as [j|] eqn:Ej.
      + destruct (key_index_hit _ _ _ Ej) as (e & Hjj & He & _). rewrite (slots_len s Hi) in Hjj. assert (Hr : znth (zupd (q_vals s) j v) j = Some v) by (apply znth_zupd_eq; lia).
        rewrite wr_ok in E by lia. cbn [bind] in E. rewrite (rd_ok _ _ _ Hr) in E. cbn [bind] in E. injection E as <- <-.
        eapply q_thr_acc; [exact Hj|cbn; rewrite wr_ok by lia; reflexivity|]. eapply q_thr_acc; [exact Hjf|cbn; rewrite (rd_ok _ _ _ Hr); reflexivity|]. apply q_thr_ret; auto.
      + destruct s as [ks vs sz old]. cbn [q_keys q_vals q_sz q_oldest] in *. apply q_thr_sz; [exact Hj|]. apply q_thr_sz; [exact Hj|]. cbn [q_sz]. destruct (Z.geb_spec sz N) as [Hc|Hc].
        * replace (sz >=? N) with true in E by lia. rewrite !wr_ok in E by lia. cbn [bind] in E.
          assert (Hr : znth (zupd vs old v) old = Some v) by (apply znth_zupd_eq; lia). rewrite (rd_ok _ _ _ Hr) in E. cbn [bind] in E. injection E as <- <-.
          apply q_thr_old; [exact Hj|]. apply q_thr_old; [exact Hj|]. cbn [q_oldest]. assert (sz = N) by lia. subst sz.
          set (old' := if old + 1 >=? N then 0 else old + 1) in *.
          assert (Fin : forall o, thr (fun s' r => s' = SeqMap (zupd ks old k) (zupd vs old v) N o /\ r = MoOpt (Some v))
             (store_key old k (store_val old v (load_val old (fun r => Ret (MoOpt (Some r)))))) (SeqMap ks vs N o)).
          { intros o. destruct (znth_some (q_slots (SeqMap ks vs N o)) old) as [e He]; [rewrite (slots_len (SeqMap ks vs N o) Hi); cbn; lia|].
            eapply q_thr_acc; [exact Hj|cbn; rewrite wr_ok by lia; reflexivity|].
            assert (S1 : q_slots (SeqMap (zupd ks old k) vs N o) = zupd (q_slots (SeqMap ks vs N o)) old (k, snd e)) by (apply slots_key; auto; lia).
            assert (S2 : q_slots (SeqMap (zupd ks old k) (zupd vs old v) N o) = zupd (zupd (q_slots (SeqMap ks vs N o)) old (k, snd e)) old (k, v)).
            { rewrite <- S1. erewrite slots_val; [f_equal; instantiate (1 := (k, snd e)); reflexivity|rewrite zlen_zupd; auto|auto|lia|lia|].
              rewrite S1. apply znth_zupd_eq. rewrite (slots_len (SeqMap ks vs N o) Hi). cbn. lia. }
            rewrite zupd_zupd_eq in S2. pose proof (proj2 Hjf) as L. change (q_slots (SeqMap (zupd ks old k) (zupd vs old v) N old')) with (q_slots (SeqMap (zupd ks old k) (zupd vs old v) N o)) in L.
            assert (J1 : qj (SeqMap (zupd ks old k) vs N o)).
            { split; [split; [|split]; cbn; rewrite ?zlen_zupd; auto; lia|]. rewrite S1, (lookup_slot_key k' k (snd e) v Kk), <- S2. exact L. }
            assert (J2 : qj (SeqMap (zupd ks old k) (zupd vs old v) N o)) by (split; [split; [|split]; cbn; rewrite ?zlen_zupd; auto; lia|exact L]).
            eapply q_thr_acc; [exact J1|cbn; rewrite wr_ok by lia; reflexivity|]. eapply q_thr_acc; [exact J2|cbn; rewrite (rd_ok _ _ _ Hr); reflexivity|]. apply q_thr_ret; auto. }
          eapply q_thr_acc; [exact Hj|reflexivity|]. cbn [q_keys q_vals q_sz q_oldest]. apply q_thr_old; [exact Hj|]. cbn [q_oldest]. subst old'. destruct (Z.geb_spec (old + 1) N); [|apply Fin].
          eapply q_thr_acc; [exact Hj|reflexivity|]. apply Fin.
        * replace (sz >=? N) with false in E by lia. rewrite !wr_ok in E by lia. cbn [bind] in E.
          assert (Hr : znth (zupd vs sz v) sz = Some v) by (apply znth_zupd_eq; lia). rewrite (rd_ok _ _ _ Hr) in E. cbn [bind] in E. injection E as <- <-.
          apply q_thr_sz; [exact Hj|]. cbn [q_sz]. destruct (znth_some ks sz) as [k0 Hk0]; [lia|]. destruct (znth_some vs sz) as [v0 Hv0]; [lia|].
          assert (J1 : qj (SeqMap ks vs (sz + 1) old)).
          { split; [split; [|split]; cbn; auto; lia|]. rewrite (slots_grow _ _ _ _ k0 v0); auto; [|lia]. apply lookup_prefix. exact Hl. }
          assert (J2 : qj (SeqMap (zupd ks sz k) vs (sz + 1) old)).
          { split; [split; [|split]; cbn; rewrite ?zlen_zupd; auto; lia|]. rewrite (slots_grow _ _ _ _ k v0); rewrite ?zlen_zupd; auto; [|lia|apply znth_zupd_eq; lia]. apply lookup_prefix.
            rewrite (proj1 (slots_beyond ks vs sz old sz k v0 ltac:(lia))). exact Hl. }
          eapply q_thr_acc; [exact Hj|reflexivity|]. eapply q_thr_acc; [exact J1|cbn; rewrite wr_ok by lia; reflexivity|].
          eapply q_thr_acc; [exact J2|cbn; rewrite wr_ok by lia; reflexivity|]. eapply q_thr_acc; [exact Hjf|cbn; rewrite (rd_ok _ _ _ Hr); reflexivity|]. apply q_thr_ret; auto.
    - eapply q_thr_quiet; [exact Hj|apply look_quiet; exact Hi|]. destruct (find_quiet s k Hi) as [Ea Ef]. unfold q_get in E. rewrite Ea in E. cbn [bind] in E. rewrite Ef in E.
      destruct (key_index keq k 0 (q_slots s)) as [j|] eqn:Ej.
      + destruct (key_index_hit _ _ _ Ej) as (e & Hjj & He & _). rewrite (slots_len s Hi) in Hjj. destruct (znth_some (q_vals s) j) as [x Hx]; [lia|]. rewrite (rd_ok _ _ _ Hx) in E. cbn [bind] in E. injection E as <- <-.
        eapply q_thr_acc; [exact Hj|cbn; rewrite (rd_ok _ _ _ Hx); reflexivity|]. apply q_thr_ret; auto.
      + cbn in E. injection E as <- <-. apply q_thr_ret; auto.
    - eapply q_thr_quiet; [exact Hj|apply look_quiet; exact Hi|]. destruct (find_quiet s k Hi) as [Ea Ef]. unfold q_exists in E. rewrite Ea in E. cbn [bind] in E. rewrite Ef in E.
      destruct (key_index keq k 0 (q_slots s)) as [j|] eqn:Ej; cbn in E; injection E as <- <-; apply q_thr_ret; auto.
    - injection E as <- <-. apply q_thr_sz; [exact Hj|]. apply q_thr_ret; auto.
    - unfold q_insert in E. apply q_thr_sz; [exact Hj|]. destruct (Z.geb_spec (q_sz s) N) as [Hc|Hc]; [cbn in E; injection E as <- <-; apply q_thr_ret; auto|].
      destruct s as [ks vs sz old]. cbn [q_keys q_vals q_sz q_oldest] in *. rewrite !wr_ok in E by lia. cbn in E. injection E as <- <-. apply q_thr_sz; [exact Hj|]. cbn [q_sz].
      assert (J1 : qj (SeqMap (zupd ks sz k) vs sz old)) by (split; [split; [|split]; cbn; rewrite ?zlen_zupd; auto; lia|rewrite (proj1 (slots_beyond ks vs sz old sz k v ltac:(lia))); exact Hl]).
      assert (J2 : qj (SeqMap (zupd ks sz k) (zupd vs sz v) sz old)) by (split; [split; [|split]; cbn; rewrite ?zlen_zupd; auto; lia|rewrite (proj2 (slots_beyond (zupd ks sz k) vs sz old sz k v ltac:(lia))); exact (proj2 J1)]).
      eapply q_thr_acc; [exact Hj|cbn; rewrite wr_ok by lia; reflexivity|]. apply q_thr_sz; [exact J1|]. cbn [q_sz].
      eapply q_thr_acc; [exact J1|cbn; rewrite wr_ok by lia; reflexivity|]. apply q_thr_sz; [exact J2|]. cbn [q_sz].
      eapply q_thr_acc; [exact J2|reflexivity|]. apply q_thr_ret; auto.
    - eapply q_thr_quiet; [exact Hj|apply look_quiet; exact Hi|]. destruct (find_quiet s k Hi) as [Ea Ef]. unfold q_remove in E. rewrite Ea in E. cbn [bind] in E. rewrite Ef in E.
      destruct (key_index keq k 0 (q_slots s)) as [j|] eqn:Ej; [|cbn in E; injection E as <- <-; apply q_thr_ret; auto].
      destruct (key_index_hit _ _ _ Ej) as (e & Hjj & He & _). rewrite (slots_len s Hi) in Hjj. destruct s as [ks vs sz old]. cbn [q_keys q_vals q_sz q_oldest] in *.
      rewrite !wr_ok in E by lia. cbn in E. injection E as <- <-.
      assert (S1 : q_slots (SeqMap (zupd ks j dk) vs sz old) = zupd (q_slots (SeqMap ks vs sz old)) j (dk, snd e)) by (apply slots_key; auto; lia).
      assert (S2 : q_slots (SeqMap (zupd ks j dk) (zupd vs j dv) sz old) = zupd (zupd (q_slots (SeqMap ks vs sz old)) j (dk, snd e)) j (dk, dv)).
      { rewrite <- S1. erewrite slots_val; [f_equal; instantiate (1 := (dk, snd e)); reflexivity|rewrite zlen_zupd; auto|auto|lia|lia|].
        rewrite S1. apply znth_zupd_eq. rewrite (slots_len (SeqMap ks vs sz old) Hi). cbn. lia. }
      rewrite zupd_zupd_eq in S2.
      assert (J1 : qj (SeqMap (zupd ks j dk) vs sz old)).
      { split; [split; [|split]; cbn; rewrite ?zlen_zupd; auto; lia|]. rewrite S1, (lookup_slot_key k' dk (snd e) dv), <- S2; [exact Hl'|]. apply KF. intros Hc. apply (Hd k eq_refl). congruence. }
      eapply q_thr_acc; [exact Hj|cbn; rewrite wr_ok by lia; reflexivity|]. eapply q_thr_acc; [exact J1|cbn; rewrite wr_ok by lia; reflexivity|]. apply q_thr_ret; auto.
    - injection E as <- <-. unfold q_remove_last in *. apply q_thr_sz; [exact Hj|]. destruct (q_sz s >? 0); [|apply q_thr_ret; auto].
      apply q_thr_sz; [exact Hj|]. eapply q_thr_acc; [exact Hj|reflexivity|]. apply q_thr_ret; auto. }
  destruct (X gaps HG) as (s' & r & q & Ex & [-> ->] & Hq). exists sf, rf, q. split; [exact Ex|]. split; [exact Hp|].
  clear - HN Hq Hk. induction Hq as [|o r os q Ho _ IH]; constructor; [|exact IH]. destruct Ho as (s1 & (I1 & L1) & E1).
  split; intros ->.
  - destruct (qlooks s1 (QGet k') I1 I) as (r1 & E2 & Hp). rewrite E1 in E2. injection E2 as <-. unfold qspec, qabs in Hp. cbn in Hp. injection Hp as <-. rewrite L1. reflexivity.
  - destruct (qlooks s1 (QExists k') I1 I) as (r1 & E2 & Hp). rewrite E1 in E2. injection E2 as <-. unfold qspec, qabs in Hp. cbn in Hp. injection Hp as <-. unfold has. rewrite L1. reflexivity.
Qed.
End Other.

(* ---- what the handler sees of a call that is not simple ---- *)
Lemma lookup_index k (l : list (K * V)) : lookup keq k l = None -> key_index keq k 0 l = None.
Proof using All. intros H. destruct (key_index keq k 0 l) as [j|] eqn:E; [|reflexivity]. destruct (key_index_hit _ _ _ E) as (e & _ & _ & He). congruence. Qed.
Lemma get_now s k v : qinv s -> lookup keq k (q_slots s) = Some v -> step s (QGet k) = Ok (s, MoOpt (Some v)).
Proof using All. intros H Hl. destruct (qlooks s (QGet k) H I) as (r & E & Hp). unfold qspec, qabs in Hp. cbn in Hp. injection Hp as <-. rewrite Hl in E. exact E. Qed.
Lemma lookup_app_none k (l r : list (K * V)) : lookup keq k l = None -> lookup keq k (l ++ r) = lookup keq k r.
Proof using All. induction l as [|[k1 v1] l IH]; cbn; [reflexivity|]. destruct (keq k1 k); [discriminate|exact IH]. Qed.
Lemma lookup_zupd_here k v : keq k k = true -> forall (l : list (K * V)) i, 0 <= i < zlen l -> lookup keq k l = None -> lookup keq k (zupd l i (k, v)) = Some v.
Proof using All.
  intros Hk l i. unfold zupd, zlen. intros Hi. replace (i <? 0) with false by lia. assert (X : (Z.to_nat i < length l)%nat) by lia. revert X. generalize (Z.to_nat i). clear Hi i.
  induction l as [|[k1 v1] l IH]; intros [|n] Hn Hl; cbn in *; try lia; [rewrite Hk; reflexivity|]. destruct (keq k1 k); [discriminate|]. apply IH; [lia|exact Hl].
Qed.
Theorem overwrite_new_shows_removed s k v k0 v0 : zlen (q_keys s) = N -> zlen (q_vals s) = N -> 0 <= q_sz s < N -> 0 <= q_oldest s < N -> keq k0 k0 = true ->
  lookup keq k (q_slots s) = None -> lookup keq k0 (q_slots s) = None ->
  exists s1 gaps s', run step s [QInsert k0 v0; QRemoveLast; QExists k0] = Ok (s1, [MoBool true; MoUnit; MoBool false]) /\ concat gaps = [QGet k0] /\
    iexec step (q_main keq N dk dv (QOverwrite k v)) s1 gaps = Ok (s', MoOpt (Some v), [MoOpt (Some v0)]).
Proof using All.
  intros H1 H2 H3 H4 Hk0 Hk Hn. destruct s as [ks vs sz old]. cbn [q_keys q_vals q_sz q_oldest] in *. set (ks1 := zupd ks sz k0). set (vs1 := zupd vs sz v0).
  assert (L1 : zlen ks1 = N) by (unfold ks1; rewrite zlen_zupd; auto). assert (L2 : zlen vs1 = N) by (unfold vs1; rewrite zlen_zupd; auto).
  set (s1 := SeqMap ks1 vs1 sz old). assert (I1 : qinv s1) by (split; [|split]; cbn; auto; lia).
  assert (S1 : q_slots s1 = q_slots (SeqMap ks vs sz old)) by (unfold s1, ks1, vs1; rewrite slots_bv, slots_bk by lia; reflexivity).
  assert (K1 : znth ks1 sz = Some k0) by (apply znth_zupd_eq; lia). assert (V1 : znth vs1 sz = Some v0) by (apply znth_zupd_eq; lia).
  assert (Ri : step (SeqMap ks vs sz old) (QInsert k0 v0) = Ok (SeqMap ks1 vs1 (sz + 1) old, MoBool true)).
  { cbn [q_step]. unfold q_insert. cbn. replace (sz >=? N) with false by lia. rewrite !wr_ok by lia. reflexivity. }
  assert (Rr : step (SeqMap ks1 vs1 (sz + 1) old) QRemoveLast = Ok (s1, MoUnit)).
  { cbn [q_step]. unfold q_remove_last, s1. cbn. replace (sz + 1 >? 0) with true by lia. replace (sz + 1 - 1) with sz by lia. reflexivity. }
  assert (Re : step s1 (QExists k0) = Ok (s1, MoBool false)).
  { destruct (qlooks s1 (QExists k0) I1 I) as (r & E & Hp). unfold qspec, qabs in Hp. cbn in Hp. injection Hp as <-. unfold has in E. rewrite S1, Hn in E. exact E. }
  assert (I2 : qinv (SeqMap ks1 vs1 (sz + 1) old)) by (split; [|split]; cbn; auto; lia).
  assert (G : step (SeqMap ks1 vs1 (sz + 1) old) (QGet k0) = Ok (SeqMap ks1 vs1 (sz + 1) old, MoOpt (Some v0))).
  { apply get_now; [exact I2|]. rewrite (slots_grow _ _ _ _ k0 v0); auto. fold s1. rewrite S1, lookup_app_none by exact Hn. cbn. rewrite Hk0. reflexivity. }
  assert (X : exists s', sees step (QGet k0) (MoOpt (Some v0)) (q_main keq N dk dv (QOverwrite k v)) s1 s' (MoOpt (Some v))).
  { eexists. cbn [q_main]. eapply sees_quiet; [apply look_quiet; exact I1|]. rewrite lookup_index by (rewrite S1; exact Hk).
    eapply sees_acc; [reflexivity|]. cbn beta. eapply sees_acc; [reflexivity|]. cbn [s1 q_sz]. replace (sz >=? N) with false by lia. eapply sees_acc; [reflexivity|].
    cbn [s1 q_sz]. eapply sees_acc; [reflexivity|]. cbn [s1 q_keys q_vals q_sz q_oldest].
    eapply (sees_now step _ _ _ _ (SeqMap ks1 vs1 (sz + 1) old)); [exact G|cbn; rewrite wr_ok by lia; reflexivity|].
    cbn. rewrite wr_ok by lia. cbn. rewrite (rd_ok _ sz v) by (apply znth_zupd_eq; lia). cbn. reflexivity. }
  destruct X as (s' & gaps & Hc & E). exists s1, gaps, s'. split; [|auto]. cbn [run]. rewrite Ri. cbn [bind]. rewrite Rr. cbn [bind]. rewrite Re. reflexivity.
Qed.

Theorem overwrite_new_shows_evicted s k v e : zlen (q_keys s) = N -> zlen (q_vals s) = N -> q_sz s = N -> 0 <= q_oldest s < N -> keq k k = true ->
  lookup keq k (q_slots s) = None -> znth (q_slots s) (q_oldest s) = Some e ->
  exists gaps s', concat gaps = [QGet k] /\ iexec step (q_main keq N dk dv (QOverwrite k v)) s gaps = Ok (s', MoOpt (Some v), [MoOpt (Some (snd e))]).
Proof using All.
  intros H1 H2 H3 H4 Hk Hl He. assert (Hi : qinv s) by (split; [|split]; auto; lia).
  enough (X : exists s', sees step (QGet k) (MoOpt (Some (snd e))) (q_main keq N dk dv (QOverwrite k v)) s s' (MoOpt (Some v))) by (destruct X as (s' & gaps & Hc & E); exists gaps, s'; auto).
  cbn [q_main]. pose proof (look_quiet s k) as LQ. destruct s as [ks vs sz old]. cbn [q_keys q_vals q_sz q_oldest] in *. subst sz.
  assert (G : forall o, step (SeqMap (zupd ks old k) vs N o) (QGet k) = Ok (SeqMap (zupd ks old k) vs N o, MoOpt (Some (snd e)))).
  { intros o. apply get_now; [split; [|split]; cbn; rewrite ?zlen_zupd; auto; lia|].
    rewrite (slots_key ks vs N o old k e); auto; try lia. apply lookup_zupd_here; auto. rewrite (slots_len (SeqMap ks vs N o) Hi). cbn. lia. }
  assert (F : forall o, exists s', sees step (QGet k) (MoOpt (Some (snd e))) (store_key old k (store_val old v (load_val old (fun r => Ret (MoOpt (Some r)))))) (SeqMap ks vs N o) s' (MoOpt (Some v))).
  { intros o. eexists. eapply sees_acc; [cbn; rewrite wr_ok by lia; reflexivity|]. eapply (sees_now step _ _ _ _ (SeqMap (zupd ks old k) vs N o)); [exact (G o)|cbn; rewrite wr_ok by lia; reflexivity|].
    cbn. rewrite (rd_ok _ old v) by (apply znth_zupd_eq; lia). reflexivity. }
  destruct (F (if old + 1 >=? N then 0 else old + 1)) as (s' & Hs). exists s'. eapply sees_quiet; [apply LQ; exact Hi|]. rewrite lookup_index by exact Hl.
  eapply sees_acc; [reflexivity|]. cbn beta. eapply sees_acc; [reflexivity|]. cbn [q_sz]. replace (N >=? N) with true by lia.
  eapply sees_acc; [reflexivity|]. eapply sees_acc; [reflexivity|]. cbn [q_oldest]. eapply sees_acc; [reflexivity|]. eapply sees_acc; [reflexivity|]. cbn [q_keys q_vals q_sz q_oldest].
  destruct (old + 1 >=? N); [|exact Hs]. eapply sees_acc; [reflexivity|]. exact Hs.
Qed.
Theorem remove_shows_default s k v : zlen (q_keys s) = N -> zlen (q_vals s) = N -> 0 <= q_sz s <= N -> keq dk dk = true ->
  lookup keq k (q_slots s) = Some v -> lookup keq dk (q_slots s) = None ->
  exists gaps s', concat gaps = [QGet dk] /\ iexec step (q_main keq N dk dv (QRemove k)) s gaps = Ok (s', MoBool true, [MoOpt (Some v)]).
Proof using All.
  intros H1 H2 H3 Hd Hl Hn. assert (Hi : qinv s) by (split; [|split]; auto; lia).
  enough (X : exists s', sees step (QGet dk) (MoOpt (Some v)) (q_main keq N dk dv (QRemove k)) s s' (MoBool true)) by (destruct X as (s' & gaps & Hc & E); exists gaps, s'; auto).
  cbn [q_main]. destruct (key_index keq k 0 (q_slots s)) as [j|] eqn:Ej.
  2: { rewrite (proj1 (key_index_none keq k _ 0 Ej)) in Hl. discriminate Hl. }
  destruct (key_index_hit _ _ _ Ej) as (e & Hj & He & Hv). rewrite Hl in Hv. injection Hv as ->. rewrite (slots_len s Hi) in Hj.
  destruct s as [ks vs sz old]. cbn [q_keys q_vals q_sz q_oldest] in *. eexists. eapply sees_quiet; [apply look_quiet; exact Hi|]. rewrite Ej. eapply sees_acc; [cbn; rewrite wr_ok by lia; reflexivity|].
  eapply (sees_now step _ _ _ _ (SeqMap (zupd ks j dk) vs sz old)); [|cbn; rewrite wr_ok by lia; reflexivity|reflexivity].
  apply get_now; [split; [|split]; cbn; rewrite ?zlen_zupd; auto; lia|]. rewrite (slots_key ks vs sz old j dk e); auto; try lia. apply lookup_zupd_here; auto. rewrite (slots_len (SeqMap ks vs sz old) Hi). cbn. lia.
Qed.
End SQ.
