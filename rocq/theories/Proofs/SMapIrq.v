(* SequentialMap shared with an interrupt handler. *)
From Verif.Common Require Import Base Lemmas Lists.
From Verif.Spec Require Import VectorSpec MapSpec MapIrqSpec.
From Verif.Model Require Import FixedVector Maps Irq VectorIrq MapIrq.
From Verif.Proofs Require Import FixedVector Maps SeqMap Irq Readers.

Section SM.
Context {K V : Type}.
Variables (keq : K -> K -> bool) (N : Z).
Hypothesis HN : 0 < N.
Notation step := (sm_step keq N).
Notation spec := (map_spec keq N).
Notation St := (fvec (K * V)).
Notation con := (@fv_contents (K * V)).
Definition minv (s : St) : Prop := zlen (v_data s) = N /\ 0 <= v_n s <= N.

Lemma mrel_of s : minv s -> VRel N s (con s).
Proof using All. intros [H1 H2]. repeat split; auto; apply H2. Qed.
Lemma mwhole s m : minv s -> exists s' r, step s m = Ok (s', r) /\ spec (con s) m r (con s') /\ minv s'.
Proof using All.
  intros Hs. destruct (znth_some (v_data s) 0) as [[dk dv] _]; [destruct Hs; lia|]. destruct (sm_refines keq N dk dv HN s _ m (mrel_of s Hs)) as (s' & r & l' & E & Hp & HR). exists s', r.
  pose proof HR as (H1 & H2 & ->). split; [exact E|]. split; [exact Hp|]. split; assumption.
Qed.
Lemma mstep_spec s m s' r : minv s -> step s m = Ok (s', r) -> spec (con s) m r (con s') /\ minv s'.
Proof using All. intros Hs E. destruct (mwhole s m Hs) as (s1 & r1 & E1 & Hp & Hi). rewrite E in E1. injection E1 as <- <-. auto. Qed.
Lemma mlooks s o : minv s -> m_reads o -> exists r, step s o = Ok (s, r) /\ spec (con s) o r (con s).
Proof using All.
  intros Hs Hr. destruct (mwhole s o Hs) as (s' & r & E & Hp & _). exists r. assert (s' = s); [|subst; auto].
  destruct o; cbn in Hr; try contradiction; cbn [sm_step] in E; try (injection E as <- <-; reflexivity);
    match type of E with bind ?m _ = _ => destruct m; cbn [bind] in E; [|discriminate E..]; injection E as <- <-; reflexivity end.
Qed.
Lemma con_len s : minv s -> zlen (con s) = v_n s.
Proof using All. intros [H1 H2]. apply zlen_firstn. lia. Qed.
Lemma con_nth s i : minv s -> znth (con s) i = if i <? v_n s then znth (v_data s) i else None.
Proof using All. intros [H1 H2]. unfold fv_contents. apply znth_firstn_if. Qed.
Lemma con_grow d n e : 0 <= n < zlen d -> znth d n = Some e -> con (FVec d (n + 1)) = con (FVec d n) ++ [e].
Proof using All. intros H He. unfold fv_contents. cbn. rewrite <- (zupd_same d n e He) at 1. apply firstn_zupd_end. lia. Qed.
Lemma con_upd d n i e : 0 <= i < n -> con (FVec (zupd d i e) n) = zupd (con (FVec d n)) i e.
Proof using All. intros H. unfold fv_contents. cbn. apply firstn_zupd_in. lia. Qed.
Lemma con_beyond d n i e : 0 <= n <= i -> con (FVec (zupd d i e) n) = con (FVec d n).
Proof using All.
  intros H. unfold fv_contents. cbn. apply znth_opt_ext. intros j Hj. rewrite !znth_firstn_if, znth_zupd. destruct (Z.ltb_spec j n); [|reflexivity]. replace (i =? j) with false by lia. reflexivity.
Qed.

Lemma skip_cons {A} (l : list A) i e : 0 <= i -> znth l i = Some e -> skipn (Z.to_nat i) l = e :: skipn (Z.to_nat (i + 1)) l.
Proof using All.
  intros Hi He. apply znth_opt_ext. intros j Hj. rewrite znth_cons, !znth_skipn by lia. destruct (Z.eqb_spec j 0) as [->|]; [rewrite Z.add_0_r; exact He|].
  replace (j <? 0) with false by lia. rewrite znth_skipn by lia. f_equal. lia.
Qed.
Lemma range_quiet s key found missing : forall n i, minv s -> 0 <= i -> i + Z.of_nat n = v_n s ->
  quiet s (scan_range keq key n i found missing) (match key_index keq key i (skipn (Z.to_nat i) (con s)) with Some j => found j | None => missing end).
Proof using All.
  induction n as [|n IH]; intros i H Hi Hn; cbn [scan_range]; pose proof (con_len s H) as HL.
  - rewrite skipn_all2 by (unfold zlen in HL; lia). cbn. constructor.
  - destruct (znth_some (v_data s) i) as [e He]; [destruct H; lia|]. assert (Hc : znth (con s) i = Some e) by (rewrite con_nth by exact H; replace (i <? v_n s) with true by lia; exact He).
    rewrite (skip_cons _ _ _ Hi Hc). cbn [key_index]. eapply quiet_acc; [cbn; rewrite (rd_ok _ _ _ He); reflexivity|]. destruct (keq (fst e) key); [constructor|]. apply IH; auto; lia.
Qed.
Lemma iter_quiet s key found missing : forall f i, minv s -> 0 <= i <= v_n s -> v_n s - i < Z.of_nat f ->
  quiet s (scan_iter keq key f i found missing) (match key_index keq key i (skipn (Z.to_nat i) (con s)) with Some j => found j | None => missing end).
Proof using All.
  induction f as [|f IH]; intros i H Hi Hn; cbn [scan_iter]; pose proof (con_len s H) as HL; [lia|].
  eapply quiet_acc; [reflexivity|]. destruct (Z.ltb_spec i (v_n s)).
  2: { rewrite skipn_all2 by (unfold zlen in HL; lia). cbn. constructor. }
  destruct (znth_some (v_data s) i) as [e He]; [destruct H; lia|]. assert (Hc : znth (con s) i = Some e) by (rewrite con_nth by exact H; replace (i <? v_n s) with true by lia; exact He).
  rewrite (skip_cons _ _ _ (proj1 Hi) Hc). cbn [key_index]. eapply quiet_acc; [cbn; rewrite (rd_ok _ _ _ He); reflexivity|]. destruct (keq (fst e) key); [constructor|]. apply IH; auto; lia.
Qed.
Lemma range_all s key found missing : minv s -> quiet s (load_n (fun n => scan_range keq key (Z.to_nat n) 0 found missing)) (match key_index keq key 0 (con s) with Some j => found j | None => missing end).
Proof using All. intros H. eapply quiet_acc; [reflexivity|]. pose proof H as [H1 H2]. pose proof (range_quiet s key found missing (Z.to_nat (v_n s)) 0 H ltac:(lia) ltac:(lia)) as Q. exact Q. Qed.
Lemma iter_all s key found missing : minv s -> quiet s (scan_iter keq key (S (Z.to_nat N)) 0 found missing) (match key_index keq key 0 (con s) with Some j => found j | None => missing end).
Proof using All. intros H. pose proof H as [H1 H2]. pose proof (iter_quiet s key found missing (S (Z.to_nat N)) 0 H ltac:(lia) ltac:(lia)) as Q. exact Q. Qed.
Lemma pairs_quiet s : forall n i, minv s -> 0 <= i -> i + Z.of_nat n = v_n s -> quiet s (@list_pairs K V n i (rev (firstn (Z.to_nat i) (con s)))) (Ret (MoList (con s))).
Proof using All.
  induction n as [|n IH]; intros i H Hi Hn; cbn [list_pairs]; pose proof (con_len s H) as HL.
  - rewrite rev_involutive, firstn_all2 by (unfold zlen in HL; lia). constructor.
  - destruct (znth_some (v_data s) i) as [e He]; [destruct H; lia|]. assert (Hc : znth (con s) i = Some e) by (rewrite con_nth by exact H; replace (i <? v_n s) with true by lia; exact He).
    eapply quiet_acc; [cbn; rewrite (rd_ok _ _ _ He); reflexivity|]. eapply quiet_acc; [cbn; rewrite (rd_ok _ _ _ He); reflexivity|].
    replace ((fst e, snd e) :: rev (firstn (Z.to_nat i) (con s))) with (rev (firstn (Z.to_nat (i + 1)) (con s))); [apply IH; auto; lia|].
    rewrite <- (zupd_same (con s) i e Hc) at 1. rewrite firstn_zupd_end by lia. rewrite rev_unit. destruct e. reflexivity.
Qed.
Lemma index_in s key j : minv s -> key_index keq key 0 (con s) = Some j -> exists e, 0 <= j < v_n s /\ znth (v_data s) j = Some e /\ znth (con s) j = Some e /\ lookup keq key (con s) = Some (snd e).
Proof using All.
  intros H E. destruct (key_index_some keq key _ 0 j E) as (Hj & k' & v' & H1 & H2 & _). rewrite Z.sub_0_r in H1. rewrite (con_len s H) in Hj. exists (k', v').
  rewrite con_nth in H1 by exact H. replace (j <? v_n s) with true in H1 by lia. rewrite con_nth by exact H. replace (j <? v_n s) with true by lia. repeat split; auto; lia.
Qed.
Lemma index_of k (l : list (K * V)) : lookup keq k l = None -> key_index keq k 0 l = None.
Proof using All. intros H. destruct (key_index keq k 0 l) as [j|] eqn:E; [|reflexivity]. destruct (key_index_some keq k l 0 j E) as (_ & k' & v' & _ & H2 & _). congruence. Qed.
Lemma index_has k : forall (l : list (K * V)) i j n, key_index keq k i l = Some j -> j - i < Z.of_nat n -> has keq k (firstn n l) = true.
Proof using All.
  induction l as [|[k1 v1] l IH]; intros i j n E Hj; cbn [key_index fst] in E; [discriminate|].
  assert (Hn : i <= j). { destruct (keq k1 k); [injection E as <-; lia|]. destruct (key_index_some keq k l _ _ E) as [? _]. lia. }
  destruct n as [|n]; [lia|]. unfold has in *. cbn [firstn lookup]. destruct (keq k1 k); [reflexivity|]. apply (IH (i + 1) j n E). lia.
Qed.

Notation bef := (before step spec con m_reads).
Notation aft := (after step spec con m_reads).
Notation befq := (before_quiet step spec con m_reads minv mlooks).
Lemma m_bef_ret m r s : minv s -> step s m = Ok (s, r) -> bef m (Ret r) s.
Proof using All. intros H E. apply before_ret with (inv := minv); [exact mlooks|exact H|]. apply (mstep_spec s m s r H E). Qed.
Lemma m_aft_ret r s : minv s -> aft r (Ret r) s.
Proof using All. intros H. apply after_ret with (inv := minv); [exact mlooks|exact H]. Qed.
Lemma m_commit m r f s s' : minv s -> f s = Ok (s', Ret r) -> step s m = Ok (s', r) -> bef m (Acc f) s.
Proof using All. intros H E Em. destruct (mstep_spec s m s' r H Em) as [Hp Hi]. eapply commit_acc with (inv := minv); [exact mlooks|exact H|exact E|exact Hp|]. apply m_aft_ret. exact Hi. Qed.

Theorem map_interrupted s m gaps : zlen (v_data s) = N -> 0 <= v_n s <= N -> m_simple keq N (con s) m -> Forall m_reads (concat gaps) ->
  exists s' r a b qa qb, iexec step (sm_main keq N m) s gaps = Ok (s', r, qa ++ qb) /\ concat gaps = a ++ b /\ length qa = length a /\
    rel_run spec (con s) (a ++ m :: b) (qa ++ r :: qb) (con s').
Proof using All.
  intros H1 H2 Hm HG. assert (Hs : minv s) by (split; auto). revert gaps HG. change (bef m (sm_main keq N m) s). pose proof (con_len s Hs) as HL.
  assert (Hfind : forall k, sm_find_idx keq s k = key_index keq k 0 (con s)) by reflexivity.
  assert (Hhas : forall k, has keq k (con s) = true -> exists j, key_index keq k 0 (con s) = Some j).
  { intros k Hk. destruct (key_index keq k 0 (con s)) as [j|] eqn:Ej; [eauto|]. unfold has in Hk. rewrite (proj1 (key_index_none keq k _ 0 Ej)) in Hk. discriminate Hk. }
  destruct m as [k v|k|k|k|k|k v| | | | | |]; cbn [sm_main m_simple] in *.
  - destruct (Hhas k Hm) as [j Ej]. eapply befq; [exact Hs|apply range_all; exact Hs|]. rewrite Ej. destruct (index_in s k j Hs Ej) as (e & Hj & He & _).
    eapply m_commit; [exact Hs|cbn; unfold fv_at, fv_set; rewrite (rd_ok _ _ _ He); cbn; rewrite wr_ok by lia; reflexivity|].
    cbn [sm_step]. unfold sm_assign, sm_ref. rewrite Hfind, Ej. cbn [bind]. unfold fv_at, fv_set. rewrite (rd_ok _ _ _ He). cbn [bind]. rewrite wr_ok by lia. reflexivity.
  - destruct (Hhas k Hm) as [j Ej]. eapply befq; [exact Hs|apply range_all; exact Hs|]. rewrite Ej. destruct (index_in s k j Hs Ej) as (e & Hj & He & _).
    eapply befq; [exact Hs|eapply quiet_acc; [cbn; rewrite (rd_ok _ _ _ He); reflexivity|constructor]|]. apply m_bef_ret; [exact Hs|].
    cbn [sm_step]. unfold sm_read_ref, sm_ref. rewrite Hfind, Ej. cbn [bind]. unfold fv_at. rewrite (rd_ok _ _ _ He). reflexivity.
  - eapply befq; [exact Hs|apply iter_all; exact Hs|]. destruct (key_index keq k 0 (con s)) as [j|] eqn:Ej.
    + destruct (index_in s k j Hs Ej) as (e & Hj & He & _).
      eapply befq; [exact Hs|eapply quiet_acc; [cbn; rewrite (rd_ok _ _ _ He); reflexivity|constructor]|]. apply m_bef_ret; [exact Hs|].
      cbn [sm_step]. unfold sm_find. rewrite Hfind, Ej. unfold fv_at. rewrite (rd_ok _ _ _ He). reflexivity.
    + apply m_bef_ret; [exact Hs|]. cbn [sm_step]. unfold sm_find. rewrite Hfind, Ej. reflexivity.
  - eapply befq; [exact Hs|apply range_all; exact Hs|]. destruct (key_index keq k 0 (con s)) as [j|] eqn:Ej; (apply m_bef_ret; [exact Hs|]); cbn [sm_step]; unfold sm_contains; rewrite Hfind, Ej; reflexivity.
  - eapply befq; [exact Hs|apply iter_all; exact Hs|]. destruct (key_index keq k 0 (con s)) as [j|] eqn:Ej.
    2: { apply m_bef_ret; [exact Hs|]. cbn [sm_step]. unfold sm_erase. rewrite Hfind, Ej. reflexivity. }
    destruct (index_in s k j Hs Ej) as (e & Hj & He & _). destruct (Z.eq_dec j (v_n s - 1)) as [Hl|Hl].
    2: { exfalso. unfold but_last in Hm. rewrite (index_has k _ 0 j _ Ej) in Hm; [discriminate Hm|]. rewrite HL. lia. }
    eapply befq; [exact Hs|eapply quiet_acc; [reflexivity|constructor]|]. replace (j =? v_n s) with false by lia.
    eapply befq; [exact Hs|eapply quiet_acc; [reflexivity|constructor]|]. replace (v_n s =? 0) with false by lia.
    eapply befq; [exact Hs|eapply quiet_acc; [reflexivity|constructor]|]. replace (Z.to_nat (v_n s - (j + 1))) with O by lia. cbn [shift_pairs].
    eapply befq; [exact Hs|eapply quiet_acc; [reflexivity|constructor]|].
    eapply m_commit; [exact Hs|reflexivity|]. cbn [sm_step]. unfold sm_erase. rewrite Hfind, Ej. unfold fv_erase_range.
    replace ((v_n s =? 0) || (j + 1 - j <=? 0)) with false by lia. replace (Z.to_nat (v_n s - (j + 1))) with O by lia. cbn. replace (v_n s - (j + 1 - j)) with (v_n s - 1) by lia. reflexivity.
  - eapply befq; [exact Hs|apply iter_all; exact Hs|]. destruct (key_index keq k 0 (con s)) as [j|] eqn:Ej.
    { apply m_bef_ret; [exact Hs|]. cbn [sm_step]. unfold sm_insert. cbn [fst]. rewrite Hfind, Ej. reflexivity. }
    destruct Hm as [Hm|Hm]; [destruct (Hhas k Hm); congruence|]. rewrite HL in Hm. unfold grow.
    eapply befq; [exact Hs|eapply quiet_acc; [reflexivity|constructor]|]. replace (v_n s >=? N) with true by lia. rewrite Z.eqb_refl.
    apply m_bef_ret; [exact Hs|]. cbn [sm_step]. unfold sm_insert, fv_push_ow. cbn [fst]. rewrite Hfind, Ej. replace (v_n s >=? N) with true by lia. rewrite Z.eqb_refl. reflexivity.
  - eapply befq; [exact Hs|eapply quiet_acc; [reflexivity|constructor]|]. apply m_bef_ret; [exact Hs|reflexivity].
  - apply m_bef_ret; [exact Hs|reflexivity].
  - eapply befq; [exact Hs|eapply quiet_acc; [reflexivity|constructor]|]. apply m_bef_ret; [exact Hs|reflexivity].
  - eapply befq; [exact Hs|eapply quiet_acc; [reflexivity|constructor]|]. apply m_bef_ret; [exact Hs|reflexivity].
  - eapply m_commit; [exact Hs|reflexivity|reflexivity].
  - eapply befq; [exact Hs|eapply quiet_acc; [reflexivity|]|apply m_bef_ret; [exact Hs|reflexivity]].
    pose proof (pairs_quiet s (Z.to_nat (v_n s)) 0 Hs ltac:(lia) ltac:(lia)) as Q. exact Q.
Qed.

(* ---- other keys ---- *)
Lemma lookup_pre k' v (l r : list (K * V)) : lookup keq k' l = Some v -> lookup keq k' (l ++ r) = Some v.
Proof using All. induction l as [|[k1 v1] l IH]; cbn; [discriminate|]. destruct (keq k1 k'); auto. Qed.
Lemma lookup_app_no k (l r : list (K * V)) : lookup keq k l = None -> lookup keq k (l ++ r) = lookup keq k r.
Proof using All. induction l as [|[k1 v1] l IH]; cbn; [reflexivity|]. destruct (keq k1 k); [discriminate|exact IH]. Qed.

Section Other.
Variables (k' : K) (w : V).
Definition mj (s : St) : Prop := minv s /\ lookup keq k' (con s) = Some w.
Notation thr Post := (through step m_reads mj Post).
Lemma m_thr_acc (Post : St -> mout K V -> Prop) f s s1 p : mj s -> f s = Ok (s1, p) -> thr Post p s1 -> thr Post (Acc f) s.
Proof using All. intros H E Hp. eapply through_acc; [exact mlooks|apply H|exact H|exact E|exact Hp]. Qed.
Lemma m_thr_ret (Post : St -> mout K V -> Prop) r s : mj s -> Post s r -> thr Post (Ret r) s.
Proof using All. intros H HP. eapply through_ret; [exact mlooks|apply H|exact H|exact HP]. Qed.
Lemma m_thr_quiet (Post : St -> mout K V -> Prop) p p' s : mj s -> quiet s p p' -> thr Post p' s -> thr Post p s.
Proof using All. intros H Q Hp. eapply (through_quiet step spec con m_reads minv mlooks); [apply H|exact H|exact Q|exact Hp]. Qed.
Lemma m_thr_n (Post : St -> mout K V -> Prop) k s : mj s -> thr Post (k (v_n s)) s -> thr Post (load_n k) s.
Proof using All. intros H Hp. eapply m_thr_acc; [exact H|reflexivity|exact Hp]. Qed.

(* bringing in a new key, up to the point where its key has been stored *)
Lemma thr_new (Post : St -> mout K V -> Prop) k i e d n cont s : mj s -> d = v_data s ->
  (n = v_n s + 1 /\ i = v_n s /\ v_n s < N \/ n = v_n s /\ i = N - 1 /\ v_n s = N /\ lookup keq k' (but_last (con s)) = Some w) -> znth d i = Some e ->
  (mj (FVec (zupd d i (k, snd e)) n) -> (forall v, mj (FVec (zupd (zupd d i (k, snd e)) i (k, v)) n)) -> thr Post cont (FVec (zupd d i (k, snd e)) n)) ->
  thr Post (store_fst i k cont) (FVec d n) /\ mj (FVec d n).
Proof using All.
  intros [Hi Hl] -> HC He H. pose proof Hi as [H1 H2]. pose proof (con_len s Hi) as HL.
  assert (U : forall x, mj (FVec (zupd (v_data s) i x) n)).
  { intros x. split; [split; cbn; rewrite ?zlen_zupd; lia|]. destruct HC as [(-> & -> & Hlt)|(-> & -> & Hf & Hb)].
    - rewrite (con_grow _ _ x) by (rewrite ?zlen_zupd; try lia; apply znth_zupd_eq; lia). apply lookup_pre. rewrite con_beyond by lia. destruct s. exact Hl.
    - rewrite con_upd by lia. replace (FVec (v_data s) (v_n s)) with s by (destruct s; reflexivity). replace (N - 1) with (zlen (con s) - 1) by lia. rewrite (but_last_upd keq k') by lia. apply lookup_pre. exact Hb. }
  assert (J0 : mj (FVec (v_data s) n)) by (rewrite <- (zupd_same (v_data s) i e He); apply U).
  split; [|exact J0]. eapply m_thr_acc; [exact J0|cbn; unfold fv_at, fv_set; cbn; rewrite (rd_ok _ _ _ He); cbn; rewrite wr_ok by lia; reflexivity|].
  apply H; [apply U|]. intros v. rewrite zupd_zupd_eq. apply U.
Qed.

Theorem map_other m s gaps : (forall a b, keq a b = true <-> a = b) ->
  zlen (v_data s) = N -> 0 <= v_n s <= N ->
  m_adds m -> m_key m <> Some k' -> lookup keq k' (m_kept keq N (con s) m) = Some w ->
  Forall m_reads (concat gaps) ->
  exists s' r q, iexec step (sm_main keq N m) s gaps = Ok (s', r, q) /\ map_spec keq N (con s) m r (con s') /\
    Forall2 (fun o r => (o = MFind k' -> r = MoOpt (Some w)) /\ (o = MContains k' -> r = MoBool true)) (concat gaps) q.
Proof using All.
  intros Hk H1 H2 Ha Hm Hl HG. assert (Hs : minv s) by (split; auto). pose proof (con_len s Hs) as HL.
  assert (Hl0 : lookup keq k' (con s) = Some w).
  { unfold m_kept in Hl. destruct (m_key m) as [k|]; [|exact Hl]. destruct (has keq k (con s) || (zlen (con s) <? N)) eqn:Eh; [exact Hl|].
    unfold but_last in Hl. rewrite <- (firstn_skipn (Z.to_nat (zlen (con s) - 1)) (con s)). apply lookup_pre. exact Hl. }
  assert (Hj : mj s) by (split; auto).
  destruct (mwhole s m Hs) as (sf & rf & E & Hp & Hf).
  assert (Hfind : forall k, sm_find_idx keq s k = key_index keq k 0 (con s)) by reflexivity.
  assert (X : thr (fun s' r => s' = sf /\ r = rf) (sm_main keq N m) s).
  { assert (Ref : forall k cont s1 i, Some k <> Some k' -> lookup keq k' (m_kept keq N (con s) (MRef k)) = Some w -> sm_ref keq N s k = Ok (s1, i) ->
      (mj s1 -> exists e, znth (v_data s1) i = Some e /\ 0 <= i < N /\ ((forall v, mj (FVec (zupd (v_data s1) i (fst e, v)) (v_n s1))) -> thr (fun s' r => s' = sf /\ r = rf) (cont i) s1)) ->
      thr (fun s' r => s' = sf /\ r = rf) (sm_ref_prog keq N k cont) s).
    { intros k cont s1 i Hn Hkept Er H. unfold sm_ref_prog. eapply m_thr_quiet; [exact Hj|apply range_all; exact Hs|]. unfold sm_ref in Er. rewrite Hfind in Er.
      destruct (key_index keq k 0 (con s)) as [j|] eqn:Ej.
      - injection Er as <- <-. destruct (H Hj) as (e & He & Hi & Hc). apply Hc. intros v. split; [split; cbn; rewrite ?zlen_zupd; auto|].
        destruct (index_in s k j Hs Ej) as (e' & Hj' & He' & Hc' & _). rewrite He in He'. injection He' as <-.
        destruct (key_index_some keq k _ 0 j Ej) as (_ & k1 & v1 & Hz & _ & Hput & _). rewrite Z.sub_0_r in *. rewrite Hc' in Hz. injection Hz as ->. cbn [fst].
        rewrite con_upd by lia. replace (FVec (v_data s) (v_n s)) with s by (destruct s; reflexivity). rewrite <- Hput. rewrite (lookup_put_other keq Hk); [exact Hl0|]. congruence.
      - destruct (key_index_none keq k _ 0 Ej) as (Hno & _). unfold m_kept in Hkept. cbn [m_key] in Hkept. unfold has in Hkept. rewrite Hno in Hkept. cbn [orb] in Hkept.
        unfold grow. apply m_thr_n; [exact Hj|]. unfold fv_push_ow in Er. rewrite HL in Hkept. destruct (Z.geb_spec (v_n s) N) as [Hc|Hc].
        + rewrite Z.eqb_refl in *. destruct (znth_some (v_data s) (N - 1)) as [e He]; [lia|]. unfold fv_at, fv_set in Er. rewrite (rd_ok _ _ _ He) in Er. cbn [bind] in Er. rewrite wr_ok in Er by lia. cbn [bind] in Er. injection Er as <- <-.
          replace (v_n s <? N) with false in Hkept by lia.
          destruct (thr_new (fun s' r => s' = sf /\ r = rf) k (N - 1) e (v_data s) (v_n s) (cont (N - 1)) s Hj eq_refl) as [T _]; [right; repeat split; auto; lia|exact He| |replace (FVec (v_data s) (v_n s)) with s in T by (destruct s; reflexivity); exact T].
          intros J1 J2. destruct (H J1) as (e1 & He1 & _ & Hc1). cbn [v_data v_n] in *. rewrite znth_zupd_eq in He1 by lia. injection He1 as <-. apply Hc1. exact J2.
        + replace (v_n s =? N) with false in Er by lia. destruct (znth_some (v_data s) (v_n s)) as [e He]; [lia|]. unfold fv_at, fv_set in Er. cbn [v_data v_n] in Er. rewrite (rd_ok _ _ _ He) in Er. cbn [bind] in Er. rewrite wr_ok in Er by lia. cbn [bind] in Er. injection Er as <- <-.
          destruct (thr_new (fun s' r => s' = sf /\ r = rf) k (v_n s) e (v_data s) (v_n s + 1) (cont (v_n s)) s Hj eq_refl) as [T _]; [left; repeat split; auto; lia|exact He| |].
          * intros J1 J2. destruct (H J1) as (e1 & He1 & _ & Hc1). cbn [v_data v_n] in *. rewrite znth_zupd_eq in He1 by lia. injection He1 as <-. apply Hc1. exact J2.
          * apply m_thr_n; [exact Hj|]. apply m_thr_n; [exact Hj|]. eapply m_thr_acc; [exact Hj|reflexivity|]. replace (v_n s =? N) with false by lia. exact T. }
    clear HG gaps Hp. destruct m as [k v|k|k|k|k|k v| | | | | |]; cbn [sm_main m_key m_adds] in *; try contradiction; cbn [sm_step] in E.
    - unfold sm_assign in E. destruct (sm_ref keq N s k) as [[s1 i]| |] eqn:Er; cbn [bind] in E; [|discriminate E..]. eapply Ref; [exact Hm|exact Hl|exact Er|].
      intros J1. pose proof J1 as [[D1 D2] _]. unfold fv_at in E. destruct (rd (v_data s1) i) as [e| |] eqn:Erd; cbn [bind] in E; [|discriminate E..].
      assert (He : znth (v_data s1) i = Some e) by (unfold rd in Erd; destruct (znth (v_data s1) i); [injection Erd as <-; reflexivity|discriminate Erd]).
      assert (Hi : 0 <= i < N) by (apply znth_some_range in He; lia). unfold fv_set in E. rewrite wr_ok in E by lia. cbn [bind] in E. injection E as <- <-.
      exists e. split; [exact He|]. split; [exact Hi|]. intros J2. eapply m_thr_acc; [exact J1|cbn; unfold fv_at, fv_set; rewrite Erd; cbn; rewrite wr_ok by lia; reflexivity|]. apply m_thr_ret; [apply J2|auto].
    - unfold sm_read_ref in E. destruct (sm_ref keq N s k) as [[s1 i]| |] eqn:Er; cbn [bind] in E; [|discriminate E..]. eapply Ref; [exact Hm|exact Hl|exact Er|].
      intros J1. pose proof J1 as [[D1 D2] _]. unfold fv_at in E. destruct (rd (v_data s1) i) as [e| |] eqn:Erd; cbn [bind] in E; [|discriminate E..].
      assert (He : znth (v_data s1) i = Some e) by (unfold rd in Erd; destruct (znth (v_data s1) i); [injection Erd as <-; reflexivity|discriminate Erd]).
      assert (Hi : 0 <= i < N) by (apply znth_some_range in He; lia). injection E as <- <-.
      exists e. split; [exact He|]. split; [exact Hi|]. intros J2. eapply m_thr_acc; [exact J1|cbn; rewrite Erd; reflexivity|]. apply m_thr_ret; auto.
    - eapply m_thr_quiet; [exact Hj|apply iter_all; exact Hs|]. unfold sm_insert in E. cbn [fst] in E. rewrite Hfind in E. destruct (key_index keq k 0 (con s)) as [j|] eqn:Ej; [injection E as <- <-; apply m_thr_ret; auto|].
      unfold grow. apply m_thr_n; [exact Hj|]. unfold fv_push_ow in E. destruct (Z.geb_spec (v_n s) N) as [Hc|Hc].
      + rewrite Z.eqb_refl in *. injection E as <- <-. apply m_thr_ret; auto.
      + replace (v_n s =? N) with false in E by lia. destruct (znth_some (v_data s) (v_n s)) as [e He]; [lia|]. unfold fv_at, fv_set in E. cbn [v_data v_n] in E. rewrite (rd_ok _ _ _ He) in E. cbn [bind] in E. rewrite wr_ok in E by lia. cbn [bind] in E. injection E as <- <-.
        apply m_thr_n; [exact Hj|]. apply m_thr_n; [exact Hj|]. eapply m_thr_acc; [exact Hj|reflexivity|]. replace (v_n s =? N) with false by lia.
        eapply (thr_new (fun s' r => s' = FVec (zupd (v_data s) (v_n s) (k, snd e)) (v_n s + 1) /\ r = MoBool true) k (v_n s) e (v_data s)); [exact Hj|reflexivity|left; repeat split; auto; lia|exact He|].
        intros J1 _. apply m_thr_ret; auto. }
  destruct (X gaps HG) as (s' & r & q & Ex & [-> ->] & Hq). exists sf, rf, q. split; [exact Ex|]. split; [exact Hp|].
  clear - HN Hq Hk. induction Hq as [|o r os q Ho _ IH]; constructor; [|exact IH]. destruct Ho as (s1 & (I1 & L1) & E1).
  split; intros ->.
  - destruct (mlooks s1 (MFind k') I1 I) as (r1 & E2 & Hp). rewrite E1 in E2. injection E2 as <-. destruct Hp as [-> _]. rewrite L1. reflexivity.
  - destruct (mlooks s1 (MContains k') I1 I) as (r1 & E2 & Hp). rewrite E1 in E2. injection E2 as <-. destruct Hp as [-> _]. unfold has. rewrite L1. reflexivity.
Qed.
End Other.

(* ---- what the handler sees of a call that is not simple ---- *)
Lemma find_now s k v : minv s -> lookup keq k (con s) = Some v -> step s (MFind k) = Ok (s, MoOpt (Some v)).
Proof using All. intros H Hl. destruct (mlooks s (MFind k) H I) as (r & E & [-> _]). rewrite Hl in E. exact E. Qed.

(* an entry that was added and erased again is still stored *)
Lemma erased_kept s k0 v0 : minv s -> v_n s < N -> keq k0 k0 = true -> lookup keq k0 (con s) = None ->
  let d1 := zupd (v_data s) (v_n s) (k0, v0) in
  run step s [MAssign k0 v0; MErase k0; MContains k0] = Ok (FVec d1 (v_n s), [MoUnit; MoNum 1; MoBool false]) /\
  minv (FVec d1 (v_n s)) /\ con (FVec d1 (v_n s)) = con s /\ znth d1 (v_n s) = Some (k0, v0).
Proof using All.
  intros Hs Hn Hk Hl d1. pose proof Hs as [H1 H2]. destruct (znth_some (v_data s) (v_n s)) as [e He]; [lia|].
  assert (D1 : zlen d1 = N) by (unfold d1; rewrite zlen_zupd; exact H1). assert (Z1 : znth d1 (v_n s) = Some (k0, v0)) by (apply znth_zupd_eq; lia).
  assert (C1 : con (FVec d1 (v_n s)) = con s) by (unfold d1; rewrite con_beyond by lia; destruct s; reflexivity).
  assert (Ea : step s (MAssign k0 v0) = Ok (FVec d1 (v_n s + 1), MoUnit)).
  { cbn [sm_step]. unfold sm_assign, sm_ref, sm_find_idx. rewrite index_of by exact Hl. unfold fv_push_ow. replace (v_n s >=? N) with false by lia. replace (v_n s =? N) with false by lia.
    unfold fv_at, fv_set. cbn [v_data v_n]. rewrite (rd_ok _ _ _ He). cbn [bind]. rewrite wr_ok by lia. cbn [bind v_data v_n]. rewrite (rd_ok _ (v_n s) (k0, snd e)) by (apply znth_zupd_eq; lia).
    cbn [bind]. rewrite wr_ok by (rewrite zlen_zupd; lia). cbn [bind fst]. rewrite zupd_zupd_eq. reflexivity. }
  assert (C2 : con (FVec d1 (v_n s + 1)) = con s ++ [(k0, v0)]) by (rewrite (con_grow d1 (v_n s) (k0, v0)) by (auto; lia); rewrite C1; reflexivity).
  assert (I2 : minv (FVec d1 (v_n s + 1))) by (split; cbn; auto; lia). assert (I1 : minv (FVec d1 (v_n s))) by (split; cbn; auto; lia).
  assert (Ix : key_index keq k0 0 (con s ++ [(k0, v0)]) = Some (v_n s)).
  { rewrite <- (con_len s Hs). clear - Hk Hl. generalize (con s) Hl. clear - Hk. intros l Hl. replace (zlen l) with (0 + zlen l) by lia. generalize 0. induction l as [|[k1 v1] l IH]; intros i; cbn [app key_index fst].
    - rewrite Hk. f_equal. unfold zlen. cbn. lia.
    - cbn in Hl. destruct (keq k1 k0); [discriminate|]. rewrite IH by exact Hl. f_equal. rewrite zlen_cons. lia. }
  assert (Ee : step (FVec d1 (v_n s + 1)) (MErase k0) = Ok (FVec d1 (v_n s), MoNum 1)).
  { cbn [sm_step]. unfold sm_erase, sm_find_idx. rewrite C2, Ix. unfold fv_erase_range. cbn [v_n v_data]. replace ((v_n s + 1 =? 0) || (v_n s + 1 - v_n s <=? 0)) with false by lia.
    replace (Z.to_nat (v_n s + 1 - (v_n s + 1))) with O by lia. cbn. do 3 f_equal. lia. }
  split; [|auto]. cbn [run]. rewrite Ea. cbn [bind]. rewrite Ee. cbn [bind]. cbn [sm_step]. unfold sm_contains, sm_find_idx. rewrite C1, index_of by exact Hl. reflexivity.
Qed.
Theorem new_key_shows_erased s k v k0 v0 : zlen (v_data s) = N -> 0 <= v_n s < N -> keq k0 k0 = true -> keq k k = true ->
  lookup keq k (con s) = None -> lookup keq k0 (con s) = None ->
  exists s1, run step s [MAssign k0 v0; MErase k0; MContains k0] = Ok (s1, [MoUnit; MoNum 1; MoBool false]) /\
    (exists gaps s', concat gaps = [MFind k0] /\ iexec step (sm_main keq N (MAssign k v)) s1 gaps = Ok (s', MoUnit, [MoOpt (Some v0)])) /\
    (exists gaps s', concat gaps = [MFind k] /\ iexec step (sm_main keq N (MAssign k v)) s1 gaps = Ok (s', MoUnit, [MoOpt (Some v0)])).
Proof using All.
  intros H1 H2 Hk0 Hk Hl Hl0. assert (Hs : minv s) by (split; auto; lia). destruct (erased_kept s k0 v0 Hs ltac:(lia) Hk0 Hl0) as (Er & I1 & C1 & Z1).
  set (n := v_n s) in *. set (d1 := zupd (v_data s) n (k0, v0)) in *. set (s1 := FVec d1 n) in *. assert (D1 : zlen d1 = N) by apply I1. exists s1. split; [exact Er|].
  assert (C2 : con (FVec d1 (n + 1)) = con s ++ [(k0, v0)]) by (rewrite (con_grow d1 n (k0, v0)) by (auto; lia); fold s1; rewrite C1; reflexivity).
  assert (C3 : con (FVec (zupd d1 n (k, v0)) (n + 1)) = con s ++ [(k, v0)]).
  { rewrite (con_grow _ n (k, v0)) by (rewrite ?zlen_zupd; try lia; apply znth_zupd_eq; lia). rewrite con_beyond by lia. fold s1. rewrite C1. reflexivity. }
  assert (Fin : iexec step (store_snd n v (Ret MoUnit)) (FVec (zupd d1 n (k, v0)) (n + 1)) [] = Ok (FVec (zupd (zupd d1 n (k, v0)) n (k, v)) (n + 1), MoUnit, [])).
  { cbn. unfold fv_at, fv_set. cbn. rewrite (rd_ok _ n (k, v0)) by (apply znth_zupd_eq; lia). cbn. rewrite wr_ok by (rewrite zlen_zupd; lia). reflexivity. }
  split.
  - enough (X : exists s', sees step (MFind k0) (MoOpt (Some v0)) (sm_main keq N (MAssign k v)) s1 s' MoUnit) by (destruct X as (s' & gaps & Hc & E); exists gaps, s'; auto).
    eexists. cbn [sm_main]. unfold sm_ref_prog. eapply sees_quiet; [apply range_all; exact I1|]. rewrite C1, index_of by exact Hl. unfold grow.
    eapply sees_acc; [reflexivity|]. cbn [v_n s1]. replace (n >=? N) with false by lia. eapply sees_acc; [reflexivity|]. eapply sees_acc; [reflexivity|]. eapply sees_acc; [reflexivity|]. cbn [v_n v_data s1].
    replace (n =? N) with false by lia. eapply (sees_now step _ _ _ _ (FVec d1 (n + 1))); [|cbn; unfold fv_at, fv_set; cbn; rewrite (rd_ok _ _ _ Z1); cbn; rewrite wr_ok by lia; reflexivity|exact Fin].
    apply find_now; [split; cbn; auto; lia|]. rewrite C2, lookup_app_no by exact Hl0. cbn. rewrite Hk0. reflexivity.
  - enough (X : exists s', sees step (MFind k) (MoOpt (Some v0)) (sm_main keq N (MAssign k v)) s1 s' MoUnit) by (destruct X as (s' & gaps & Hc & E); exists gaps, s'; auto).
    eexists. cbn [sm_main]. unfold sm_ref_prog. eapply sees_quiet; [apply range_all; exact I1|]. rewrite C1, index_of by exact Hl. unfold grow.
    eapply sees_acc; [reflexivity|]. cbn [v_n s1]. replace (n >=? N) with false by lia. eapply sees_acc; [reflexivity|]. eapply sees_acc; [reflexivity|]. eapply sees_acc; [reflexivity|]. cbn [v_n v_data s1].
    replace (n =? N) with false by lia. eapply sees_acc; [cbn; unfold fv_at, fv_set; cbn; rewrite (rd_ok _ _ _ Z1); cbn; rewrite wr_ok by lia; reflexivity|].
    eapply (sees_now step _ _ _ _ (FVec (zupd d1 n (k, v0)) (n + 1))); [|cbn; unfold fv_at, fv_set; cbn; rewrite (rd_ok _ n (k, v0)) by (apply znth_zupd_eq; lia); cbn; rewrite wr_ok by (rewrite zlen_zupd; lia); reflexivity|reflexivity].
    apply find_now; [split; cbn; rewrite ?zlen_zupd; auto; lia|]. rewrite C3, lookup_app_no by exact Hl. cbn. rewrite Hk. reflexivity.
Qed.

Lemma sees_rest q rest s' r : forall n first dst s d', 0 <= dst <= first -> first + Z.of_nat n <= zlen (v_data s) -> move_forward n (v_data s) first dst = Ok d' ->
  iexec step rest (FVec d' (v_n s)) [] = Ok (s', r, q) -> iexec step (@shift_pairs K V n first dst rest) s [] = Ok (s', r, q).
Proof using All.
  induction n as [|n IH]; intros first dst s d' Hd Hn E Hr; cbn [shift_pairs move_forward] in *.
  - injection E as <-. destruct s. exact Hr.
  - destruct (znth_some (v_data s) first) as [e He]; [lia|]. rewrite (rd_ok _ _ _ He) in E. cbn [bind] in E. rewrite wr_ok in E by lia. cbn [bind] in E.
    destruct (znth_some (v_data s) dst) as [x Hx]; [lia|].
    assert (Y : iexec step (shift_pairs n (first + 1) (dst + 1) rest) (FVec (zupd (v_data s) dst e) (v_n s)) [] = Ok (s', r, q)) by (eapply IH; [lia|cbn; rewrite zlen_zupd; lia|exact E|exact Hr]).
    cbn -[shift_pairs]. rewrite (rd_ok _ _ _ He). cbn -[shift_pairs]. unfold fv_at, fv_set. rewrite (rd_ok _ _ _ Hx). cbn -[shift_pairs]. rewrite wr_ok by lia. cbn -[shift_pairs].
    assert (He' : exists e', znth (zupd (v_data s) dst (fst e, snd x)) first = Some e' /\ snd e' = snd e).
    { rewrite znth_zupd. destruct (Z.eqb_spec dst first) as [->|]; cbn [andb].
      - replace ((0 <=? first) && (first <? zlen (v_data s))) with true by lia. eexists. split; [reflexivity|]. cbn. congruence.
      - exists e. auto. }
    destruct He' as (e' & He' & Hs'). rewrite (rd_ok _ _ _ He'). cbn -[shift_pairs]. unfold fv_at, fv_set. cbn -[shift_pairs]. rewrite (rd_ok _ dst (fst e, snd x)) by (apply znth_zupd_eq; lia). cbn -[shift_pairs].
    rewrite wr_ok by (rewrite zlen_zupd; lia). cbn -[shift_pairs]. rewrite zupd_zupd_eq, Hs'. replace (fst e, snd e) with e by (destruct e; reflexivity). rewrite Y. reflexivity.
Qed.
Theorem erase_shows_torn s a k w k1 w1 b : zlen (v_data s) = N -> 0 <= v_n s <= N -> con s = a ++ (k, w) :: (k1, w1) :: b -> keq k k = true -> keq k1 k1 = true ->
  lookup keq k a = None -> lookup keq k1 a = None ->
  exists gaps s', concat gaps = [MFind k1] /\ iexec step (sm_main keq N (MErase k)) s gaps = Ok (s', MoNum 1, [MoOpt (Some w)]).
Proof using All.
  intros H1 H2 Hc Hk Hk1 Ha Ha1. assert (Hs : minv s) by (split; auto). pose proof (con_len s Hs) as HL. set (j := zlen a).
  pose proof (zlen_nonneg a). pose proof (zlen_nonneg b). assert (Hn : v_n s = j + 2 + zlen b) by (rewrite <- HL, Hc, zlen_app, !zlen_cons; unfold j; lia).
  assert (Ix : key_index keq k 0 (con s) = Some j).
  { rewrite Hc. clear - Hk Ha. unfold j. replace (zlen a) with (0 + zlen a) by lia. generalize 0. induction a as [|[k2 v2] a IH]; intros i; cbn [app key_index fst].
    - rewrite Hk. f_equal. unfold zlen. cbn. lia.
    - cbn in Ha. destruct (keq k2 k); [discriminate|]. rewrite IH by exact Ha. f_equal. rewrite zlen_cons. lia. }
  assert (Nth : forall i e, znth (con s) i = Some e -> znth (v_data s) i = Some e).
  { intros i e He. rewrite con_nth in He by exact Hs. destruct (i <? v_n s); [exact He|discriminate He]. }
  assert (Zj : znth (v_data s) j = Some (k, w)).
  { apply Nth. rewrite Hc, znth_app. unfold j. replace (zlen a <? zlen a) with false by lia. rewrite Z.sub_diag. reflexivity. }
  assert (Zj1 : znth (v_data s) (j + 1) = Some (k1, w1)).
  { apply Nth. rewrite Hc, znth_app. unfold j. replace (zlen a + 1 <? zlen a) with false by lia. replace (zlen a + 1 - zlen a) with 1 by lia. reflexivity. }
  set (n' := Z.to_nat (v_n s - (j + 1) - 1)). assert (Hn' : Z.to_nat (v_n s - (j + 1)) = S n') by (unfold n'; lia).
  set (sm := FVec (zupd (v_data s) j (k1, w)) (v_n s)).
  assert (Im : minv sm) by (split; cbn; rewrite ?zlen_zupd; auto).
  assert (Cm : con sm = a ++ (k1, w) :: (k1, w1) :: b).
  { unfold sm. rewrite con_upd by lia. replace (FVec (v_data s) (v_n s)) with s by (destruct s; reflexivity). rewrite Hc. unfold j, zupd, zlen. replace (Z.of_nat (length a) <? 0) with false by lia. rewrite Nat2Z.id. clear. induction a as [|x a IH]; cbn; [reflexivity|f_equal; exact IH]. }
  destruct (move_forward_ok n' (zupd (v_data s) j (k1, w1)) (j + 1 + 1) (j + 1)) as (d' & Ed & _); [lia|rewrite zlen_zupd; lia|].
  enough (X : exists s', sees step (MFind k1) (MoOpt (Some w)) (sm_main keq N (MErase k)) s s' (MoNum 1)) by (destruct X as (s' & gaps & E1 & E2); exists gaps, s'; auto).
  eexists. cbn [sm_main]. eapply sees_quiet; [apply iter_all; exact Hs|]. rewrite Ix.
  eapply sees_acc; [reflexivity|]. replace (j =? v_n s) with false by lia. eapply sees_acc; [reflexivity|]. replace (v_n s =? 0) with false by lia. eapply sees_acc; [reflexivity|].
  cbn beta. rewrite Hn'. cbn [shift_pairs]. eapply sees_acc; [cbn -[shift_pairs]; rewrite (rd_ok _ _ _ Zj1); reflexivity|]. cbn [fst].
  eapply sees_acc; [cbn -[shift_pairs]; unfold fv_at, fv_set; rewrite (rd_ok _ _ _ Zj); cbn -[shift_pairs]; rewrite wr_ok by lia; reflexivity|]. fold sm.
  assert (Zm : znth (v_data sm) (j + 1) = Some (k1, w1)) by (unfold sm; cbn; rewrite znth_zupd; replace (j =? j + 1) with false by lia; exact Zj1).
  eapply (sees_now step _ _ _ _ sm); [apply find_now; [exact Im|]; rewrite Cm, lookup_app_no by exact Ha1; cbn; rewrite Hk1; reflexivity|cbn -[shift_pairs]; unfold sm in Zm; cbn in Zm; rewrite (rd_ok _ _ _ Zm); reflexivity|].
  cbn [snd]. cbn -[shift_pairs]. unfold fv_at, fv_set. cbn -[shift_pairs]. rewrite (rd_ok _ j (k1, w)) by (apply znth_zupd_eq; lia). cbn -[shift_pairs]. rewrite wr_ok by (rewrite zlen_zupd; lia). cbn -[shift_pairs]. rewrite zupd_zupd_eq.
  erewrite (sees_rest []); [reflexivity|lia|cbn; rewrite zlen_zupd; lia|exact Ed|]. cbn. reflexivity.
Qed.
End SM.
