From Verif.Common Require Import Base Lemmas Lists.
From Verif.Spec Require Import VectorSpec MapSpec.
From Verif.Model Require Import FixedVector Maps.
From Verif.Proofs Require Import FixedVector.

Section KeyIndex.
Context {K V : Type}.
Variable keq : K -> K -> bool.

Lemma key_index_some k (l : list (K * V)) : forall i j, key_index keq k i l = Some j ->
  i <= j < i + zlen l /\ exists k' v', znth l (j - i) = Some (k', v') /\ lookup keq k l = Some v' /\
    (forall v, put keq k v l = zupd l (j - i) (k', v)) /\
    (forall dk dv, blank keq dk dv k l = zupd l (j - i) (dk, dv)) /\
    del keq k l = firstn (Z.to_nat (j - i)) l ++ skipn (Z.to_nat (j - i + 1)) l.
Proof.
  induction l as [|[k1 v1] l IH]; intros i j E; cbn [key_index fst] in E; [discriminate|].
  cbn [lookup put blank del]. destruct (keq k1 k) eqn:Ek.
  - injection E as <-. rewrite zlen_cons. pose proof (zlen_nonneg l). split; [lia|].
    replace (i - i) with 0 by lia. exists k1, v1. splits; reflexivity.
  - destruct (IH _ _ E) as (Hj & k' & v' & H1 & H2 & H3 & H4 & H5). rewrite zlen_cons. split; [lia|].
    assert (Ej : Z.to_nat (j - i) = S (Z.to_nat (j - (i + 1)))) by lia.
    assert (Ej' : Z.to_nat (j - i + 1) = S (Z.to_nat (j - (i + 1) + 1))) by lia.
    exists k', v'. splits.
    + unfold znth in *. replace (j - i <? 0) with false by lia. replace (j - (i + 1) <? 0) with false in H1 by lia.
      rewrite Ej. exact H1.
    + assumption.
    + intros v. unfold zupd in *. specialize (H3 v). replace (j - i <? 0) with false by lia. replace (j - (i + 1) <? 0) with false in H3 by lia.
      rewrite Ej. cbn [upd_nat]. f_equal. exact H3.
    + intros dk dv. unfold zupd in *. specialize (H4 dk dv). replace (j - i <? 0) with false by lia. replace (j - (i + 1) <? 0) with false in H4 by lia.
      rewrite Ej. cbn [upd_nat]. f_equal. exact H4.
    + rewrite Ej, Ej'. cbn [firstn skipn app]. f_equal. exact H5.
Qed.

Lemma key_index_none k (l : list (K * V)) : forall i, key_index keq k i l = None ->
  lookup keq k l = None /\ (forall v, put keq k v l = l ++ [(k, v)]) /\ (forall dk dv, blank keq dk dv k l = l) /\ del keq k l = l.
Proof.
  induction l as [|[k1 v1] l IH]; intros i E; cbn [key_index fst lookup put del blank app] in *.
  - splits; reflexivity.
  - destruct (keq k1 k); [discriminate|]. destruct (IH _ E) as (H1 & H2 & H3 & H4). splits; auto.
    + intros v. f_equal. apply H2.
    + intros dk dv. f_equal. apply H3.
    + f_equal. assumption.
Qed.

Lemma find_key_index k (l : list (K * V)) : forall i, find_key keq k i (map fst l) = key_index keq k i l.
Proof. induction l as [|p l IH]; intros i; cbn; [reflexivity|]. destruct (keq (fst p) k); auto. Qed.

(** The association list really is a finite map. *)
Lemma lookup_put_same (Hk : forall a, keq a a = true) k v (l : list (K * V)) : lookup keq k (put keq k v l) = Some v.
Proof.
  induction l as [|[k1 v1] l IH]; cbn; [rewrite Hk; reflexivity|].
  destruct (keq k1 k) eqn:E; cbn; rewrite E; auto.
Qed.
Section Eq.
Hypothesis Hk : forall a b, keq a b = true <-> a = b.
Lemma lookup_put_other k k' v (l : list (K * V)) : k <> k' -> lookup keq k' (put keq k v l) = lookup keq k' l.
Proof.
  intros Hn. assert (keq k k' = false) by (apply not_true_iff_false; intros E; apply Hk in E; contradiction).
  induction l as [|[k1 v1] l IH]; cbn; [rewrite H; reflexivity|].
  destruct (keq k1 k) eqn:E; cbn.
  - apply Hk in E; subst k1. rewrite H. reflexivity.
  - destruct (keq k1 k'); auto.
Qed.
Lemma lookup_none_in k (l : list (K * V)) : lookup keq k l = None <-> ~ In k (map fst l).
Proof.
  induction l as [|[k1 v1] l IH]; cbn; [tauto|]. destruct (keq k1 k) eqn:E.
  - apply Hk in E. split; [discriminate|intros H; exfalso; apply H; auto].
  - rewrite IH. assert (k1 <> k) by (intros ->; assert (keq k k = true) by (apply Hk; reflexivity); congruence). tauto.
Qed.
Lemma put_keys k v (l : list (K * V)) : map fst (put keq k v l) = if has keq k l then map fst l else map fst l ++ [k].
Proof.
  unfold has. induction l as [|[k1 v1] l IH]; cbn; [reflexivity|].
  destruct (keq k1 k) eqn:E; cbn; [reflexivity|]. rewrite IH. destruct (lookup keq k l); reflexivity.
Qed.
Lemma del_nodup k (l : list (K * V)) : NoDup (map fst l) -> NoDup (map fst (del keq k l)).
Proof.
  assert (forall (l : list (K * V)) x, In x (map fst (del keq k l)) -> In x (map fst l)) as Hin.
  { intros l0 x; induction l0 as [|[k1 v1] l0 IH]; cbn; [tauto|]. destruct (keq k1 k); cbn; tauto. }
  induction l as [|[k1 v1] l IH]; cbn; [auto|]. intros H; inversion H as [|? ? Hn Hd]; subst.
  destruct (keq k1 k); cbn; [assumption|]. constructor; [intros HI; apply Hn; eapply Hin; eauto|auto].
Qed.
Lemma nodup_snoc (l : list K) k : NoDup l -> ~ In k l -> NoDup (l ++ [k]).
Proof.
  intros H Hn. apply NoDup_rev in H. rewrite <- (rev_involutive (l ++ [k])). apply NoDup_rev.
  rewrite rev_app_distr. cbn. constructor; [rewrite <- in_rev; assumption|assumption].
Qed.
Lemma firstn_nodup n (l : list K) : NoDup l -> NoDup (firstn n l).
Proof.
  revert n; induction l as [|a l IH]; intros [|n] H; cbn; try constructor; inversion H; subst; auto.
  intros HI. apply H2. rewrite <- (firstn_skipn n l). apply in_or_app; auto.
Qed.
End Eq.
End KeyIndex.

Section SMap.
Context {K V : Type}.
Variables (keq : K -> K -> bool) (N : Z) (dk : K) (dv : V).
Notation VRel := (@VRel (K * V) N).

Lemma has_some k v (l : list (K * V)) : lookup keq k l = Some v -> has keq k l = true.
Proof. unfold has; intros ->; reflexivity. Qed.
Lemma has_none k (l : list (K * V)) : lookup keq k l = None -> has keq k l = false.
Proof. unfold has; intros ->; reflexivity. Qed.

Lemma find_idx_ok (s : fvec (K * V)) l k : VRel s l -> sm_find_idx keq s k = key_index keq k 0 l.
Proof. intros (_ & _ & ->). reflexivity. Qed.

Lemma at_ok s l i : VRel s l -> 0 <= i < v_n s -> exists e, fv_at s i = Ok e /\ znth l i = Some e.
Proof.
  intros HR Hi. pose proof (vrel_nth N s l i HR) as Hn. destruct HR as (Hd & Hv & _).
  destruct (znth_some (v_data s) i) as [e He]; [lia|]. exists e. split; [unfold fv_at; apply rd_ok; assumption|].
  rewrite Hn. replace (i <? v_n s) with true by lia. assumption.
Qed.
Lemma set_ok s l i e : VRel s l -> 0 <= i < N -> exists s', fv_set s i e = Ok s' /\ VRel s' (zupd l i e) /\ v_n s' = v_n s.
Proof.
  intros HR Hi. pose proof (fun j => vrel_nth N s l j HR) as Hn. destruct HR as (Hd & Hv & _). unfold fv_set.
  rewrite wr_ok by lia. cbn [bind]. eexists; split; [reflexivity|]. split; [|reflexivity].
  apply vrel_intro; [rewrite zlen_zupd; assumption|assumption|]. intros j Hj. rewrite !znth_zupd, Hn.
  assert (zlen l = v_n s). { destruct (Z.eq_dec (zlen l) (v_n s)); [assumption|]. exfalso.
    assert (Hx : forall q, 0 <= q -> (exists e, znth l q = Some e) <-> q < v_n s).
    { intros q Hq. rewrite Hn. destruct (Z.ltb_spec q (v_n s)).
      - split; [lia|intros _; apply znth_some; lia].
      - split; [intros [e0 He0]; discriminate|lia]. }
    pose proof (zlen_nonneg l).
    destruct (Z.lt_ge_cases (zlen l) (v_n s)).
    - destruct (proj2 (Hx (zlen l) ltac:(lia))) as [e0 He0]; [lia|]. apply znth_some_range in He0; lia.
    - assert (v_n s < v_n s); [|lia]. apply Hx; [lia|]. apply znth_some; lia. }
  repeat (zcase1; try (exfalso; lia)); try reflexivity.
Qed.

(** Extending by one "for overwrite" element. *)
Lemma push_ow_ok s l : VRel s l -> v_n s < N ->
  exists junk, fv_push_ow N s = (FVec (v_data s) (v_n s + 1), v_n s) /\ VRel (FVec (v_data s) (v_n s + 1)) (l ++ [junk]).
Proof.
  intros HR Hlt. pose proof (fun j => vrel_nth N s l j HR) as Hn. pose proof (vrel_len N s l HR) as HL. destruct HR as (Hd & Hv & _).
  unfold fv_push_ow. replace (v_n s >=? N) with false by lia.
  destruct (znth_some (v_data s) (v_n s)) as [e He]; [lia|]. exists e. split; [reflexivity|].
  apply vrel_intro; [assumption|lia|]. intros j Hj. rewrite znth_app, Hn, HL, znth_cons, znth_nil.
  repeat (zcase1; try (exfalso; lia)); try reflexivity.
  replace j with (v_n s) by lia. symmetry; assumption.
Qed.

Lemma zupd_last {A} (l : list A) (x y : A) : zupd (l ++ [x]) (zlen l) y = l ++ [y].
Proof.
  unfold zupd. pose proof (zlen_nonneg l). replace (zlen l <? 0) with false by lia. unfold zlen. rewrite Nat2Z.id.
  induction l as [|a l IH]; cbn; [reflexivity|]. f_equal. apply IH. apply zlen_nonneg.
Qed.
Lemma but_last_upd (l : list (K * V)) e : 0 < zlen l -> zupd l (zlen l - 1) e = but_last l ++ [e].
Proof.
  intros H. unfold but_last. apply znth_opt_ext. intros i Hi. rewrite znth_zupd. znorm.
  repeat (zcase1; try (exfalso; lia)); try reflexivity; try (apply znth_none; lia).
Qed.

Hypothesis HN : 0 < N.

(* what operator[] designates *)
Lemma ref_ok s l k : VRel s l -> exists s1 i l1 k1 v1, sm_ref keq N s k = Ok (s1, i) /\ VRel s1 l1 /\ 0 <= i < v_n s1 /\
  znth l1 i = Some (k1, v1) /\
  match lookup keq k l with
  | Some v0 => v1 = v0 /\ l1 = l /\ forall v, put keq k v l = zupd l i (k1, v)
  | None => k1 = k /\ i = zlen l1 - 1 /\
      if zlen l <? N then l1 = l ++ [(k, v1)] else last_value l = Some v1 /\ l1 = but_last l ++ [(k, v1)]
  end.
Proof.
  intros HR. pose proof (vrel_len N s l HR) as HL. unfold sm_ref. rewrite (find_idx_ok s l k HR).
  destruct (key_index keq k 0 l) as [j|] eqn:Ej.
  - destruct (key_index_some keq k l 0 j Ej) as (Hj & k' & v' & H1 & H2 & H3 & _ & _). replace (j - 0) with j in * by lia.
    exists s, j, l, k', v'. rewrite H2. splits; auto; lia.
  - destruct (key_index_none keq k l 0 Ej) as (H1 & _). rewrite H1.
    pose proof HR as (Hd & Hv & _).
    destruct (Z.ltb_spec (zlen l) N) as [Hlt|Hge].
    + destruct (push_ow_ok s l HR) as (junk & Ep & HRp); [lia|]. rewrite Ep.
      replace (v_n s =? N) with false by lia.
      destruct (at_ok _ _ (v_n s) HRp) as (e & Ee & Hze); [cbn; lia|]. rewrite Ee. cbn [bind].
      rewrite znth_app, znth_cons, HL in Hze. replace (v_n s <? v_n s) with false in Hze by lia. replace (v_n s - v_n s =? 0) with true in Hze by lia.
      injection Hze as <-.
      destruct (set_ok _ _ (v_n s) (k, snd junk) HRp) as (s2 & Es & HR2 & Hn2); [lia|]. rewrite Es. cbn [bind].
      rewrite <- HL, zupd_last in HR2. cbn [v_n] in Hn2.
      exists s2, (v_n s), (l ++ [(k, snd junk)]), k, (snd junk). splits; auto; try lia.
      * rewrite znth_app, HL. replace (v_n s <? v_n s) with false by lia. rewrite znth_cons. replace (v_n s - v_n s =? 0) with true by lia. reflexivity.
      * rewrite zlen_app, zlen_cons, zlen_nil. lia.
    + unfold fv_push_ow. replace (v_n s >=? N) with true by lia. rewrite Z.eqb_refl.
      destruct (at_ok _ _ (N - 1) HR) as ([ke ve] & Ee & Hze); [cbn; lia|]. rewrite Ee. cbn [bind snd].
      destruct (set_ok _ _ (N - 1) (k, ve) HR) as (s2 & Es & HR2 & Hn2); [lia|]. rewrite Es. cbn [bind].
      replace (N - 1) with (zlen l - 1) in HR2 by lia. rewrite but_last_upd in HR2 by lia.
      pose proof (vrel_len N _ _ HR2) as HL2.
      exists s2, (N - 1), (but_last l ++ [(k, ve)]), k, ve. splits; auto; try lia.
      * rewrite <- but_last_upd by lia. rewrite znth_zupd. replace (N - 1 =? zlen l - 1) with true by lia. cbn [andb].
        replace ((0 <=? N - 1) && (N - 1 <? zlen l)) with true by lia. repeat (zcase1; try (exfalso; lia)). reflexivity.
      * unfold last_value. replace (zlen l - 1) with (N - 1) by lia. rewrite Hze. reflexivity.
Qed.

Lemma sm_refines s l o : VRel s l ->
  exists s' r l', sm_step keq N s o = Ok (s', r) /\ map_spec keq N l o r l' /\ VRel s' l'.
Proof.
  intros HR. pose proof (vrel_len N s l HR) as HL. pose proof HR as (Hd & Hv & Hc).
  destruct o as [k v|k|k|k|k|k v| | | | | |]; cbn [sm_step map_spec].
  - unfold sm_assign. destruct (ref_ok s l k HR) as (s1 & i & l1 & k1 & v1 & E & HR1 & Hi & Hz & HC). rewrite E. cbn [bind].
    destruct (at_ok s1 l1 i HR1 Hi) as (e & Ee & Hze). rewrite Ee. cbn [bind]. rewrite Hz in Hze. injection Hze as <-. cbn [fst].
    pose proof HR1 as (Hd1 & Hv1 & _).
    destruct (set_ok s1 l1 i (k1, v) HR1) as (s2 & Es & HR2 & _); [lia|]. rewrite Es. cbn [bind].
    exists s2, MoUnit, (zupd l1 i (k1, v)). splits; auto.
    unfold has. destruct (lookup keq k l) as [v0|] eqn:El; cbn [orb].
    + destruct HC as (_ & -> & HC). rewrite HC. reflexivity.
    + destruct HC as (-> & -> & HC).
      assert (Hput : put keq k v l = l ++ [(k, v)]).
      { destruct (key_index keq k 0 l) as [j|] eqn:Ej; [destruct (key_index_some _ _ _ _ _ Ej) as (_ & ? & ? & _ & ? & _); congruence|].
        apply (key_index_none _ _ _ _ Ej). }
      destruct (zlen l <? N).
      * rewrite HC, Hput. rewrite zlen_app, zlen_cons, zlen_nil. replace (zlen l + (0 + 1) - 1) with (zlen l) by lia. apply zupd_last.
      * destruct HC as (_ & ->). rewrite zlen_app, zlen_cons, zlen_nil. replace (zlen (but_last l) + (0 + 1) - 1) with (zlen (but_last l)) by lia. apply zupd_last.
  - unfold sm_read_ref. destruct (ref_ok s l k HR) as (s1 & i & l1 & k1 & v1 & E & HR1 & Hi & Hz & HC). rewrite E. cbn [bind].
    destruct (at_ok s1 l1 i HR1 Hi) as (e & Ee & Hze). rewrite Ee. cbn [bind]. rewrite Hz in Hze. injection Hze as <-. cbn [snd].
    exists s1, (MoVal v1), l1. splits; auto. exists v1. split; [reflexivity|].
    destruct (lookup keq k l) as [v0|].
    + destruct HC as (-> & -> & _); auto.
    + destruct HC as (_ & _ & HC). destruct (zlen l <? N); auto.
  - unfold sm_find. rewrite (find_idx_ok s l k HR). destruct (key_index keq k 0 l) as [j|] eqn:Ej.
    + destruct (key_index_some keq k l 0 j Ej) as (Hj & k' & v' & H1 & H2 & _). replace (j - 0) with j in * by lia.
      destruct (at_ok s l j HR) as (e & Ee & Hze); [lia|]. rewrite Ee; cbn [bind]. rewrite H1 in Hze. injection Hze as <-.
      do 3 eexists; splits; [reflexivity|rewrite H2; reflexivity|reflexivity|assumption].
    + destruct (key_index_none keq k l 0 Ej) as (H1 & _). do 3 eexists; splits; [reflexivity|rewrite H1; reflexivity|reflexivity|assumption].
  - unfold sm_contains. rewrite (find_idx_ok s l k HR). do 3 eexists; splits; [reflexivity| |reflexivity|assumption].
    destruct (key_index keq k 0 l) as [j|] eqn:Ej.
    + destruct (key_index_some keq k l 0 j Ej) as (Hj & k' & v' & H1 & H2 & _). rewrite (has_some k v' l H2). reflexivity.
    + destruct (key_index_none keq k l 0 Ej) as (H1 & _). rewrite (has_none k l H1). reflexivity.
  - unfold sm_erase. rewrite (find_idx_ok s l k HR). destruct (key_index keq k 0 l) as [j|] eqn:Ej.
    + destruct (key_index_some keq k l 0 j Ej) as (Hj & k' & v' & H1 & H2 & _ & _ & H5). replace (j - 0) with j in * by lia.
      rewrite (has_some k v' l H2).
      destruct (fv_refines N (dk, dv) false s l (VEraseRange j (j + 1)) eq_refl HR) as (s' & r & l' & E & HS & HR'); [cbn; lia|].
      cbn [fv_step vec_spec] in E, HS. replace ((j <=? v_n s) && (j + 1 <=? v_n s)) with true in E by lia.
      destruct (fv_erase_range s j (j + 1)) as [s''| |]; cbn [bind] in E; try discriminate. injection E as <- <-.
      destruct HS as (_ & HS). replace ((j <? j + 1) && (j + 1 <=? zlen l)) with true in HS by lia.
      cbn [bind]. do 3 eexists; splits; [reflexivity|reflexivity| |exact HR']. rewrite HS, H5. reflexivity.
    + destruct (key_index_none keq k l 0 Ej) as (H1 & _ & _ & H4). rewrite (has_none k l H1).
      do 3 eexists; splits; [reflexivity|reflexivity| |exact HR]. congruence.
  - unfold sm_insert. cbn [fst]. rewrite (find_idx_ok s l k HR). destruct (key_index keq k 0 l) as [j|] eqn:Ej.
    + destruct (key_index_some keq k l 0 j Ej) as (Hj & k' & v' & H1 & H2 & _). rewrite (has_some k v' l H2). cbn [orb bind].
      do 3 eexists; splits; [reflexivity|reflexivity|reflexivity|exact HR].
    + destruct (key_index_none keq k l 0 Ej) as (H1 & _). rewrite (has_none k l H1). cbn [orb].
      destruct (Z.leb_spec N (zlen l)) as [Hge|Hlt].
      * unfold fv_push_ow. replace (v_n s >=? N) with true by lia. rewrite Z.eqb_refl. cbn [bind].
        do 3 eexists; splits; [reflexivity|reflexivity|reflexivity|exact HR].
      * destruct (push_ow_ok s l HR) as (junk & Ep & HRp); [lia|]. rewrite Ep.
        replace (v_n s =? N) with false by lia.
        destruct (at_ok _ _ (v_n s) HRp) as (e & Ee & Hze); [cbn; lia|]. rewrite Ee. cbn [bind].
        destruct (set_ok _ _ (v_n s) (k, snd e) HRp) as (s2 & Es & HR2 & Hn2); [lia|]. rewrite Es. cbn [bind].
        rewrite <- HL, zupd_last in HR2.
        do 3 eexists; splits; [reflexivity|reflexivity| |exact HR2]. eexists; reflexivity.
  - do 3 eexists; splits; [reflexivity| |reflexivity|exact HR]. congruence.
  - do 3 eexists; splits; [reflexivity|reflexivity|reflexivity|exact HR].
  - do 3 eexists; splits; [reflexivity| |reflexivity|exact HR]. congruence.
  - do 3 eexists; splits; [reflexivity| |reflexivity|exact HR]. congruence.
  - do 3 eexists; splits; [reflexivity|reflexivity|reflexivity|]. unfold fv_clear. apply vrel_intro; [assumption|lia|].
    intros j Hj. rewrite znth_nil. replace (j <? 0) with false by lia. reflexivity.
  - do 3 eexists; splits; [reflexivity| |reflexivity|exact HR]. unfold fv_contents. congruence.
Qed.

Lemma sm_run ops : exists s' outs l', run (sm_step keq N) (sm_init N dk dv) ops = Ok (s', outs) /\
  rel_run (map_spec keq N) [] ops outs l' /\ fv_contents s' = l' /\ zlen l' <= N.
Proof.
  destruct (run_refines_rel (sm_step keq N) (map_spec keq N) (fun _ _ => True) VRel) with (ops := ops) (s := sm_init N dk dv) (q := @nil (K * V))
    as (s' & rs & l' & E & HS & HR).
  - intros s q o HR _. apply sm_refines; assumption.
  - apply vrel_init. zl; lia.
  - auto.
  - exists s', rs, l'. splits; auto.
    + destruct HR as (_ & _ & ->). reflexivity.
    + rewrite (vrel_len N s' l' HR). destruct HR; lia.
Qed.

End SMap.

Section SMapKeys.
Context {K V : Type}.
Variables (keq : K -> K -> bool) (N : Z).
Hypothesis Hk : forall a b, keq a b = true <-> a = b.

Lemma spec_nodup (l l' : list (K * V)) o r : map_spec keq N l o r l' -> NoDup (map fst l) -> NoDup (map fst l').
Proof.
  assert (Hbl : forall (l : list (K * V)) k v, lookup keq k l = None -> NoDup (map fst l) -> NoDup (map fst (but_last l ++ [(k, v)]))).
  { intros l0 k v Hl Hd. rewrite map_app. unfold but_last. rewrite <- firstn_map. cbn. apply nodup_snoc; [apply firstn_nodup; assumption|].
    apply (lookup_none_in keq Hk) in Hl. intros HI. apply Hl.
    rewrite <- (firstn_skipn (Z.to_nat (zlen l0 - 1)) (map fst l0)). apply in_or_app; auto. }
  assert (Hsn : forall (l : list (K * V)) k v, lookup keq k l = None -> NoDup (map fst l) -> NoDup (map fst (l ++ [(k, v)]))).
  { intros l0 k v Hl Hd. rewrite map_app. apply nodup_snoc; [assumption|]. apply (lookup_none_in keq Hk); assumption. }
  destruct o as [k v|k|k|k|k|k v| | | | | |]; cbn [map_spec]; intros H Hd; try (destruct H as [_ ->]; assumption).
  - destruct H as [_ ->]. unfold has. destruct (lookup keq k l) as [v0|] eqn:El; cbn [orb].
    + rewrite put_keys. rewrite (has_some keq k v0 l El). assumption.
    + destruct (zlen l <? N); [|auto]. rewrite put_keys, (has_none keq k l El). apply nodup_snoc; [assumption|].
      apply (lookup_none_in keq Hk); assumption.
  - destruct H as (v & _ & H). destruct (lookup keq k l) as [v0|] eqn:El; [destruct H as [_ ->]; assumption|].
    destruct (zlen l <? N); [subst l'; auto|destruct H as [_ ->]; auto].
  - destruct H as [_ ->]. apply del_nodup; assumption.
  - unfold has in H. destruct (lookup keq k l) as [v0|] eqn:El; cbn [orb] in H; [destruct H as [_ ->]; assumption|].
    destruct (N <=? zlen l); [destruct H as [_ ->]; assumption|]. destruct H as (_ & junk & ->). auto.
  - destruct H as [_ ->]. constructor.
Qed.

Lemma rel_run_nodup ops : forall (l l' : list (K * V)) outs, rel_run (map_spec keq N) l ops outs l' -> NoDup (map fst l) -> NoDup (map fst l').
Proof.
  induction ops as [|o ops IH]; intros l l' [|r outs] H Hd; cbn [rel_run] in H; try contradiction.
  - subst; assumption.
  - destruct H as (l1 & H1 & H2). eapply IH; [exact H2|]. eapply spec_nodup; eauto.
Qed.

Lemma sm_keys_distinct (dk : K) (dv : V) ops : 0 < N ->
  exists s' outs, run (sm_step keq N) (sm_init N dk dv) ops = Ok (s', outs) /\ NoDup (map fst (fv_contents s')).
Proof.
  intros HN. destruct (sm_run keq N dk dv HN ops) as (s' & outs & l' & E & HS & Hc & _).
  exists s', outs. split; [exact E|]. rewrite Hc. eapply rel_run_nodup; [exact HS|constructor].
Qed.
End SMapKeys.

(** insert never looks at the value. *)
Lemma insert_ignores_value {K V : Type} (keq : K -> K -> bool) N (s : fvec (K * V)) k v v' :
  sm_insert keq N s (k, v) = sm_insert keq N s (k, v').
Proof. reflexivity. Qed.

Lemma const_ref_missing {K V : Type} (keq : K -> K -> bool) N (s : fvec (K * V)) k :
  VRel N s (fv_contents s) -> lookup keq k (fv_contents s) = None -> sm_const_ref keq s k = UB BadDeref.
Proof.
  intros HR HL. unfold sm_const_ref, sm_find_idx. destruct (key_index keq k 0 (fv_contents s)) as [j|] eqn:Ej; [|reflexivity].
  destruct (key_index_some _ _ _ _ _ Ej) as (_ & ? & ? & _ & ? & _); congruence.
Qed.

Section Lost.
Context {K V : Type}.
Variables (keq : K -> K -> bool) (N : Z) (dk : K) (dv : V).
Hypothesis HN : 0 < N.

Lemma sm_reach ops s outs : run (sm_step keq N) (sm_init N dk dv) ops = Ok (s, outs) -> VRel N s (fv_contents s).
Proof.
  intros E.
  destruct (run_refines_rel (@sm_step K V keq N) (@map_spec K V keq N) (fun _ _ => True) (VRel N)) with (ops := ops) (s := sm_init N dk dv) (q := @nil (K * V))
    as (s' & rs & l' & E' & _ & HR).
  - intros s0 q o HR _. apply (sm_refines keq N dk dv HN); assumption.
  - apply vrel_init. zl; lia.
  - auto.
  - rewrite E in E'. injection E' as <- <-. pose proof HR as (_ & _ & Hl). unfold fv_contents. rewrite <- Hl. exact HR.
Qed.

Lemma insert_value_lost ops s outs k : keq k k = true ->
  run (sm_step keq N) (sm_init N dk dv) ops = Ok (s, outs) ->
  lookup keq k (fv_contents s) = None -> v_n s < N ->
  exists w, forall v, exists s', run (sm_step keq N) s [MInsert k v; MFind k] = Ok (s', [MoBool true; MoOpt (Some w)]).
Proof.
  intros Hkk E Hl Hn. pose proof (sm_reach _ _ _ E) as HR. pose proof (vrel_len N _ _ HR) as HL.
  assert (forall v, exists s' w, sm_insert keq N s (k, v) = Ok (s', true) /\ sm_find keq s' k = Ok (Some w)) as H.
  { intros v.
    destruct (sm_refines keq N dk dv HN s (fv_contents s) (MInsert k v) HR) as (s1 & r1 & l1 & E1 & S1 & R1).
    cbn [sm_step map_spec] in E1, S1. unfold has in S1. rewrite Hl in S1. cbn [orb] in S1.
    replace (N <=? zlen (fv_contents s)) with false in S1 by lia. destruct S1 as (-> & junk & ->).
    destruct (sm_insert keq N s (k, v)) as [[s1' b]| |]; cbn [bind] in E1; try discriminate. injection E1 as -> ->.
    destruct (sm_refines keq N dk dv HN s1 _ (MFind k) R1) as (s2 & r2 & l2 & E2 & S2 & R2).
    cbn [sm_step map_spec] in E2, S2. destruct S2 as (-> & _).
    exists s1, junk. split; [reflexivity|].
    destruct (sm_find keq s1 k) as [o| |]; cbn [bind] in E2; try discriminate. assert (Eo : o = lookup keq k (fv_contents s ++ [(k, junk)])) by congruence. rewrite Eo. f_equal.
    revert Hl. generalize (fv_contents s). intros l. induction l as [|[k1 v1] l IH]; cbn; [rewrite Hkk; reflexivity|].
    destruct (keq k1 k); [discriminate|exact IH]. }
  destruct (H dv) as (s0 & w & Ei & Ef). exists w. intros v. exists s0. cbn [run sm_step].
  rewrite (insert_ignores_value keq N s k v dv), Ei. cbn [bind]. rewrite Ef. reflexivity.
Qed.

Lemma const_index_missing ops s outs k :
  run (sm_step keq N) (sm_init N dk dv) ops = Ok (s, outs) ->
  lookup keq k (fv_contents s) = None -> sm_const_ref keq s k = UB BadDeref.
Proof. intros E. apply const_ref_missing with (N := N). eapply sm_reach; exact E. Qed.
End Lost.

Lemma insert_otherwise {K V : Type} (keq : K -> K -> bool) N (dk : K) (dv : V) (HN : 0 < N) (ops : list (mop K V)) s outs k v :
  run (sm_step keq N) (sm_init N dk dv) ops = Ok (s, outs) ->
  exists s' b, sm_insert keq N s (k, v) = Ok (s', b) /\
    b = negb (has keq k (fv_contents s)) && (zlen (fv_contents s) <? N) /\
    (b = false -> s' = s) /\ (b = true -> exists junk, fv_contents s' = fv_contents s ++ [(k, junk)]).
Proof.
  intros E. pose proof (sm_reach keq N dk dv HN _ _ _ E) as HR. pose proof (vrel_len N _ _ HR) as HL.
  destruct (sm_refines keq N dk dv HN s (fv_contents s) (MInsert k v) HR) as (s1 & r1 & l1 & E1 & S1 & R1).
  cbn [sm_step map_spec] in E1, S1.
  destruct (sm_insert keq N s (k, v)) as [[s1' b]| |] eqn:Ei; cbn [bind] in E1; try discriminate. injection E1 as -> <-.
  exists s1, b. split; [reflexivity|].
  destruct (has keq k (fv_contents s)) eqn:Eh; cbn [orb negb andb] in *.
  - destruct S1 as (S1 & S2). injection S1 as ->. splits; try discriminate; auto.
    intros _. unfold sm_insert in Ei. cbn [fst] in Ei. destruct (sm_find_idx keq s k) eqn:Ef; [congruence|].
    unfold sm_find_idx in Ef. destruct (key_index_none _ _ _ _ Ef) as (Hx & _). unfold has in Eh. rewrite Hx in Eh. discriminate.
  - destruct (Z.leb_spec N (zlen (fv_contents s))).
    + destruct S1 as (S1 & S2). injection S1 as ->. replace (zlen (fv_contents s) <? N) with false by lia. splits; try discriminate; auto.
      intros _. unfold sm_insert in Ei. cbn [fst] in Ei. destruct (sm_find_idx keq s k) eqn:Ef; [congruence|].
      unfold fv_push_ow in Ei. replace (v_n s >=? N) with true in Ei by lia. rewrite Z.eqb_refl in Ei. congruence.
    + destruct S1 as (S1 & junk & S2). injection S1 as ->. replace (zlen (fv_contents s) <? N) with true by lia. splits; try discriminate; auto.
      intros _. exists junk. rewrite <- S2. destruct R1 as (_ & _ & ->). reflexivity.
Qed.
