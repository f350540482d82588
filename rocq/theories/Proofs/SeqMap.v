From Coq Require Import Permutation.
From Verif.Common Require Import Base Lemmas Lists.
From Verif.Spec Require Import MapSpec.
From Verif.Model Require Import Maps.
From Verif.Proofs Require Import Maps.

Lemma upd_split {A} (a b : list A) e x : zupd (a ++ e :: b) (zlen a) x = a ++ x :: b.
Proof.
  unfold zupd. pose proof (zlen_nonneg a). replace (zlen a <? 0) with false by lia. unfold zlen. rewrite Nat2Z.id.
  clear. induction a as [|y a IH]; cbn; [reflexivity|]. f_equal; assumption.
Qed.
Lemma split_at {A} (l : list A) i : 0 <= i < zlen l -> exists a e b, l = a ++ e :: b /\ zlen a = i.
Proof.
  intros Hi. destruct (znth_some l i Hi) as [e He].
  exists (firstn (Z.to_nat i) l), e, (skipn (Z.to_nat (i + 1)) l). split; [|apply zlen_firstn; lia].
  zeq. replace i0 with i by lia. assumption.
Qed.
Lemma map_zupd {A B} (f : A -> B) (l : list A) i x : map f (zupd l i x) = zupd (map f l) i (f x).
Proof.
  unfold zupd. destruct (i <? 0); [reflexivity|]. generalize (Z.to_nat i). clear i.
  induction l as [|a l IH]; intros [|n]; cbn; try reflexivity. f_equal; apply IH.
Qed.
Lemma zlen_map {A B} (f : A -> B) (l : list A) : zlen (map f l) = zlen l.
Proof. unfold zlen. rewrite map_length. reflexivity. Qed.
Lemma firstn_zupd_in {A} (l : list A) n i x : 0 <= i < n -> firstn (Z.to_nat n) (zupd l i x) = zupd (firstn (Z.to_nat n) l) i x.
Proof.
  intros Hi. apply znth_opt_ext. intros j Hj. rewrite znth_zupd, !znth_firstn_if, znth_zupd, zlen_firstn_min by lia.
  repeat (zcase1; try (exfalso; lia)); try reflexivity.
Qed.
Lemma firstn_zupd_end {A} (l : list A) n x : 0 <= n < zlen l -> firstn (Z.to_nat (n + 1)) (zupd l n x) = firstn (Z.to_nat n) l ++ [x].
Proof.
  intros Hi. apply znth_opt_ext. intros j Hj. znorm. rewrite znth_zupd.
  repeat (zcase1; try (exfalso; lia)); try reflexivity; apply znth_none; lia.
Qed.
Lemma znth_map {A B} (f : A -> B) (l : list A) i : znth (map f l) i = option_map f (znth l i).
Proof. unfold znth. destruct (i <? 0); [reflexivity|]. rewrite nth_error_map. reflexivity. Qed.

Lemma nodup_comm {A} (a b : list A) : NoDup (a ++ b) -> NoDup (b ++ a).
Proof. intros H. eapply Permutation.Permutation_NoDup; [apply Permutation.Permutation_app_comm|exact H]. Qed.

Section Q.
Context {K V : Type}.
Variables (keq : K -> K -> bool) (N : Z) (dk : K) (dv : V).
Hypothesis HN : 0 < N.

Definition QRel (s : seqmap K V) (q : list (K * V) * Z) : Prop :=
  zlen (q_keys s) = N /\ zlen (q_vals s) = N /\ q_sz s = zlen (fst q) /\ zlen (fst q) <= N /\
  q_oldest s = snd q /\ 0 <= snd q < N /\
  firstn (Z.to_nat (q_sz s)) (q_keys s) = map fst (fst q) /\ firstn (Z.to_nat (q_sz s)) (q_vals s) = map snd (fst q).

Lemma find_active s q k : QRel s q -> active s = Ok (map fst (fst q)) /\ find_key keq k 0 (map fst (fst q)) = key_index keq k 0 (fst q).
Proof.
  intros (H1 & H2 & H3 & H4 & H5 & H6 & H7 & H8). split; [|apply find_key_index].
  unfold active. replace (q_sz s <=? zlen (q_keys s)) with true by lia. rewrite H7. reflexivity.
Qed.

Lemma q_refines s q o : QRel s q ->
  exists s', q_step keq N dk dv s o = Ok (s', snd (slot_step keq dk dv N q o)) /\ QRel s' (fst (slot_step keq dk dv N q o)).
Proof.
  intros HR. pose proof HR as (H1 & H2 & H3 & H4 & H5 & H6 & H7 & H8). destruct q as [l old]. cbn [fst snd] in *.
  destruct s as [ks vs sz os]; cbn [q_keys q_vals q_sz q_oldest] in *. pose proof (zlen_nonneg l) as Hl0.
  assert (Hval : forall i k v, znth l i = Some (k, v) -> rd vs i = Ok v).
  { intros i k v Hi. pose proof (znth_some_range _ _ _ Hi). apply rd_ok.
    assert (Hx : znth (firstn (Z.to_nat sz) vs) i = Some v) by (rewrite H8, znth_map, Hi; reflexivity).
    rewrite znth_firstn_if in Hx. replace (i <? sz) with true in Hx by lia. assumption. }
  destruct o as [k v|k|k| |k v|k|]; cbn [q_step slot_step].
  - unfold q_overwrite. destruct (find_active _ _ k HR) as (Ea & Ef). rewrite Ea. cbn [bind fst] in *. rewrite Ef.
    cbn [q_keys q_vals q_sz q_oldest]. destruct (key_index keq k 0 l) as [j|] eqn:Ej.
    + destruct (key_index_some _ _ _ _ _ Ej) as (Hj & k' & v' & Hz & Hlk & Hp & _). replace (j - 0) with j in * by lia.
      rewrite (has_some _ _ _ _ Hlk). cbn [orb fst snd]. rewrite wr_ok by lia. cbn [bind].
      rewrite (rd_ok _ _ v) by (rewrite znth_zupd; replace (j =? j) with true by lia; cbn [andb]; replace ((0 <=? j) && (j <? zlen vs)) with true by lia; reflexivity).
      cbn [bind]. eexists; split; [reflexivity|]. rewrite Hp. unfold QRel; cbn [fst snd q_keys q_vals q_sz q_oldest].
      rewrite !zlen_zupd, !map_zupd, firstn_zupd_in, H8 by lia. cbn [fst snd]. splits; auto; try lia.
      rewrite H7. apply znth_opt_ext. intros i Hi. rewrite znth_zupd, znth_map. destruct (Z.eqb_spec j i); cbn [andb]; [|reflexivity].
      subst i. rewrite Hz. zcase1; [|reflexivity]. reflexivity.
    + destruct (key_index_none _ _ _ _ Ej) as (Hlk & Hp & _). rewrite (has_none _ _ _ Hlk). cbn [orb fst snd].
      destruct (Z.ltb_spec (zlen l) N) as [Hlt|Hge].
      * replace (sz >=? N) with false by lia. rewrite !wr_ok by lia. cbn [bind].
        rewrite (rd_ok _ _ v) by (rewrite znth_zupd; replace (sz =? sz) with true by lia; cbn [andb]; replace ((0 <=? sz) && (sz <? zlen vs)) with true by lia; reflexivity).
        cbn [bind fst snd]. eexists; split; [reflexivity|]. rewrite Hp. unfold QRel; cbn [fst snd q_keys q_vals q_sz q_oldest].
        rewrite !zlen_zupd, !map_app, !firstn_zupd_end, H7, H8, zlen_app, zlen_cons, zlen_nil by lia. cbn [map fst snd].
        splits; auto; lia.
      * replace (sz >=? N) with true by lia. subst os. rewrite !wr_ok by lia. cbn [bind].
        rewrite (rd_ok _ _ v) by (rewrite znth_zupd; replace (old =? old) with true by lia; cbn [andb]; replace ((0 <=? old) && (old <? zlen vs)) with true by lia; reflexivity).
        cbn [bind fst snd]. eexists; split; [reflexivity|]. unfold QRel; cbn [fst snd q_keys q_vals q_sz q_oldest].
        rewrite !zlen_zupd, !map_zupd, !firstn_zupd_in, H7, H8 by lia. cbn [fst snd].
        assert (Hm : (if old + 1 >=? N then 0 else old + 1) = (old + 1) mod N).
        { destruct (Z.geb_spec (old + 1) N); [replace (old + 1) with N by lia; rewrite Z_mod_same_full; reflexivity|rewrite Z.mod_small; lia]. }
        rewrite Hm. pose proof (Z.mod_pos_bound (old + 1) N HN). splits; auto; lia.
  - unfold q_get. destruct (find_active _ _ k HR) as (Ea & Ef). rewrite Ea. cbn [bind fst snd] in *. rewrite Ef. cbn [q_vals].
    destruct (key_index keq k 0 l) as [j|] eqn:Ej.
    + destruct (key_index_some _ _ _ _ _ Ej) as (Hj & k' & v' & Hz & Hlk & _). replace (j - 0) with j in * by lia.
      rewrite (Hval _ _ _ Hz). cbn [bind]. rewrite Hlk. eexists; split; [reflexivity|exact HR].
    + destruct (key_index_none _ _ _ _ Ej) as (Hlk & _). cbn [bind]. rewrite Hlk. eexists; split; [reflexivity|exact HR].
  - unfold q_exists. destruct (find_active _ _ k HR) as (Ea & Ef). rewrite Ea. cbn [bind fst snd] in *. rewrite Ef.
    eexists; split; [|exact HR]. destruct (key_index keq k 0 l) as [j|] eqn:Ej.
    + destruct (key_index_some _ _ _ _ _ Ej) as (Hj & k' & v' & Hz & Hlk & _). rewrite (has_some _ _ _ _ Hlk). reflexivity.
    + destruct (key_index_none _ _ _ _ Ej) as (Hlk & _). rewrite (has_none _ _ _ Hlk). reflexivity.
  - cbn [fst snd]. eexists; split; [|exact HR]. rewrite H3. reflexivity.
  - unfold q_insert. cbn [q_keys q_vals q_sz q_oldest]. destruct (Z.ltb_spec (zlen l) N) as [Hlt|Hge].
    + replace (sz >=? N) with false by lia. rewrite !wr_ok by lia. cbn [bind fst snd]. eexists; split; [reflexivity|].
      unfold QRel; cbn [fst snd q_keys q_vals q_sz q_oldest].
      rewrite !zlen_zupd, !map_app, !firstn_zupd_end, H7, H8, zlen_app, zlen_cons, zlen_nil by lia. cbn [map fst snd].
      splits; auto; lia.
    + replace (sz >=? N) with true by lia. cbn [bind fst snd]. eexists; split; [reflexivity|exact HR].
  - unfold q_remove. destruct (find_active _ _ k HR) as (Ea & Ef). rewrite Ea. cbn [bind fst snd] in *. rewrite Ef.
    cbn [q_keys q_vals q_sz q_oldest]. destruct (key_index keq k 0 l) as [j|] eqn:Ej.
    + destruct (key_index_some _ _ _ _ _ Ej) as (Hj & k' & v' & Hz & Hlk & _ & Hb & _). replace (j - 0) with j in * by lia.
      rewrite (has_some _ _ _ _ Hlk), !wr_ok by lia. cbn [bind]. eexists; split; [reflexivity|]. rewrite Hb.
      unfold QRel; cbn [fst snd q_keys q_vals q_sz q_oldest].
      rewrite !zlen_zupd, !map_zupd, !firstn_zupd_in, H7, H8 by lia. cbn [fst snd]. splits; auto; lia.
    + destruct (key_index_none _ _ _ _ Ej) as (Hlk & _ & Hb & _). rewrite (has_none _ _ _ Hlk), Hb. cbn [bind].
      eexists; split; [reflexivity|exact HR].
  - unfold q_remove_last. cbn [q_keys q_vals q_sz q_oldest fst snd]. eexists; split; [reflexivity|].
    unfold but_last. destruct (Z.gtb_spec sz 0) as [Hgt|Hle].
    + unfold QRel; cbn [fst snd q_keys q_vals q_sz q_oldest]. rewrite zlen_firstn_min by lia. splits; auto; try lia.
      * rewrite <- firstn_map, <- H7, firstn_firstn. f_equal. lia.
      * rewrite <- firstn_map, <- H8, firstn_firstn. f_equal. lia.
    + assert (El : l = []) by (destruct l; [reflexivity|rewrite zlen_cons in *; pose proof (zlen_nonneg l); lia]).
      subst l. cbn. exact HR.
Qed.

Lemma qrel_init ks vs : zlen ks = N -> zlen vs = N -> QRel (q_init ks vs) ([], 0).
Proof. intros. unfold QRel, q_init; cbn. splits; auto; try lia. Qed.

Lemma q_run ks vs ops : zlen ks = N -> zlen vs = N ->
  exists s', run (q_step keq N dk dv) (q_init ks vs) ops = Ok (s', snd (srun (slot_step keq dk dv N) ([], 0) ops)).
Proof.
  intros Hk Hv.
  destruct (run_refines (q_step keq N dk dv) (slot_step keq dk dv N) QRel) with (ops := ops) (s := q_init ks vs) (q := (@nil (K * V), 0)) as (s' & E & _).
  - intros s q o HR. apply q_refines; assumption.
  - apply qrel_init; assumption.
  - exists s'; assumption.
Qed.
End Q.

Section Evict.
Context {K V : Type}.
Variables (keq : K -> K -> bool) (N : Z) (dk : K) (dv : V).
Hypothesis HN : 0 < N.
Hypothesis Hk : forall a b, keq a b = true <-> a = b.

Lemma lookup_app k (a b : list (K * V)) : lookup keq k (a ++ b) = match lookup keq k a with Some v => Some v | None => lookup keq k b end.
Proof. induction a as [|[k1 v1] a IH]; cbn; [reflexivity|]. destruct (keq k1 k); auto. Qed.

Lemma lookup_swap k (a b : list (K * V)) : NoDup (map fst (a ++ b)) -> lookup keq k (a ++ b) = lookup keq k (b ++ a).
Proof.
  intros Hd. rewrite !lookup_app. destruct (lookup keq k a) as [v|] eqn:Ea; destruct (lookup keq k b) as [w|] eqn:Eb; auto.
  exfalso.
  assert (Ia : In k (map fst a)) by (destruct (in_dec (fun x y => ltac:(destruct (keq x y) eqn:E; [left; apply Hk; assumption|right; intros ->; assert (keq y y = true) by (apply Hk; reflexivity); congruence])) k (map fst a)) as [I|I]; [assumption|apply (lookup_none_in keq Hk) in I; congruence]).
  assert (Ib : In k (map fst b)) by (destruct (in_dec (fun x y => ltac:(destruct (keq x y) eqn:E; [left; apply Hk; assumption|right; intros ->; assert (keq y y = true) by (apply Hk; reflexivity); congruence])) k (map fst b)) as [I|I]; [assumption|apply (lookup_none_in keq Hk) in I; congruence]).
  rewrite map_app in Hd. revert Hd Ia. clear - Ib. induction (map fst a) as [|x l IH]; cbn; [tauto|].
  intros Hd [->|I]; inversion Hd as [|? ? Hn Hd']; subst; [apply Hn; apply in_or_app; auto|apply IH; assumption].
Qed.

Definition setv (k : K) (v : V) (p : K * V) : K * V := if keq (fst p) k then (fst p, v) else p.
Lemma setv_absent k v (l : list (K * V)) : lookup keq k l = None -> map (setv k v) l = l.
Proof.
  induction l as [|[k1 v1] l IH]; cbn; [reflexivity|]. unfold setv at 1; cbn [fst].
  destruct (keq k1 k); [discriminate|]. intros H. f_equal; auto.
Qed.
Lemma put_setv k v (l : list (K * V)) : NoDup (map fst l) -> has keq k l = true -> put keq k v l = map (setv k v) l.
Proof.
  unfold has. induction l as [|[k1 v1] l IH]; cbn; [discriminate|]. intros Hd Hh. inversion Hd as [|? ? Hn Hd']; subst.
  unfold setv at 1; cbn [fst]. destruct (keq k1 k) eqn:E.
  - f_equal. symmetry. apply setv_absent. apply Hk in E; subst. apply (lookup_none_in keq Hk). assumption.
  - f_equal. auto.
Qed.

(** slots in storage order vs. entries oldest first *)
Definition ERel (q : list (K * V) * Z) (l : list (K * V)) : Prop :=
  NoDup (map fst l) /\ zlen l <= N /\
  exists a b, fst q = a ++ b /\ l = b ++ a /\ zlen a = snd q /\ snd q < N /\ (zlen l < N -> a = []).

Lemma erel_lookup q l k : ERel q l -> lookup keq k (fst q) = lookup keq k l /\ has keq k (fst q) = has keq k l /\ zlen (fst q) = zlen l.
Proof.
  intros (Hd & _ & a & b & -> & -> & _). unfold has. rewrite (lookup_swap k b a Hd). splits; auto. rewrite !zlen_app; lia.
Qed.

Lemma evict_refines q l o : ERel q l -> overwrite_only o ->
  snd (slot_step keq dk dv N q o) = snd (evict_step keq N l o) /\ ERel (fst (slot_step keq dk dv N q o)) (fst (evict_step keq N l o)).
Proof.
  intros HR Ho. destruct q as [e old]. 
  destruct o as [k v|k|k| |k v|k|]; cbn [overwrite_only slot_step evict_step fst snd] in *; try contradiction;
    destruct (erel_lookup _ _ k HR) as (E1 & E2 & E3) || (assert (E3 : zlen e = zlen l) by (destruct HR as (_ & _ & a & b & Eq & -> & _); cbn in Eq; subst e; rewrite !zlen_app; lia));
    cbn [fst] in *.
  - split; [reflexivity|]. rewrite E2, E3.
    assert (Hd : NoDup (map fst l)) by apply HR. destruct HR as (_ & Hle & a & b & Ea & El & Hza & Holt & Hnil). cbn [fst snd] in *.
    pose proof (zlen_nonneg a) as Ha0. pose proof (zlen_nonneg b) as Hb0.
    destruct (has keq k l) eqn:Eh; cbn [orb].
    + cbn [fst]. rewrite put_setv; [|subst e l; rewrite map_app in *; apply nodup_comm; assumption|congruence].
      rewrite (put_setv k v l) by assumption. unfold ERel; cbn [fst snd].
      assert (Hf : map fst (map (setv k v) l) = map fst l).
      { rewrite map_map. apply map_ext. intros [k1 v1]. unfold setv; cbn. destruct (keq k1 k); reflexivity. }
      rewrite Hf. splits; auto. { unfold zlen in *; rewrite map_length; assumption. }
      exists (map (setv k v) a), (map (setv k v) b). subst e l. rewrite !map_app. splits; auto.
      * unfold zlen in *; rewrite map_length; assumption.
      * intros Hlt. rewrite Hnil; [reflexivity|]. unfold zlen in *. rewrite ?app_length, ?map_length in *. lia.
    + assert (Elk : lookup keq k l = None) by (unfold has in Eh; destruct (lookup keq k l); congruence).
      assert (Hput : forall l0, lookup keq k l0 = None -> put keq k v l0 = l0 ++ [(k, v)]).
      { intros l0 H0. destruct (key_index keq k 0 l0) as [j|] eqn:Ej; [destruct (key_index_some _ _ _ _ _ Ej) as (_ & ? & ? & _ & ? & _); congruence|].
        apply (key_index_none _ _ _ _ Ej). }
      pose proof (proj1 (lookup_none_in keq Hk k l) Elk) as Hnin.
      destruct (Z.ltb_spec (zlen l) N) as [Hlt|Hge].
      * cbn [fst]. specialize (Hnil Hlt). subst a. cbn [app] in *. rewrite app_nil_r in El. subst e l.
        rewrite !Hput by assumption. unfold ERel; cbn [fst snd]. splits.
        -- rewrite map_app. apply nodup_snoc; assumption.
        -- rewrite zlen_app, zlen_cons, zlen_nil. lia.
        -- exists [], (b ++ [(k, v)]). rewrite app_nil_r. splits; auto.
      * cbn [fst]. destruct b as [|e0 b].
        { cbn in El. subst l. exfalso. lia. }
        subst e l. cbn [app tl]. rewrite <- Hza, upd_split. unfold ERel; cbn [fst snd].
        rewrite zlen_app, zlen_cons in *. cbn [map app] in Hd, Hnin. inversion Hd as [|? ? Hn0 Hd']; subst.
        splits.
        -- rewrite <- app_assoc, !map_app in *. rewrite app_assoc. cbn [map fst]. apply nodup_snoc; [assumption|].
           intros HI. apply Hnin. right. assumption.
        -- rewrite ?zlen_app, ?zlen_cons, ?zlen_nil in *. lia.
        -- destruct (Z.eq_dec (zlen a + 1) N) as [Ew|Ew].
           ++ rewrite Ew, Z_mod_same_full. assert (b = []) by (destruct b; [reflexivity|rewrite zlen_cons in *; pose proof (zlen_nonneg b); lia]).
              subst b. exists [], (a ++ [(k, v)]). cbn [app]. rewrite app_nil_r. splits; auto.
           ++ rewrite Z.mod_small by lia. exists (a ++ [(k, v)]), b. rewrite <- !app_assoc. cbn [app]. splits; auto.
              ** rewrite zlen_app, zlen_cons, zlen_nil. lia.
              ** lia.
              ** intros Hc. rewrite ?zlen_app, ?zlen_cons, ?zlen_nil in *. lia.
  - rewrite E1. split; [reflexivity|exact HR].
  - rewrite E2. split; [reflexivity|exact HR].
  - rewrite E3. split; [reflexivity|exact HR].
Qed.

Lemma evict_srun ops : forall q l, ERel q l -> Forall overwrite_only ops ->
  snd (srun (slot_step keq dk dv N) q ops) = snd (srun (evict_step keq N) l ops).
Proof.
  induction ops as [|o ops IH]; intros q l HR HF; cbn [srun]; [reflexivity|]. inversion HF as [|? ? Ho HF']; subst.
  destruct (evict_refines q l o HR Ho) as (E1 & HR1).
  destruct (slot_step keq dk dv N q o) as [q1 r1]. destruct (evict_step keq N l o) as [l1 r2]. cbn [fst snd] in *. subst r2.
  specialize (IH q1 l1 HR1 HF'). destruct (srun (slot_step keq dk dv N) q1 ops). destruct (srun (evict_step keq N) l1 ops). cbn [snd] in *. congruence.
Qed.

Lemma q_evict_run ks vs ops : zlen ks = N -> zlen vs = N -> Forall overwrite_only ops ->
  exists s', run (q_step keq N dk dv) (q_init ks vs) ops = Ok (s', snd (srun (evict_step keq N) [] ops)).
Proof.
  intros H1 H2 HF. destruct (q_run keq N dk dv HN ks vs ops H1 H2) as (s' & E). exists s'. rewrite E. do 2 f_equal.
  apply evict_srun; [|assumption]. unfold ERel; cbn. splits; [constructor|lia|]. exists [], []. splits; auto; lia.
Qed.
End Evict.

Section Quirks.
Context {K V : Type}.
Variables (keq : K -> K -> bool) (N : Z) (dk : K) (dv : V).
Hypothesis HN : 0 < N.

Lemma reach ks vs ops s outs : zlen ks = N -> zlen vs = N ->
  run (q_step keq N dk dv) (q_init ks vs) ops = Ok (s, outs) -> exists q, QRel N s q.
Proof.
  intros H1 H2 E.
  destruct (run_refines (q_step keq N dk dv) (slot_step keq dk dv N) (QRel N)) with (ops := ops) (s := q_init ks vs) (q := (@nil (K * V), 0)) as (s' & E' & HR).
  - intros s0 q o HR. apply q_refines; assumption.
  - apply qrel_init; assumption.
  - rewrite E in E'. injection E' as <- _. eauto.
Qed.

Lemma duplicate_insert ks vs ops s outs k v w : zlen ks = N -> zlen vs = N ->
  run (q_step keq N dk dv) (q_init ks vs) ops = Ok (s, outs) ->
  q_get keq s k = Ok (Some w) -> q_sz s < N ->
  exists s', run (q_step keq N dk dv) s [QInsert k v; QGet k; QSize] = Ok (s', [MoBool true; MoOpt (Some w); MoNum (q_sz s + 1)]).
Proof.
  intros H1 H2 E Hg Hs. destruct (reach _ _ _ _ _ H1 H2 E) as ([l old] & HR).
  destruct (run_refines (q_step keq N dk dv) (slot_step keq dk dv N) (QRel N)) with (ops := [QInsert k v; QGet k; QSize]) (s := s) (q := (l, old)) as (s' & E' & _).
  { intros; apply q_refines; assumption. } { assumption. }
  exists s'. rewrite E'. do 2 f_equal. cbn [srun slot_step].
  assert (Hl : lookup keq k l = Some w).
  { destruct (q_refines keq N dk dv HN s (l, old) (QGet k) HR) as (s1 & E1 & _). cbn [q_step slot_step fst snd] in E1.
    rewrite Hg in E1. cbn [bind] in E1. congruence. }
  destruct HR as (_ & _ & Hz & _). cbn [fst] in Hz.
  replace (zlen l <? N) with true by lia. cbn [srun slot_step snd fst]. rewrite lookup_app, Hl, zlen_app, zlen_cons, zlen_nil.
  replace (zlen l + (0 + 1)) with (q_sz s + 1) by lia. reflexivity.
Qed.

Hypothesis Hk : forall a b, keq a b = true <-> a = b.
Lemma blank_len k (l : list (K * V)) : zlen (blank keq dk dv k l) = zlen l.
Proof. unfold zlen. f_equal. induction l as [|[k1 v1] l IH]; cbn; [reflexivity|]. destruct (keq k1 k); cbn; lia. Qed.
Lemma blank_has k (l : list (K * V)) : has keq k l = true -> has keq dk (blank keq dk dv k l) = true.
Proof.
  unfold has. induction l as [|[k1 v1] l IH]; cbn; [discriminate|]. destruct (keq k1 k); cbn.
  - intros _. assert (E : keq dk dk = true) by (apply Hk; reflexivity). rewrite E. reflexivity.
  - destruct (keq k1 dk); [reflexivity|assumption].
Qed.

Lemma remove_leaves_hole ks vs ops s outs k : zlen ks = N -> zlen vs = N ->
  run (q_step keq N dk dv) (q_init ks vs) ops = Ok (s, outs) -> q_exists keq s k = Ok true ->
  exists s', run (q_step keq N dk dv) s [QRemove k; QSize; QExists dk] = Ok (s', [MoBool true; MoNum (q_sz s); MoBool true]).
Proof.
  intros H1 H2 E Hg. destruct (reach _ _ _ _ _ H1 H2 E) as ([l old] & HR).
  destruct (run_refines (q_step keq N dk dv) (slot_step keq dk dv N) (QRel N)) with (ops := [QRemove k; QSize; QExists dk] : list (qmop K V)) (s := s) (q := (l, old)) as (s' & E' & _).
  { intros; apply q_refines; assumption. } { assumption. }
  exists s'. rewrite E'. do 2 f_equal. cbn [srun slot_step snd].
  assert (Hl : has keq k l = true).
  { destruct (q_refines keq N dk dv HN s (l, old) (QExists k) HR) as (s1 & E1 & _). cbn [q_step slot_step fst snd] in E1.
    rewrite Hg in E1. cbn [bind] in E1. congruence. }
  destruct HR as (_ & _ & Hz & _). cbn [fst] in Hz.
  rewrite Hl, blank_len, (blank_has k l Hl), Hz. reflexivity.
Qed.
End Quirks.

Section RemoveLast.
Context {K V : Type}.
Variables (keq : K -> K -> bool) (N : Z) (dk : K) (dv : V).
Hypothesis Hk : forall a b, keq a b = true <-> a = b.
Notation step := (slot_step keq dk dv N).

Lemma has_absent k (l : list (K * V)) : ~ In k (map fst l) -> has keq k l = false.
Proof using Hk.
  unfold has. induction l as [|[k1 v1] l IH]; cbn; intros H; [reflexivity|]. destruct (keq k1 k) eqn:E.
  - apply Hk in E. exfalso. apply H. left. exact E.
  - apply IH. intros X. apply H. right. exact X.
Qed.
Lemma put_absent k v (l : list (K * V)) : has keq k l = false -> put keq k v l = l ++ [(k, v)].
Proof using Type.
  unfold has. induction l as [|[k1 v1] l IH]; cbn; [reflexivity|]. destruct (keq k1 k); [discriminate|]. intros H. rewrite IH by exact H. reflexivity.
Qed.
Lemma fill_slots l : forall pre rest, NoDup (map fst (pre ++ l)) -> zlen (pre ++ l) <= N ->
  srun step (pre, 0) (map (fun e => QOverwrite (fst e) (snd e)) l ++ rest) =
  let (s, rs) := srun step (pre ++ l, 0) rest in (s, map (fun e => MoOpt (Some (snd e))) l ++ rs).
Proof using Hk.
  induction l as [|[k v] l IH]; intros pre rest ND L; cbn [map app].
  - rewrite app_nil_r. destruct (srun _ _ _); reflexivity.
  - cbn [srun slot_step fst snd]. rewrite zlen_app, zlen_cons in L. pose proof (zlen_nonneg l).
    assert (HA : has keq k pre = false). { apply has_absent. rewrite map_app in ND. cbn in ND. apply NoDup_remove_2 in ND. intros X. apply ND. apply in_or_app. left. exact X. }
    rewrite HA. replace (zlen pre <? N) with true by lia. cbn [orb]. rewrite put_absent by exact HA.
    rewrite IH.
    + rewrite <- app_assoc. cbn [app]. destruct (srun _ _ _); reflexivity.
    + rewrite <- app_assoc. exact ND.
    + rewrite <- app_assoc. cbn [app]. rewrite zlen_app, zlen_cons. lia.
Qed.
Lemma remove_last_evicted ks vs e0 mid el k v : zlen ks = N -> zlen vs = N -> zlen (e0 :: mid ++ [el]) = N ->
  NoDup (k :: map fst (e0 :: mid ++ [el])) ->
  exists s', run (q_step keq N dk dv) (q_init ks vs)
               (map (fun e => QOverwrite (fst e) (snd e)) (e0 :: mid ++ [el]) ++ [QOverwrite k v; QRemoveLast; QExists k; QExists (fst el)]) =
             Ok (s', map (fun e => MoOpt (Some (snd e))) (e0 :: mid ++ [el]) ++ [MoOpt (Some v); MoUnit; MoBool true; MoBool false]).
Proof using Hk.
  intros H1 H2 HL ND. apply NoDup_cons_iff in ND as [Hni ND']. assert (HN : 0 < N) by (rewrite zlen_cons in HL; pose proof (zlen_nonneg (mid ++ [el])); lia).
  destruct (q_run keq N dk dv HN ks vs (map (fun e => QOverwrite (fst e) (snd e)) (e0 :: mid ++ [el]) ++ [QOverwrite k v; QRemoveLast; QExists k; QExists (fst el)]) H1 H2) as (s' & E).
  exists s'. rewrite E. do 2 f_equal. clear E.
  set (l0 := e0 :: mid ++ [el]) in *.
  rewrite (fill_slots l0 [] _) by (cbn [app]; first [exact ND'|lia]). cbn [app].
  cbn [srun slot_step]. rewrite (has_absent k l0 Hni). replace (zlen l0 <? N) with false by lia. cbn [orb fst snd].
  assert (EU : zupd l0 0 (k, v) = (k, v) :: mid ++ [el]) by reflexivity. rewrite EU.
  assert (EB : but_last ((k, v) :: mid ++ [el]) = (k, v) :: mid).
  { unfold but_last. rewrite zlen_cons, zlen_app. change (zlen [el]) with 1. pose proof (zlen_nonneg mid).
    replace (Z.to_nat _) with (S (length mid)) by (unfold zlen; lia). cbn [firstn]. rewrite firstn_app, firstn_all, Nat.sub_diag. cbn. rewrite app_nil_r. reflexivity. }
  cbn [srun slot_step fst snd]. rewrite EB. do 2 f_equal. cbn [has lookup]. unfold has at 1. cbn [lookup]. replace (keq k k) with true by (symmetry; apply Hk; reflexivity).
  rewrite has_absent; [reflexivity|]. cbn [map fst]. intros [X|X].
  - apply Hni. subst k. unfold l0. cbn. right. rewrite map_app. apply in_or_app. right. left. reflexivity.
  - unfold l0 in ND'. cbn [map] in ND'. apply NoDup_cons_iff in ND' as [_ ND']. rewrite map_app in ND'. cbn in ND'. apply NoDup_remove_2 in ND'. apply ND'. rewrite app_nil_r. exact X.
Qed.
End RemoveLast.
