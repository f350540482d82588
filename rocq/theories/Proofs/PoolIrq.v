(* Pool shared with an interrupt handler. *)
From Verif.Common Require Import Base Lemmas Lists.
From Verif.Spec Require Import PoolSpec.
From Verif.Model Require Import Pool Irq PoolIrq.
From Verif.Proofs Require Import Pool Irq.

Section PI.
Context {T : Type}.
Variables (dflt : T) (N : Z).
Notation step := (p_step dflt).
Notation spec := (pool_spec dflt).
Notation St := (list (entry T)).

Lemma live_map (s : St) : live_slots s = map live s.
Proof using. reflexivity. Qed.

Lemma refines (s : St) o : zlen s = N -> pop_ok N o -> exists s' r, step s o = Ok (s', r) /\ spec (live_slots s) o r (live_slots s') /\ zlen s' = N.
Proof using.
  intros Hs Ho. destruct (p_refines dflt N s (live_slots s) o) as (s' & r & l' & E & Hp & Hl & ->); [split; auto|assumption|]. exists s', r. auto.
Qed.
Lemma run_ok : forall ops (s : St), zlen s = N -> Forall (pop_ok N) ops ->
  exists s' q, run step s ops = Ok (s', q) /\ rel_run spec (live_slots s) ops q (live_slots s') /\ zlen s' = N.
Proof using.
  induction ops as [|o ops IH]; intros s Hs HF.
  - exists s, []. cbn. auto.
  - pose proof (Forall_inv HF) as Ho. pose proof (Forall_inv_tail HF) as HF'. destruct (refines s o Hs Ho) as (s1 & r & E & Hp & H1).
    destruct (IH s1 H1 HF') as (s' & q & E' & Hr & H'). exists s', (r :: q). cbn [run]. rewrite E. cbn [bind]. rewrite E'. cbn [bind].
    split; [reflexivity|]. split; [|exact H']. cbn. eauto.
Qed.
Lemma rel_cat : forall a qa (l l1 : list (option T)) b qb l2, rel_run spec l a qa l1 -> rel_run spec l1 b qb l2 -> rel_run spec l (a ++ b) (qa ++ qb) l2.
Proof using.
  induction a as [|o a IH]; intros [|r qa] l l1 b qb l2 H1 H2; cbn in *; try contradiction; [congruence|].
  destruct H1 as (q1 & Hs & H1). exists q1. split; [exact Hs|]. eapply IH; eauto.
Qed.

(* the call [m] takes effect at some moment *)
Definition once (m : pop T) (s : St) (gaps : list (list (pop T))) (res : outcome (St * pout T * list (pout T))) : Prop :=
  exists s' r q a b qa qb, res = Ok (s', r, q) /\ concat gaps = a ++ b /\ length qa = length a /\ q = qa ++ qb /\
    rel_run spec (live_slots s) (a ++ m :: b) (qa ++ r :: qb) (live_slots s') /\ zlen s' = N.
Lemma once_acc m f (s : St) gaps s1 q1 s2 p : run step s (hd [] gaps) = Ok (s1, q1) -> rel_run spec (live_slots s) (hd [] gaps) q1 (live_slots s1) ->
  f s1 = Ok (s2, p) -> live_slots s2 = live_slots s1 -> once m s2 (tl gaps) (iexec step p s2 (tl gaps)) -> once m s gaps (iexec step (Acc f) s gaps).
Proof using.
  intros E1 R1 Ef L (s' & r & q & a & b & qa & qb & E & Ec & El & -> & R & Hn).
  exists s', r, (q1 ++ qa ++ qb), (hd [] gaps ++ a), b, (q1 ++ qa), qb. cbn [iexec]. rewrite E1. cbn [bind]. rewrite Ef, E. cbn [bind].
  split; [reflexivity|]. split; [rewrite (concat_hd gaps), Ec; apply app_assoc|]. split; [rewrite !app_length, (run_size _ _ _ _ _ E1); congruence|].
  split; [apply app_assoc|]. split; [|exact Hn]. rewrite <- !app_assoc. eapply rel_cat; [exact R1|]. rewrite <- L. exact R.
Qed.
Lemma once_ret m r (s : St) gaps : zlen s = N -> Forall (pop_ok N) (concat gaps) -> spec (live_slots s) m r (live_slots s) -> once m s gaps (iexec step (Ret r) s gaps).
Proof using.
  intros Hs HG Hm. destruct (run_ok (concat gaps) s Hs HG) as (s' & q & E & R & H'). exists s', r, q, [], (concat gaps), [], q. cbn [iexec]. rewrite E.
  do 4 (split; [reflexivity|]). split; [|exact H']. cbn. eauto.
Qed.
Lemma parts {A} (Q : A -> Prop) (gaps : list (list A)) : Forall Q (concat gaps) -> Forall Q (hd [] gaps) /\ Forall Q (concat (tl gaps)).
Proof using. rewrite (concat_hd gaps). apply Forall_app. Qed.

(* ---- destroy ---- *)
Definition keeps (i : Z) (o : pop T) : Prop := o <> PDestroy (Slot i).
Lemma keeps_used (s : St) o s' r i e : zlen s = N -> pop_ok N o -> keeps i o -> step s o = Ok (s', r) -> znth s i = Some e -> e_used e = true ->
  exists e', znth s' i = Some e' /\ e_used e' = true.
Proof using.
  intros Hs Ho Hk E Hi Hu. assert (Ri : 0 <= i < zlen s) by (eapply znth_some_range; eauto).
  destruct o as [| |p|j x|j]; cbn [p_step] in E.
  - unfold p_create in E. destruct (claim_ok (fun _ => dflt) s 0) as [(j & e1 & E1 & Hj & Hz & Hf)|(E1 & HF)]; rewrite E1 in E; injection E as <- <-; [|eauto].
    rewrite znth_zupd_ne by (intros ->; congruence). eauto.
  - unfold p_create_ow in E. destruct (claim_ok (fun x => x) s 0) as [(j & e1 & E1 & Hj & Hz & Hf)|(E1 & HF)]; rewrite E1 in E; injection E as <- <-; [|eauto].
    rewrite znth_zupd_ne by (intros ->; congruence). eauto.
  - destruct (release_ok p s 0) as [(j & e1 & -> & E1 & Hj & Hz & Hf)|(E1 & HF)]; rewrite E1 in E; injection E as <- <-; [|eauto].
    rewrite znth_zupd_ne; [eauto|]. intros ->. apply Hk. f_equal.
  - unfold p_write in E. cbn in Ho. destruct (znth_some s j) as [e1 He]; [lia|]. rewrite (rd_ok _ _ _ He) in E. cbn [bind] in E. rewrite wr_ok in E by lia. cbn [bind] in E. injection E as <- <-.
    destruct (Z.eq_dec j i) as [->|n]; [rewrite znth_zupd_eq by lia; eexists; split; [reflexivity|]; cbn; congruence|rewrite znth_zupd_ne by congruence; eauto].
  - destruct (p_read s j) as [x|?|]; cbn [bind] in E; [|discriminate E..]. injection E as <- <-. eauto.
Qed.
Lemma keeps_run : forall ops (s : St) s' q i e, zlen s = N -> Forall (pop_ok N) ops -> Forall (keeps i) ops -> run step s ops = Ok (s', q) -> znth s i = Some e -> e_used e = true ->
  exists e', znth s' i = Some e' /\ e_used e' = true.
Proof using.
  induction ops as [|o ops IH]; intros s s' q i e Hs HF HK E Hi Hu; cbn [run] in E.
  - injection E as <- <-. eauto.
  - pose proof (Forall_inv HF) as Ho. pose proof (Forall_inv_tail HF) as HF'. pose proof (Forall_inv HK) as Hk. pose proof (Forall_inv_tail HK) as HK'. destruct (refines s o Hs Ho) as (s1 & r & E1 & _ & H1). rewrite E1 in E. cbn [bind] in E.
    destruct (keeps_used s o s1 r i e Hs Ho Hk E1 Hi Hu) as (e1 & Hi1 & Hu1).
    destruct (run step s1 ops) as [[s2 q2]|?|] eqn:E2; cbn [bind] in E; [|discriminate E..]. injection E as <- <-. eapply (IH s1 s2 q2 i e1); eauto.
Qed.

Lemma destroy_once p : forall n i (s : St) gaps, zlen s = N -> 0 <= i -> i + Z.of_nat n = N -> Forall (pop_ok N) (concat gaps) ->
  match p with Foreign => True | Slot j => Forall (keeps j) (concat gaps) /\ (i <= j \/ j < 0) end ->
  once (PDestroy p) s gaps (iexec step (destroy_from p n i) s gaps).
Proof using.
  induction n as [|n IH]; intros i s gaps Hs Hi Hn HG Hp; cbn [destroy_from].
  - apply once_ret; auto. cbn [pool_spec]. destruct p as [j|]; [|auto]. right. split; [|auto]. intros x Hx. rewrite live_map, znth_map in Hx.
    destruct (znth s j) as [e|] eqn:Ej; [|discriminate Hx]. apply znth_some_range in Ej. lia.
  - unfold load_used. destruct (parts _ _ HG) as [HG1 HG2]. destruct (run_ok (hd [] gaps) s Hs HG1) as (s1 & q1 & E1 & R1 & H1).
    destruct (znth_some s1 i) as [e He]; [lia|].
    eapply once_acc; [exact E1|exact R1|rewrite (rd_ok _ _ _ He); cbn [bind]; reflexivity|reflexivity|].
    destruct (e_used e && match p with Slot j => i =? j | Foreign => false end) eqn:Ec.
    + apply andb_prop in Ec. destruct Ec as [Eu Ep]. destruct p as [j|]; [|discriminate]. assert (j = i) by lia. subst j. destruct Hp as [HK _].
      destruct (parts _ _ HK) as [_ HK2]. unfold store_used. destruct (parts _ _ HG2) as [HG3 HG4]. destruct (parts _ _ HK2) as [HK3 _].
      destruct (run_ok (hd [] (tl gaps)) s1 H1 HG3) as (s2 & q2 & E2 & R2 & H2).
      destruct (keeps_run _ s1 s2 q2 i e H1 HG3 HK3 E2 He Eu) as (e2 & He2 & Eu2).
      set (s3 := zupd s2 i (Entry (e_data e2) false)). assert (H3 : zlen s3 = N) by (unfold s3; rewrite zlen_zupd; exact H2).
      destruct (run_ok (concat (tl (tl gaps))) s3 H3 HG4) as (s' & q & E & R & H').
      exists s', (PoBool true), (q2 ++ q), (hd [] (tl gaps)), (concat (tl (tl gaps))), q2, q. cbn [iexec]. rewrite E2. cbn [bind]. rewrite (rd_ok _ _ _ He2). cbn [bind].
      rewrite wr_ok by lia. cbn [bind iexec]. fold s3. rewrite E. cbn [bind]. split; [reflexivity|]. split; [apply concat_hd|]. split; [exact (run_size _ _ _ _ _ E2)|]. split; [reflexivity|].
      split; [|exact H']. eapply rel_cat; [exact R2|]. exists (live_slots s3). split; [|exact R]. cbn [pool_spec]. left. exists (e_data e2).
      split; [rewrite live_map, znth_map, He2; cbn; unfold live; rewrite Eu2; reflexivity|]. split; [reflexivity|]. unfold s3. rewrite !live_map, map_zupd. reflexivity.
    + destruct p as [j|].
      * destruct Hp as [HK Hj]. destruct (parts _ _ HK) as [_ HK2]. destruct (Z.eq_dec j i) as [->|n0].
        -- rewrite Z.eqb_refl, andb_true_r in Ec.
           assert (X : forall n k (s : St) gaps, zlen s = N -> i < k -> k + Z.of_nat n = N -> Forall (pop_ok N) (concat gaps) ->
             exists s' q, iexec step (destroy_from (Slot i) n k) s gaps = Ok (s', PoBool false, q) /\ run step s (concat gaps) = Ok (s', q)).
           { clear - Hi. induction n as [|n IH]; intros k s gaps Hs Hk Hn HG; cbn [destroy_from].
             - destruct (run_ok (concat gaps) s Hs HG) as (s' & q & E & _ & _). exists s', q. cbn [iexec]. rewrite E. auto.
             - unfold load_used. destruct (parts _ _ HG) as [HG1 HG2]. destruct (run_ok (hd [] gaps) s Hs HG1) as (s1 & q1 & E1 & R1 & H1).
               destruct (IH (k + 1) s1 (tl gaps) H1 ltac:(lia) ltac:(lia) HG2) as (s' & q & E & E'). exists s', (q1 ++ q). cbn [iexec]. rewrite E1. cbn [bind].
               destruct (znth_some s1 k) as [e He]; [lia|]. rewrite (rd_ok _ _ _ He). cbn [bind]. replace (k =? i) with false by lia. rewrite andb_false_r, E. cbn [bind].
               split; [reflexivity|]. rewrite (concat_hd gaps). eapply run_cat_ok; eauto. }
           destruct (X n (i + 1) s1 (tl gaps) H1 ltac:(lia) ltac:(lia) HG2) as (s' & q & E & E'). destruct (run_ok _ s1 H1 HG2) as (s2 & q2 & E2 & R2 & H2).
           rewrite E2 in E'. injection E' as <- <-. exists s2, (PoBool false), q2, [], (concat (tl gaps)), [], q2.
           do 4 (split; [first [exact E|reflexivity]|]). split; [|exact H2]. exists (live_slots s1). split; [|exact R2]. cbn [pool_spec]. right. split; [|auto].
           intros x Hx. rewrite live_map, znth_map, He in Hx. cbn in Hx. unfold live in Hx. rewrite Ec in Hx. discriminate Hx.
        -- apply IH; auto; try lia. split; [exact HK2|lia].
      * apply IH; auto; lia.
Qed.

(* ---- create ---- *)
(* pools that differ at most at slot [i] *)
Definition but (i : Z) (s t : St) : Prop := zlen s = zlen t /\ forall j, j <> i -> znth s j = znth t j.
Definition touches (i : Z) (o : pop T) : Prop :=
  match o with PCreate | PCreateOverwrite => True | PDestroy (Slot j) | PWrite j _ | PRead j => j = i | PDestroy Foreign => False end.
Lemma but_zupd i (s t : St) j x : but i s t -> but i (zupd s j x) (zupd t j x).
Proof using.
  intros [Hl H]. split; [rewrite !zlen_zupd; exact Hl|]. intros k Hk. rewrite !znth_zupd, Hl, (H k Hk). reflexivity.
Qed.
Lemma but_step i (s t : St) o s' r : zlen s = N -> pop_ok N o -> ~ touches i o -> but i s t -> step s o = Ok (s', r) ->
  exists t', step t o = Ok (t', r) /\ but i s' t' /\ znth s' i = znth s i /\ znth t' i = znth t i.
Proof using.
  intros Hs Ho Ht B E. pose proof B as [Hl HB]. destruct o as [| |p|j x|j]; cbn [touches] in Ht; try (exfalso; tauto); cbn [p_step pop_ok] in *.
  - destruct (release_ok p s 0) as [(j & e1 & -> & E1 & Hj & Hz & Hf)|(E1 & HF)]; rewrite E1 in E; injection E as <- <-.
    + cbn [Z.add] in *. rewrite (HB j Ht) in Hz. destruct (release_ok (Slot j) t 0) as [(j' & e2 & Ej & E2 & Hj' & Hz' & Hf')|(E2 & HF)].
      * replace (0 + j') with j' in Ej by lia. injection Ej as <-. rewrite E2. assert (e2 = e1) by congruence. subst e2.
        eexists. split; [reflexivity|]. split; [apply but_zupd; exact B|]. rewrite !znth_zupd_ne by congruence. auto.
      * replace (j - 0) with j in HF by lia. rewrite (HF _ Hz) in Hf. discriminate Hf.
    + destruct (release_ok p t 0) as [(j' & e2 & -> & E2 & Hj' & Hz' & Hf')|(E2 & HF2)].
      * replace (0 + j' - 0) with j' in HF by lia. replace (0 + j') with j' in Ht by lia. rewrite <- (HB j' Ht) in Hz'. rewrite (HF _ Hz') in Hf'. discriminate Hf'.
      * rewrite E2. eexists. split; [reflexivity|]. auto.
  - unfold p_write in *. destruct (znth_some s j) as [e He]; [lia|]. rewrite (rd_ok _ _ _ He) in E. cbn [bind] in E. rewrite wr_ok in E by lia. cbn [bind] in E. injection E as <- <-.
    rewrite (HB j Ht) in He. rewrite (rd_ok _ _ _ He). cbn [bind]. rewrite wr_ok by lia. cbn [bind]. eexists. split; [reflexivity|]. split; [apply but_zupd; exact B|]. rewrite !znth_zupd_ne by congruence. auto.
  - unfold p_read in *. destruct (znth_some s j) as [e He]; [lia|]. rewrite (rd_ok _ _ _ He) in E. cbn [bind] in E. injection E as <- <-.
    rewrite (HB j Ht) in He. rewrite (rd_ok _ _ _ He). cbn [bind]. eexists. split; [reflexivity|]. auto.
Qed.
Lemma but_run i : forall ops (s t : St) s' q, zlen s = N -> Forall (pop_ok N) ops -> Forall (fun o => ~ touches i o) ops -> but i s t -> run step s ops = Ok (s', q) ->
  exists t', run step t ops = Ok (t', q) /\ but i s' t' /\ znth s' i = znth s i /\ znth t' i = znth t i.
Proof using.
  induction ops as [|o ops IH]; intros s t s' q Hs HF HT B E; cbn [run] in *.
  - injection E as <- <-. exists t. auto.
  - destruct (refines s o Hs (Forall_inv HF)) as (s1 & r & E1 & _ & H1). rewrite E1 in E. cbn [bind] in E.
    destruct (but_step i s t o s1 r Hs (Forall_inv HF) (Forall_inv HT) B E1) as (t1 & E2 & B1 & Z1 & Z2).
    destruct (run step s1 ops) as [[s2 q2]|?|] eqn:E3; cbn [bind] in E; [|discriminate E..]. injection E as <- <-.
    destruct (IH s1 t1 s2 q2 H1 (Forall_inv_tail HF) (Forall_inv_tail HT) B1 E3) as (t2 & E4 & B2 & Z3 & Z4). rewrite E2. cbn [bind]. rewrite E4. cbn [bind].
    exists t2. split; [reflexivity|]. split; [exact B2|]. split; congruence.
Qed.
Lemma but_eq i (s t : St) : but i s t -> znth s i = znth t i -> s = t.
Proof using. intros [Hl H] E. apply znth_opt_ext. intros j. destruct (Z.eq_dec j i) as [->|n]; auto. Qed.

(* the handler's calls are those on objects live in its view, which the pool contains *)
Definition within (v l : list (option T)) : Prop := forall i, live_at v i -> live_at l i.
Lemma live_iff (s : St) i : live_at (live_slots s) i <-> exists e, znth s i = Some e /\ e_used e = true.
Proof using.
  unfold live_at. rewrite live_map, znth_map. split.
  - intros [x Hx]. destruct (znth s i) as [e|]; [|discriminate Hx]. cbn in Hx. unfold live in Hx. destruct (e_used e) eqn:E; [eauto|discriminate Hx].
  - intros (e & -> & E). cbn. unfold live. rewrite E. eauto.
Qed.
Lemma live_zupd (v : list (option T)) i j : live_at (zupd v i None) j -> j <> i /\ live_at v j.
Proof using.
  intros [x Hx]. destruct (Z.eq_dec j i) as [->|n].
  - assert (R := znth_some_range _ _ _ Hx). rewrite zlen_zupd in R. rewrite znth_zupd_eq in Hx by lia. discriminate Hx.
  - split; [exact n|]. rewrite znth_zupd_ne in Hx by congruence. exists x. exact Hx.
Qed.
Definition after (v : list (option T)) (o : pop T) : list (option T) := match o with PDestroy (Slot i) => zupd v i None | _ => v end.
Lemma uses_one v o ops : uses_live v (o :: ops) -> ~ creates o /\ uses_live (after v o) ops /\ (forall i, ~ live_at v i -> ~ touches i o) /\ (forall i, live_at (after v o) i -> live_at v i).
Proof using.
  unfold creates. destruct o as [| |[i|]|i x|i]; cbn; intros H; try contradiction.
  - destruct H as [H1 H2]. split; [intros [X|X]; discriminate X|]. split; [exact H2|]. split; [intros j Hj ->; auto|]. intros j Hj. apply live_zupd in Hj. tauto.
  - split; [intros [X|X]; discriminate X|]. split; [exact H|]. split; auto.
  - destruct H as [H1 H2]. split; [intros [X|X]; discriminate X|]. split; [exact H2|]. split; [intros j Hj ->; auto|auto].
  - destruct H as [H1 H2]. split; [intros [X|X]; discriminate X|]. split; [exact H2|]. split; [intros j Hj ->; auto|auto].
Qed.
Lemma view_step v (s : St) o s' r : zlen s = N -> pop_ok N o -> ~ creates o -> within v (live_slots s) -> step s o = Ok (s', r) ->
  within (after v o) (live_slots s') /\ (forall i, live_at (live_slots s') i -> live_at (live_slots s) i).
Proof using.
  unfold creates. intros Hs Ho Hc HW E. destruct o as [| |p|j x|j]; try (exfalso; tauto); cbn [p_step pop_ok after] in *.
  - destruct (release_ok p s 0) as [(j & e1 & -> & E1 & Hj & Hz & Hf)|(E1 & HF)]; rewrite E1 in E; injection E as <- <-.
    + cbn [Z.add] in *. rewrite !live_map, map_zupd. unfold live at 1. cbn [e_used]. split.
      * intros i Hi. apply live_zupd in Hi. destruct Hi as [n Hi]. apply HW in Hi. rewrite live_map in Hi. destruct Hi as [y Hy]. exists y. rewrite znth_zupd_ne by congruence. exact Hy.
      * intros i Hi. apply live_zupd in Hi. tauto.
    + split; [|auto]. destruct p as [j|]; [|exact HW]. intros i Hi. apply live_zupd in Hi. apply HW. tauto.
  - unfold p_write in E. destruct (znth_some s j) as [e He]; [lia|]. rewrite (rd_ok _ _ _ He) in E. cbn [bind] in E. rewrite wr_ok in E by lia. cbn [bind] in E. injection E as <- <-.
    assert (X : forall i, live_at (live_slots (zupd s j (Entry x (e_used e)))) i <-> live_at (live_slots s) i).
    { intros i. rewrite !live_iff. destruct (Z.eq_dec j i) as [->|n].
      - rewrite znth_zupd_eq by lia. split; [intros (e' & [= <-] & Hu); cbn in Hu; eauto|]. intros (e' & Hz & Hu). assert (e' = e) by congruence. subst e'. eexists. split; [reflexivity|]. exact Hu.
      - rewrite znth_zupd_ne by congruence. reflexivity. }
    split; [intros i Hi; apply X; auto|intros i; apply X].
  - destruct (p_read s j) as [x|?|]; cbn [bind] in E; [|discriminate E..]. injection E as <- <-. auto.
Qed.
Lemma view_run : forall ops v (s : St) s' q rest, uses_live v (ops ++ rest) -> Forall (pop_ok N) ops -> zlen s = N -> within v (live_slots s) -> run step s ops = Ok (s', q) ->
  exists v', uses_live v' rest /\ within v' (live_slots s') /\ (forall i, live_at (live_slots s') i -> live_at (live_slots s) i) /\ (forall i, live_at v' i -> live_at v i).
Proof using.
  induction ops as [|o ops IH]; intros v s s' q rest HU HF Hs HW E; cbn [run app] in *.
  - injection E as <- <-. exists v. auto.
  - destruct (uses_one v o (ops ++ rest) HU) as (Hc & HU' & _ & Hsub). destruct (refines s o Hs (Forall_inv HF)) as (s1 & r & E1 & _ & H1). rewrite E1 in E. cbn [bind] in E.
    destruct (view_step v s o s1 r Hs (Forall_inv HF) Hc HW E1) as [HW1 HL1].
    destruct (run step s1 ops) as [[s2 q2]|?|] eqn:E2; cbn [bind] in E; [|discriminate E..]. injection E as <- <-.
    destruct (IH (after v o) s1 s2 q2 rest HU' (Forall_inv_tail HF) H1 HW1 E2) as (v' & A & B & C & D). exists v'. auto 6.
Qed.
Lemma never_touches : forall ops v i, uses_live v ops -> ~ live_at v i -> Forall (fun o => ~ touches i o) ops.
Proof using.
  induction ops as [|o ops IH]; intros v i HU Hi; constructor; destruct (uses_one v o ops HU) as (_ & HU' & Ht & Hsub); [auto|].
  apply (IH (after v o)); auto.
Qed.

Definition make (ow : bool) : pop T := if ow then PCreateOverwrite else PCreate.
Lemma claim_once ow i e (s : St) gaps : zlen s = N -> znth s i = Some e -> e_used e = false -> Forall (pop_ok N) (concat gaps) -> Forall (fun o => ~ touches i o) (concat gaps) ->
  once (make ow) s gaps (iexec step (store_used i true (if ow then Ret (PoPtr (Some i)) else store_data i dflt (Ret (PoPtr (Some i))))) s gaps).
Proof using.
  intros Hs Hi Hu HG HT. assert (Ri : 0 <= i < zlen s) by (eapply znth_some_range; eauto).
  set (new := Entry (if ow then e_data e else dflt) true). set (t := zupd s i new).
  assert (Ht : zlen t = N) by (unfold t; rewrite zlen_zupd; exact Hs).
  destruct (run_ok (concat gaps) t Ht HG) as (t' & q & E & R & H').
  assert (M : spec (live_slots s) (make ow) (PoPtr (Some i)) (live_slots t)).
  { unfold t, new. rewrite !live_map, map_zupd. destruct ow; cbn [make pool_spec]; left; [exists i, (e_data e)|exists i]; (split; [reflexivity|]); (split; [|reflexivity]); rewrite znth_map, Hi; cbn; unfold live; rewrite Hu; reflexivity. }
  exists t', (PoPtr (Some i)), q, [], (concat gaps), [], q.
  split; [|do 3 (split; [reflexivity|]); split; [|exact H']; exists (live_slots t); auto].
  destruct (parts _ _ HG) as [HG1 HG2]. destruct (parts _ _ HT) as [HT1 HT2].
  destruct (run_ok (hd [] gaps) s Hs HG1) as (s1 & q1 & E1 & _ & H1).
  assert (B0 : but i s t). { split; [unfold t; rewrite zlen_zupd; reflexivity|]. intros j Hj. unfold t. rewrite znth_zupd_ne by congruence. reflexivity. }
  assert (Zt : znth t i = Some new) by (unfold t; apply znth_zupd_eq; lia).
  destruct (but_run i _ s t s1 q1 Hs HG1 HT1 B0 E1) as (t1 & F1 & B1 & Z1 & Z1t).
  unfold store_used. cbn [iexec]. rewrite E1. cbn [bind]. rewrite Hi in Z1. rewrite (rd_ok _ _ _ Z1). cbn [bind]. rewrite wr_ok by lia. cbn [bind].
  set (s2 := zupd s1 i (Entry (e_data e) true)). assert (H2 : zlen s2 = N) by (unfold s2; rewrite zlen_zupd; exact H1).
  assert (B2 : but i s2 t1). { destruct B1 as [Bl B1]. split; [unfold s2; rewrite zlen_zupd; exact Bl|]. intros j Hj. unfold s2. rewrite znth_zupd_ne by congruence. auto. }
  assert (Z2 : znth s2 i = Some (Entry (e_data e) true)) by (unfold s2; apply znth_zupd_eq; lia).
  rewrite (concat_hd gaps) in E. rewrite run_cat, F1 in E.
  destruct ow.
  - assert (s2 = t1) by (apply (but_eq i); [exact B2|]; rewrite Z2, Z1t, Zt; reflexivity). subst t1. cbn [iexec].
    destruct (run step s2 (concat (tl gaps))) as [[x y]|?|]; [|discriminate E..]. injection E as <- <-. reflexivity.
  - destruct (parts _ _ HG2) as [HG3 HG4]. destruct (parts _ _ HT2) as [HT3 HT4].
    destruct (run_ok (hd [] (tl gaps)) s2 H2 HG3) as (s3 & q3 & E3 & _ & H3). destruct (but_run i _ s2 t1 s3 q3 H2 HG3 HT3 B2 E3) as (t3 & F3 & B3 & Z3 & Z3t).
    unfold store_data. cbn [iexec]. rewrite E3. cbn [bind]. rewrite Z2 in Z3. rewrite (rd_ok _ _ _ Z3). cbn [bind]. rewrite wr_ok by lia. cbn [bind e_used].
    assert (X : zupd s3 i (Entry dflt true) = t3).
    { apply (but_eq i); [|rewrite znth_zupd_eq by lia; rewrite Z3t, Z1t, Zt; reflexivity]. destruct B3 as [Bl B3]. split; [rewrite zlen_zupd; exact Bl|]. intros j Hj. rewrite znth_zupd_ne by congruence. auto. }
    rewrite X. cbn [iexec]. rewrite (concat_hd (tl gaps)), run_cat, F3 in E. destruct (run step t3 (concat (tl (tl gaps)))) as [[x y]|?|]; [|discriminate E..]. injection E as <- <-. reflexivity.
Qed.

Lemma create_scan ow : forall n i v (s : St) gaps, zlen s = N -> 0 <= i -> i + Z.of_nat n = N -> Forall (pop_ok N) (concat gaps) -> uses_live v (concat gaps) -> within v (live_slots s) ->
  once (make ow) s gaps (iexec step (create_from dflt ow n i) s gaps) \/
  exists s' q, iexec step (create_from dflt ow n i) s gaps = Ok (s', PoPtr None, q) /\ run step s (concat gaps) = Ok (s', q) /\ forall j, i <= j < N -> live_at (live_slots s) j.
Proof using.
  induction n as [|n IH]; intros i v s gaps Hs Hi Hn HG HU HW; cbn [create_from].
  - right. destruct (run_ok (concat gaps) s Hs HG) as (s' & q & E & _ & _). exists s', q. cbn [iexec]. rewrite E. split; [reflexivity|]. split; [reflexivity|]. intros j Hj. lia.
  - unfold load_used. destruct (parts _ _ HG) as [HG1 HG2]. destruct (run_ok (hd [] gaps) s Hs HG1) as (s1 & q1 & E1 & R1 & H1).
    pose proof HU as HU0. rewrite (concat_hd gaps) in HU0. destruct (view_run _ v s s1 q1 _ HU0 HG1 Hs HW E1) as (v1 & HU1 & HW1 & HL1 & _).
    destruct (znth_some s1 i) as [e He]; [lia|]. destruct (e_used e) eqn:Eu.
    + destruct (IH (i + 1) v1 s1 (tl gaps) H1 ltac:(lia) ltac:(lia) HG2 HU1 HW1) as [O|(s' & q & E & E' & HA)].
      * left. eapply once_acc; [exact E1|exact R1|rewrite (rd_ok _ _ _ He); cbn [bind]; reflexivity|reflexivity|]. rewrite Eu. exact O.
      * right. exists s', (q1 ++ q). cbn [iexec]. rewrite E1. cbn [bind]. rewrite (rd_ok _ _ _ He). cbn [bind]. rewrite Eu. cbn [negb]. rewrite E. cbn [bind]. split; [reflexivity|].
        split; [rewrite (concat_hd gaps); eapply run_cat_ok; eauto|]. intros j Hj. apply HL1. destruct (Z.eq_dec j i) as [->|n0]; [apply live_iff; eauto|apply HA; lia].
    + left. eapply once_acc; [exact E1|exact R1|rewrite (rd_ok _ _ _ He); cbn [bind]; reflexivity|reflexivity|]. rewrite Eu. cbn [negb].
      apply (claim_once ow i e); auto. apply (never_touches _ v1); [exact HU1|]. intros X. apply HW1 in X. apply live_iff in X. destruct X as (e' & X1 & X2). congruence.
Qed.

Lemma create_once m (s : St) gaps : zlen s = N -> 0 <= N -> creates m -> Forall (pop_ok N) (concat gaps) -> uses_live (live_slots s) (concat gaps) ->
  once m s gaps (iexec step (p_main dflt N m) s gaps).
Proof using.
  intros Hs HN Hm HG HU.
  assert (X : exists ow, m = make ow /\ p_main dflt N m = create_from dflt ow (Z.to_nat N) 0) by (destruct Hm as [-> | ->]; [exists false|exists true]; auto).
  destruct X as (ow & -> & ->). destruct (create_scan ow (Z.to_nat N) 0 (live_slots s) s gaps Hs ltac:(lia) ltac:(lia) HG HU ltac:(intros i; auto)) as [O|(s' & q & E & E' & HA)]; [exact O|].
  destruct (run_ok _ s Hs HG) as (s2 & q2 & E2 & R2 & H2). rewrite E2 in E'. injection E' as <- <-.
  exists s2, (PoPtr None), q2, [], (concat gaps), [], q2. do 4 (split; [first [exact E|reflexivity]|]). split; [|exact H2]. exists (live_slots s). split; [|exact R2].
  assert (F : Forall (fun e : option T => e <> None) (live_slots s)).
  { apply Forall_forall. intros x Hx ->. apply In_nth_error in Hx. destruct Hx as [k Hk]. assert (K : znth (live_slots s) (Z.of_nat k) = Some None).
    { unfold znth. replace (Z.of_nat k <? 0) with false by lia. rewrite Nat2Z.id. exact Hk. }
    assert (R := znth_some_range _ _ _ K). rewrite live_map, zlen_map in R. destruct (HA (Z.of_nat k) ltac:(lia)) as [y Hy]. congruence. }
  destruct ow; cbn [make pool_spec]; right; auto.
Qed.

(* ---- what fails ---- *)
Lemma created_twice_from ow m2 k e : forall n i (s : St), zlen s = N -> 0 <= i <= k -> i + Z.of_nat n = N -> znth s k = Some e -> e_used e = false -> (forall j x, i <= j < k -> znth s j = Some x -> e_used x = true) ->
  forall s2, step s m2 = Ok (s2, PoPtr (Some k)) -> zlen s2 = N ->
  exists s', iexec step (create_from dflt ow n i) s (repeat [] (Z.to_nat (k - i + 1)) ++ [[m2]]) = Ok (s', PoPtr (Some k), [PoPtr (Some k)]).
Proof using.
  induction n as [|n IH]; intros i s Hs Hi Hn Hk Hu HA s2 E2 H2; assert (Rk := znth_some_range _ _ _ Hk); [lia|].
  replace (Z.to_nat (k - i + 1)) with (S (Z.to_nat (k - i))) by lia. cbn [create_from repeat app]. unfold load_used. cbn [iexec hd tl run bind].
  destruct (znth_some s i) as [x Hx]; [lia|]. rewrite (rd_ok _ _ _ Hx). cbn [bind]. destruct (Z.eq_dec i k) as [->|n0].
  - assert (x = e) by congruence. subst x. rewrite Hu. cbn [negb]. replace (k - k) with 0 by lia. cbn [Z.to_nat repeat app]. unfold store_used. cbn [iexec hd tl run bind].
    rewrite E2. cbn [bind]. destruct (znth_some s2 k) as [y Hy]; [lia|]. rewrite (rd_ok _ _ _ Hy). cbn [bind]. rewrite wr_ok by lia. cbn [bind].
    destruct ow; [cbn; eauto|]. unfold store_data. cbn [iexec hd tl run bind]. erewrite rd_ok by (apply znth_zupd_eq; lia). cbn [bind]. rewrite wr_ok by (rewrite zlen_zupd; lia). cbn. eauto.
  - rewrite (HA i x ltac:(lia) Hx). cbn [negb]. destruct (IH (i + 1) s Hs ltac:(lia) ltac:(lia) Hk Hu (fun j x Hj => HA j x ltac:(lia)) s2 E2 H2) as (s' & E).
    replace (k - (i + 1) + 1) with (k - i) in E by lia. rewrite E. cbn. eauto.
Qed.
Lemma created_twice m m2 (s : St) : zlen s = N -> creates m -> creates m2 -> (exists e, In e s /\ e_used e = false) ->
  exists gaps i s', concat gaps = [m2] /\ iexec step (p_main dflt N m) s gaps = Ok (s', PoPtr (Some i), [PoPtr (Some i)]).
Proof using.
  intros Hs Hm Hm2 (e0 & Hin & Hf).
  assert (X : exists fresh, forall r s2, claim fresh 0 s = (s2, r) -> step s m2 = Ok (s2, PoPtr r)).
  { destruct Hm2 as [-> | ->]; [exists (fun _ => dflt)|exists (fun x => x)]; intros r s2 E; cbn; unfold p_create, p_create_ow; rewrite E; reflexivity. }
  destruct X as (fresh & X). destruct (claim_ok fresh s 0) as [(k & e & E & Hj & Hz & Hu)|(E & HF)].
  - apply X in E. cbn [Z.add] in E.
    assert (Y : exists ow, p_main dflt N m = create_from dflt ow (Z.to_nat N) 0) by (destruct Hm as [-> | ->]; [exists false|exists true]; reflexivity). destruct Y as (ow & ->).
    assert (F : forall (l : St) i k e', claim fresh i l = (zupd l k e', Some (i + k)) -> forall j x, 0 <= j < k -> znth l j = Some x -> e_used x = true).
    { clear. induction l as [|a l IH]; intros i k e' Hc j x Hj Hx; [rewrite znth_nil in Hx; discriminate Hx|]. cbn [claim] in Hc. destruct (e_used a) eqn:Ea; cbn [negb] in Hc.
      - rewrite znth_cons in Hx. destruct (Z.eqb_spec j 0) as [->|n]; [congruence|]. replace (j <? 0) with false in Hx by lia.
        destruct (claim fresh (i + 1) l) as [l' res] eqn:El. injection Hc as Hl ->.
        assert (l' = zupd l (k - 1) e'). { unfold zupd in *. replace (k <? 0) with false in Hl by lia. replace (k - 1 <? 0) with false by lia. replace (Z.to_nat k) with (S (Z.to_nat (k - 1))) in Hl by lia. cbn in Hl. congruence. }
        subst l'. apply (IH (i + 1) (k - 1) e' ltac:(rewrite El; do 2 f_equal; lia) (j - 1) x ltac:(lia) Hx).
      - injection Hc as _ Hc. lia. }
    destruct (claim_ok fresh s 0) as [(k' & e' & E' & Hj' & Hz' & Hu')|(E' & HF)].
    + assert (k' = k). { pose proof (X _ _ E') as E3. cbn [Z.add] in E3. congruence. } subst k'.
      destruct (created_twice_from ow m2 k e (Z.to_nat N) 0 s Hs ltac:(lia) ltac:(lia) Hz Hu (F s 0 k _ E') _ E ltac:(rewrite zlen_zupd; exact Hs)) as (s' & E4).
      eexists _, k, s'. split; [|exact E4]. rewrite concat_app. cbn. generalize (Z.to_nat (k - 0 + 1)). intros n. induction n as [|n IHn]; [reflexivity|exact IHn].
    + apply X in E'. congruence.
  - rewrite Forall_forall in HF. rewrite (HF _ Hin) in Hf. discriminate Hf.
Qed.

Lemma destroyed_twice_from k e : forall n i (s : St), zlen s = N -> 0 <= i <= k -> i + Z.of_nat n = N -> znth s k = Some e -> e_used e = true ->
  exists s', iexec step (destroy_from (Slot k) n i) s (repeat [] (Z.to_nat (k - i + 1)) ++ [[PDestroy (Slot k)]]) = Ok (s', PoBool true, [PoBool true]).
Proof using.
  induction n as [|n IH]; intros i s Hs Hi Hn Hk Hu; assert (Rk := znth_some_range _ _ _ Hk); [lia|].
  replace (Z.to_nat (k - i + 1)) with (S (Z.to_nat (k - i))) by lia. cbn [destroy_from repeat app]. unfold load_used. cbn [iexec hd tl run bind].
  destruct (znth_some s i) as [x Hx]; [lia|]. rewrite (rd_ok _ _ _ Hx). cbn [bind]. destruct (Z.eq_dec i k) as [->|n0].
  - assert (x = e) by congruence. subst x. rewrite Hu, Z.eqb_refl. cbn [andb]. replace (k - k) with 0 by lia. cbn [Z.to_nat repeat app]. unfold store_used. cbn [iexec hd tl run bind p_step].
    destruct (release_ok (Slot k) s 0) as [(j & e1 & Ej & E1 & Hj & Hz & Hf)|(E1 & HF)].
    + replace (0 + j) with j in Ej by lia. injection Ej as <-. rewrite E1. cbn [bind]. erewrite rd_ok by (apply znth_zupd_eq; lia). cbn [bind]. rewrite wr_ok by (rewrite zlen_zupd; lia). cbn. eauto.
    + replace (k - 0) with k in HF by lia. rewrite (HF _ Hk) in Hu. discriminate Hu.
  - replace (i =? k) with false by lia. rewrite andb_false_r. destruct (IH (i + 1) s Hs ltac:(lia) ltac:(lia) Hk Hu) as (s' & E).
    replace (k - (i + 1) + 1) with (k - i) in E by lia. rewrite E. cbn. eauto.
Qed.

Lemma uses_ok : forall ops (v : list (option T)), zlen v = N -> uses_live v ops -> Forall (pop_ok N) ops.
Proof using.
  induction ops as [|o ops IH]; intros v Hv HU; [constructor|]. destruct (uses_one v o ops HU) as (_ & HU' & _ & _). constructor.
  - destruct o as [| |p|j x|j]; cbn in HU |- *; auto; destruct HU as [[y Hy] _]; apply znth_some_range in Hy; lia.
  - apply (IH (after v o)); [|exact HU']. destruct o as [| |[i|]|j x|j]; cbn; rewrite ?zlen_zupd; exact Hv.
Qed.
End PI.

Lemma interrupted_create {T} (dflt : T) s m gaps : creates m -> uses_live (live_slots s) (concat gaps) ->
  exists s' r a b qa qb, iexec (p_step dflt) (p_main dflt (zlen s) m) s gaps = Ok (s', r, qa ++ qb) /\ concat gaps = a ++ b /\ length qa = length a /\
    rel_run (pool_spec dflt) (live_slots s) (a ++ m :: b) (qa ++ r :: qb) (live_slots s').
Proof.
  intros Hm HU. assert (HG : Forall (pop_ok (zlen s)) (concat gaps)) by (apply (uses_ok _ _ (live_slots s)); [rewrite live_map, zlen_map; reflexivity|exact HU]).
  destruct (create_once dflt (zlen s) m s gaps eq_refl (zlen_nonneg _) Hm HG HU) as (s' & r & q & a & b & qa & qb & E & Ec & El & -> & R & _).
  exists s', r, a, b, qa, qb. auto.
Qed.
Lemma interrupted_destroy {T} (dflt : T) s p gaps : Forall (pop_ok (zlen s)) (concat gaps) -> p = Foreign \/ ~ In (PDestroy p) (concat gaps) ->
  exists s' r a b qa qb, iexec (p_step dflt) (p_main dflt (zlen s) (PDestroy p)) s gaps = Ok (s', r, qa ++ qb) /\ concat gaps = a ++ b /\ length qa = length a /\
    rel_run (pool_spec dflt) (live_slots s) (a ++ PDestroy p :: b) (qa ++ r :: qb) (live_slots s').
Proof.
  intros HG Hp. cbn [p_main]. pose proof (zlen_nonneg s).
  destruct (destroy_once dflt (zlen s) p (Z.to_nat (zlen s)) 0 s gaps eq_refl ltac:(lia) ltac:(lia) HG) as (s' & r & q & a & b & qa & qb & E & Ec & El & -> & R & _).
  - destruct p as [j|]; [|exact I]. split; [|lia]. apply Forall_forall. intros o Ho ->. destruct Hp as [Hp|Hp]; [discriminate Hp|auto].
  - exists s', r, a, b, qa, qb. auto.
Qed.
Lemma double_create {T} (dflt : T) s m m2 : creates m -> creates m2 -> In None (live_slots s) ->
  exists gaps i s', concat gaps = [m2] /\ iexec (p_step dflt) (p_main dflt (zlen s) m) s gaps = Ok (s', PoPtr (Some i), [PoPtr (Some i)]).
Proof.
  intros Hm Hm2 Hin. apply created_twice; auto. unfold live_slots in Hin. apply in_map_iff in Hin. destruct Hin as (e & He & Hin). exists e. split; [exact Hin|]. destruct (e_used e); [discriminate He|reflexivity].
Qed.
Lemma double_destroy {T} (dflt : T) s i : live_at (live_slots s) i ->
  exists gaps s', concat gaps = [PDestroy (Slot i)] /\ iexec (p_step dflt) (p_main dflt (zlen s) (PDestroy (Slot i))) s gaps = Ok (s', PoBool true, [PoBool true]).
Proof.
  intros Hl. apply live_iff in Hl. destruct Hl as (e & Hz & Hu). assert (R := znth_some_range _ _ _ Hz). cbn [p_main].
  destruct (destroyed_twice_from dflt (zlen s) i e (Z.to_nat (zlen s)) 0 s eq_refl ltac:(lia) ltac:(lia) Hz Hu) as (s' & E). eexists _, s'. split; [|exact E].
  rewrite concat_app. cbn. generalize (Z.to_nat (i - 0 + 1)). intros n. induction n as [|n IHn]; [reflexivity|exact IHn].
Qed.
