From Verif.Common Require Import Base Lemmas Lists.
From Verif.Spec Require Import HeapSpec.
From Verif.Model Require Import BigBuffer.

Section Big.
Context {E : Type}.
Variable n : Z.
Lemma set_same {A} (f : Z -> A) v x : set_at f v x v = x. Proof. unfold set_at. rewrite Z.eqb_refl. reflexivity. Qed.
Lemma set_other {A} (f : Z -> A) v x u : u <> v -> set_at f v x u = f u. Proof. unfold set_at. intros H. destruct (Z.eqb_spec u v); congruence. Qed.
Definition Owns (s : bigheap E) : Prop :=
  (forall v a, bh_vars s v = Some a -> bh_heap s a <> None /\ a < bh_next s) /\ (forall v w a, bh_vars s v = Some a -> bh_vars s w = Some a -> v = w) /\
  (forall a, bh_heap s a <> None -> exists v, bh_vars s v = Some a).
Definition Rel (s : bigheap E) (q : values E) : Prop :=
  Owns s /\ forall v, q v = match bh_vars s v with Some a => bh_heap s a | None => None end.
Lemma step_rel s q o : Rel s q -> no_copy o ->
  match value_step n q o with
  | Ok (q', r) => exists s', bb_step n s o = Ok (s', r) /\ Rel s' q'
  | UB k => bb_step n s o = UB k
  | OutOfFuel => True
  end.
Proof.
  intros [(O1 & O2 & O3) HV] HC. destruct o as [v|v|v i x|v i|v w|v w]; try contradiction; cbn [value_step bb_step]; rewrite (HV v); destruct (bh_vars s v) as [a|] eqn:EV; try reflexivity.
  - destruct (O1 _ _ EV) as [HN _]. destruct (bh_heap s a) as [l|]; [reflexivity|congruence].
  - eexists. split; [reflexivity|]. split; [split; [|split]|]; cbn.
    + intros u b. unfold set_at at 1. destruct (Z.eqb_spec u v) as [->|Hu].
      * intros [= <-]. rewrite set_same. split; [discriminate|lia].
      * intros Hb. destruct (O1 _ _ Hb) as [H1 H2]. rewrite set_other by lia. split; [exact H1|lia].
    + intros u w b. unfold set_at. destruct (Z.eqb_spec u v) as [->|Hu], (Z.eqb_spec w v) as [->|Hw]; intros A B; auto; [injection A as <-; destruct (O1 _ _ B); lia|injection B as <-; destruct (O1 _ _ A); lia|eapply O2; eauto].
    + intros b. unfold set_at at 1. destruct (Z.eqb_spec b (bh_next s)) as [->|Hb]; [intros _; exists v; apply set_same|]. intros H. destruct (O3 _ H) as [u Hu]. exists u. rewrite set_other; [exact Hu|congruence].
    + intros u. unfold set_at at 1 2. destruct (Z.eqb_spec u v) as [->|Hu]; [rewrite set_same; reflexivity|]. rewrite HV. destruct (bh_vars s u) as [b|] eqn:EU; [|reflexivity]. destruct (O1 _ _ EU). rewrite set_other by lia. reflexivity.
  - destruct (O1 _ _ EV) as [HN HL]. unfold deref. destruct (bh_heap s a) as [l|] eqn:EH; [|congruence]. cbn [bind]. eexists. split; [reflexivity|]. split; [split; [|split]|]; cbn.
    + intros u b. unfold set_at at 1. destruct (Z.eqb_spec u v) as [->|Hu]; [discriminate|]. intros Hb. rewrite set_other; [apply (O1 _ _ Hb)|]. intros ->. apply Hu. eapply O2; eauto.
    + intros u w b. unfold set_at. destruct (Z.eqb_spec u v), (Z.eqb_spec w v); try discriminate. apply O2.
    + intros b. unfold set_at at 1. destruct (Z.eqb_spec b a) as [->|Hb]; [congruence|]. intros H. destruct (O3 _ H) as [u Hu]. exists u. rewrite set_other; [exact Hu|]. intros ->. congruence.
    + intros u. unfold set_at at 1 2. destruct (Z.eqb_spec u v) as [->|Hu]; [reflexivity|]. rewrite HV. destruct (bh_vars s u) as [b|] eqn:EU; [|reflexivity]. rewrite set_other; [reflexivity|]. intros ->. apply Hu. eapply O2; eauto.
  - destruct (O1 _ _ EV) as [HN HL]. unfold deref. destruct (bh_heap s a) as [l|] eqn:EH; [|congruence]. cbn [bind]. destruct (wr l i (Some x)) as [l'| |]; cbn [bind]; try reflexivity; try exact I. eexists. split; [reflexivity|]. split; [split; [|split]|]; cbn.
    + intros u b Hb. destruct (O1 _ _ Hb) as [H1 H2]. split; [|exact H2]. unfold set_at. destruct (Z.eqb_spec b a); [discriminate|exact H1].
    + exact O2.
    + intros b. unfold set_at. destruct (Z.eqb_spec b a) as [->|Hb]; [intros _; exists v; exact EV|apply O3].
    + intros u. unfold set_at at 1. destruct (Z.eqb_spec u v) as [->|Hu]; [rewrite EV, set_same; reflexivity|]. rewrite HV. destruct (bh_vars s u) as [b|] eqn:EU; [|reflexivity]. rewrite set_other; [reflexivity|]. intros ->. apply Hu. eapply O2; eauto.
  - destruct (O1 _ _ EV) as [HN HL]. unfold deref. destruct (bh_heap s a) as [l|] eqn:EH; [|congruence]. cbn [bind]. destruct (rd l i) as [c| |]; cbn [bind]; try reflexivity; try exact I. destruct c as [x|]; [|reflexivity]. exists s. split; [reflexivity|]. split; [split; [|split]; assumption|exact HV].
Qed.
Lemma run_rel ops : forall s q, Rel s q -> Forall no_copy ops ->
  match run (value_step n) q ops with
  | Ok (q', outs) => exists s', run (bb_step n) s ops = Ok (s', outs) /\ Rel s' q'
  | UB k => run (bb_step n) s ops = UB k
  | OutOfFuel => True
  end.
Proof.
  induction ops as [|o ops IH]; intros s q HR HF; cbn [run]. { exists s. auto. } inversion HF as [|? ? Ho HF']; subst. pose proof (step_rel s q o HR Ho) as HS. destruct (value_step n q o) as [[q' r]|k|]; cbn [bind].
  - destruct HS as (s' & -> & HR'). cbn [bind]. specialize (IH s' q' HR' HF'). destruct (run (value_step n) q' ops) as [[q2 outs]|k|]; cbn [bind]; [|rewrite IH; reflexivity|exact I]. destruct IH as (s2 & -> & HR2). cbn [bind]. eauto.
  - rewrite HS. reflexivity.
  - exact I.
Qed.
Lemma rel0 : Rel (bh0 (E := E)) (fun _ => None). Proof. split; [split; [|split]|]; cbn; try discriminate; try congruence; auto. Qed.
Lemma history (ops : list (bop E)) : Forall no_copy ops ->
  match run (value_step n) (fun _ => None) ops with
  | Ok (q, outs) => exists s, run (bb_step n) bh0 ops = Ok (s, outs) /\
      (forall a, bh_heap s a <> None <-> exists v, bh_vars s v = Some a) /\ (forall v, bh_vars s v = None <-> q v = None) /\ (forall v w a, bh_vars s v = Some a -> bh_vars s w = Some a -> v = w)
  | UB k => run (bb_step n) bh0 ops = UB k
  | OutOfFuel => True
  end.
Proof.
  intros HF. pose proof (run_rel ops _ _ rel0 HF) as H. destruct (run (value_step n) (fun _ => None) ops) as [[q outs]|k|]; auto. destruct H as (s & E1 & (O1 & O2 & O3) & HV). exists s. split; [exact E1|]. split; [|split; [|exact O2]].
  - intros a. split; [apply O3|]. intros [v Hv]. apply (O1 _ _ Hv).
  - intros v. rewrite HV. destruct (bh_vars s v) as [a|] eqn:EV; [|tauto]. destruct (O1 _ _ EV) as [H _]. split; [discriminate|congruence].
Qed.
(* copies *)
Lemma copy_deletes_twice (s : bigheap E) v w a l : bh_vars s v = Some a -> bh_heap s a = Some l -> bh_vars s w = None -> v <> w -> run (bb_step n) s [BCopy w v; BEnd v; BEnd w] = UB BadDeref.
Proof.
  intros H1 H2 H3 H4. cbn [run bb_step]. rewrite H3, H1. cbn [bind bh_vars]. rewrite set_other by exact H4. rewrite H1. unfold deref at 1. cbn [bh_heap bind bh_vars]. rewrite H2. cbn [bind bh_vars]. rewrite set_other by congruence. rewrite set_same. unfold deref. cbn [bh_heap]. rewrite set_same. reflexivity.
Qed.
Lemma copy_shares (s : bigheap E) v w a l i x : bh_vars s v = Some a -> bh_heap s a = Some l -> bh_vars s w = None -> v <> w -> 0 <= i < zlen l ->
  exists s', run (bb_step n) s [BCopy w v; BSet w i x; BGet v i] = Ok (s', [None; None; Some x]).
Proof.
  intros H1 H2 H3 H4 H5. cbn [run bb_step]. rewrite H3, H1. cbn [bind bh_vars]. rewrite set_same. unfold deref at 1. cbn [bh_heap bind]. rewrite H2. cbn [bind]. rewrite wr_ok by exact H5. cbn [bind bh_vars]. rewrite set_other, H1 by exact H4. unfold deref. cbn [bh_heap]. rewrite set_same. cbn [bind].
  rewrite (rd_ok _ _ (Some x)); [cbn [bind]; eexists; reflexivity|]. rewrite znth_zupd, Z.eqb_refl. replace (true && (0 <=? i) && (i <? zlen l)) with true by lia. reflexivity.
Qed.
Lemma assign_leaks (s : bigheap E) v w a b lb : bh_vars s v = Some a -> bh_vars s w = Some b -> bh_heap s b = Some lb -> (forall u, bh_vars s u = Some b -> u = w) -> a <> b ->
  exists s', run (bb_step n) s [BAssign w v] = Ok (s', [None]) /\ bh_heap s' b = Some lb /\ forall u, bh_vars s' u <> Some b.
Proof.
  intros H1 H2 H3 H4 H5. cbn [run bb_step]. rewrite H2, H1. cbn [bind]. eexists. split; [reflexivity|]. cbn. split; [exact H3|]. intros u. unfold set_at. destruct (Z.eqb_spec u w) as [->|Hu]; [congruence|]. intros E1. apply Hu. auto.
Qed.
End Big.
