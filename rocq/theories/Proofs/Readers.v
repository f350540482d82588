(* Interrupted calls when the handler only looks. *)
From Verif.Common Require Import Base Lemmas Lists.
From Verif.Model Require Import Irq.
From Verif.Proofs Require Import Irq.

(* accesses that change nothing *)
Inductive quiet {S R} (s : S) : prog S R -> prog S R -> Prop :=
| quiet_refl p : quiet s p p
| quiet_acc f p p' : f s = Ok (s, p) -> quiet s p p' -> quiet s (Acc f) p'.
Lemma quiet_trans {S R} (s : S) (p q r : prog S R) : quiet s p q -> quiet s q r -> quiet s p r.
Proof. intros H. induction H; intros Hr; [exact Hr|]. econstructor; eauto. Qed.

Section Readers.
Context {S O R Q : Type} (step : S -> O -> outcome (S * R)) (spec : Q -> O -> R -> Q -> Prop) (abs : S -> Q).
Variables (reads : O -> Prop) (inv : S -> Prop).
Hypothesis looks : forall s o, inv s -> reads o -> exists r, step s o = Ok (s, r) /\ spec (abs s) o r (abs s).

Lemma rel_app : forall a qa l l1 b qb l2, rel_run spec l a qa l1 -> rel_run spec l1 b qb l2 -> rel_run spec l (a ++ b) (qa ++ qb) l2.
Proof using.
  induction a as [|o a IH]; intros [|r qa] l l1 b qb l2 H1 H2; cbn in *; try contradiction; [congruence|].
  destruct H1 as (q1 & Hs & H1). exists q1. split; [exact Hs|]. eapply IH; eauto.
Qed.
Lemma split_gaps (P : O -> Prop) (gaps : list (list O)) : Forall P (concat gaps) -> Forall P (hd [] gaps) /\ Forall P (concat (tl gaps)).
Proof using. rewrite concat_hd. apply Forall_app. Qed.

Lemma look_run s : inv s -> forall ops, Forall reads ops ->
  exists q, run step s ops = Ok (s, q) /\ rel_run spec (abs s) ops q (abs s) /\ Forall2 (fun o r => step s o = Ok (s, r)) ops q.
Proof using looks.
  intros Hs. induction ops as [|o ops IH]; intros HF.
  - exists []. cbn. auto.
  - inversion HF; subst. destruct (looks s o Hs) as (r & E & Hp); [assumption|]. destruct IH as (q & Er & Hr & Hq); [assumption|].
    exists (r :: q). cbn [run]. rewrite E. cbn [bind]. rewrite Er. cbn. split; [reflexivity|]. split; [eauto|constructor; auto].
Qed.

(* the call [m] still has to take effect / has taken effect with result [r] *)
Definition before (m : O) (p : prog S R) (s : S) : Prop := forall gaps, Forall reads (concat gaps) ->
  exists s' r a b qa qb, iexec step p s gaps = Ok (s', r, qa ++ qb) /\ concat gaps = a ++ b /\ length qa = length a /\ rel_run spec (abs s) (a ++ m :: b) (qa ++ r :: qb) (abs s').
Definition after (r : R) (p : prog S R) (s : S) : Prop := forall gaps, Forall reads (concat gaps) ->
  exists s' q, iexec step p s gaps = Ok (s', r, q) /\ rel_run spec (abs s) (concat gaps) q (abs s').

Lemma after_ret r s : inv s -> after r (Ret r) s.
Proof using looks. intros Hs gaps HF. destruct (look_run s Hs _ HF) as (q & E & Hr & _). exists s, q. cbn [iexec]. rewrite E. auto. Qed.
Lemma after_acc r f s s1 p : inv s -> f s = Ok (s1, p) -> abs s1 = abs s -> after r p s1 -> after r (Acc f) s.
Proof using looks.
  intros Hs Ef Ea Hp gaps HF. destruct (split_gaps _ _ HF) as [H1 H2]. destruct (look_run s Hs _ H1) as (q1 & E1 & R1 & _).
  destruct (Hp _ H2) as (s' & q2 & E2 & R2). exists s', (q1 ++ q2). cbn [iexec]. rewrite E1. cbn [bind]. rewrite Ef, E2. cbn [bind]. split; [reflexivity|].
  rewrite concat_hd. eapply rel_app; [exact R1|]. rewrite <- Ea. exact R2.
Qed.
Lemma before_ret m r s : inv s -> spec (abs s) m r (abs s) -> before m (Ret r) s.
Proof using looks.
  intros Hs Hp gaps HF. destruct (after_ret r s Hs _ HF) as (s' & q & E & Hr). exists s', r, [], (concat gaps), [], q.
  split; [exact E|]. split; [reflexivity|]. split; [reflexivity|]. cbn. eauto.
Qed.
Lemma before_acc m f s s1 p : inv s -> f s = Ok (s1, p) -> abs s1 = abs s -> before m p s1 -> before m (Acc f) s.
Proof using looks.
  intros Hs Ef Ea Hp gaps HF. destruct (split_gaps _ _ HF) as [H1 H2]. destruct (look_run s Hs _ H1) as (q1 & E1 & R1 & _).
  destruct (Hp _ H2) as (s' & r & a & b & qa & qb & E2 & Ec & El & R2). exists s', r, (hd [] gaps ++ a), b, (q1 ++ qa), qb. cbn [iexec]. rewrite E1. cbn [bind]. rewrite Ef, E2. cbn [bind].
  rewrite <- !app_assoc. split; [reflexivity|]. split; [rewrite concat_hd, Ec; reflexivity|]. split; [rewrite !app_length, El, (run_size _ _ _ _ _ E1); reflexivity|].
  eapply rel_app; [exact R1|]. rewrite <- Ea. exact R2.
Qed.
Lemma commit_acc m r f s s1 p : inv s -> f s = Ok (s1, p) -> spec (abs s) m r (abs s1) -> after r p s1 -> before m (Acc f) s.
Proof using looks.
  intros Hs Ef Hp Ha gaps HF. destruct (split_gaps _ _ HF) as [H1 H2]. destruct (look_run s Hs _ H1) as (q1 & E1 & R1 & _).
  destruct (Ha _ H2) as (s' & q2 & E2 & R2). exists s', r, (hd [] gaps), (concat (tl gaps)), q1, q2. cbn [iexec]. rewrite E1. cbn [bind]. rewrite Ef, E2. cbn [bind].
  split; [reflexivity|]. split; [apply concat_hd|]. split; [exact (run_size _ _ _ _ _ E1)|]. eapply rel_app; [exact R1|]. cbn. eauto.
Qed.

(* every state in which the handler looks satisfies [J], and the last one [Post] *)
Definition seen (J : S -> Prop) (o : O) (r : R) : Prop := exists s, J s /\ step s o = Ok (s, r).
Definition through (J : S -> Prop) (Post : S -> R -> Prop) (p : prog S R) (s : S) : Prop := forall gaps, Forall reads (concat gaps) ->
  exists s' r q, iexec step p s gaps = Ok (s', r, q) /\ Post s' r /\ Forall2 (seen J) (concat gaps) q.
Lemma look_seen (J : S -> Prop) s : inv s -> J s -> forall ops, Forall reads ops -> exists q, run step s ops = Ok (s, q) /\ Forall2 (seen J) ops q.
Proof using looks.
  intros Hs Hj ops HF. destruct (look_run s Hs ops HF) as (q & E & _ & H). exists q. split; [exact E|].
  clear - H Hj. induction H; constructor; auto. exists s. auto.
Qed.
Lemma through_ret (J : S -> Prop) (Post : S -> R -> Prop) r s : inv s -> J s -> Post s r -> through J Post (Ret r) s.
Proof using looks. intros Hs Hj HP gaps HF. destruct (look_seen J s Hs Hj _ HF) as (q & E & Hq). exists s, r, q. cbn [iexec]. rewrite E. auto. Qed.
Lemma through_acc (J : S -> Prop) (Post : S -> R -> Prop) f s s1 p : inv s -> J s -> f s = Ok (s1, p) -> through J Post p s1 -> through J Post (Acc f) s.
Proof using looks.
  intros Hs Hj Ef Hp gaps HF. destruct (split_gaps _ _ HF) as [H1 H2]. destruct (look_seen J s Hs Hj _ H1) as (q1 & E1 & R1).
  destruct (Hp _ H2) as (s' & r & q2 & E2 & HP & R2). exists s', r, (q1 ++ q2). cbn [iexec]. rewrite E1. cbn [bind]. rewrite Ef, E2. cbn [bind].
  split; [reflexivity|]. split; [exact HP|]. rewrite concat_hd. apply Forall2_app; assumption.
Qed.

Lemma before_quiet m p p' s : inv s -> quiet s p p' -> before m p' s -> before m p s.
Proof using looks. intros Hs H Hb. induction H; [exact Hb|]. eapply before_acc; eauto. Qed.
Lemma after_quiet r p p' s : inv s -> quiet s p p' -> after r p' s -> after r p s.
Proof using looks. intros Hs H Hb. induction H; [exact Hb|]. eapply after_acc; eauto. Qed.
Lemma through_quiet (J : S -> Prop) (Post : S -> R -> Prop) p p' s : inv s -> J s -> quiet s p p' -> through J Post p' s -> through J Post p s.
Proof using looks. intros Hs Hj H Hb. induction H; [exact Hb|]. eapply through_acc; eauto. Qed.
End Readers.

(* one call of the handler at some point of the call [p] *)
Definition sees {S O R} (step : S -> O -> outcome (S * R)) (o : O) (q : R) (p : prog S R) (s s' : S) (r : R) : Prop :=
  exists gaps, concat gaps = [o] /\ iexec step p s gaps = Ok (s', r, [q]).
Lemma sees_acc {S O R} (step : S -> O -> outcome (S * R)) o q f s s1 p s' r : f s = Ok (s1, p) -> sees step o q p s1 s' r -> sees step o q (Acc f) s s' r.
Proof. intros Ef (gaps & Ec & E). exists ([] :: gaps). split; [exact Ec|]. cbn [iexec hd tl run bind]. rewrite Ef, E. reflexivity. Qed.
Lemma sees_now {S O R} (step : S -> O -> outcome (S * R)) o q f s s1 s2 p s' r : step s o = Ok (s1, q) -> f s1 = Ok (s2, p) -> iexec step p s2 [] = Ok (s', r, []) -> sees step o q (Acc f) s s' r.
Proof. intros Eo Ef E. exists [[o]]. split; [reflexivity|]. cbn [iexec hd tl run]. rewrite Eo. cbn [bind]. rewrite Ef, E. reflexivity. Qed.
Lemma sees_quiet {S O R} (step : S -> O -> outcome (S * R)) o q s p p' s' r : quiet s p p' -> sees step o q p' s s' r -> sees step o q p s s' r.
Proof. intros H Hs. induction H; [exact Hs|]. eapply sees_acc; eauto. Qed.
