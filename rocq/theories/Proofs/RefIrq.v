From Verif.Common Require Import Base Lemmas Lists.
From Verif.Spec Require Import DetectSpec IrqSpec RefIrqSpec.
From Verif.Model Require Import Detect Irq RefIrq.
From Verif.Proofs Require Import Irq.
Notation rstep := (total ref_step).

Lemma ref_sets l : Forall sets l -> forall s s' q, run rstep s l = Ok (s', q) -> rp_last s' = rp_last s.
Proof.
  induction 1 as [|o l [x ->] _ IH]; intros s s' q E; cbn in E; [injection E as <- <-; reflexivity|]. destruct (run rstep (RP x (rp_last s)) l) as [[s1 q1]|k|] eqn:E1; cbn in E; [|discriminate E..]. injection E as <- <-. exact (IH _ _ _ E1).
Qed.
Lemma hd_nth {A} (g : list (list A)) n : hd [] (skipn n g) = nth n g [].
Proof. revert g. induction n as [|n IH]; intros [|a g]; try reflexivity. apply IH. Qed.
Lemma sets_gaps n gaps : Forall (Forall sets) gaps -> Forall sets (nth n gaps []).
Proof. intros H. destruct (nth_in_or_default n gaps []) as [E|E]; [|rewrite E; constructor]. rewrite Forall_forall in H. auto. Qed.
Lemma sets_rest n gaps : Forall (Forall sets) gaps -> Forall sets (concat (skipn n gaps)).
Proof. intros H. rewrite <- (firstn_skipn n gaps) in H. apply Forall_app in H. destruct H as [_ H]. induction H; cbn; [constructor|apply Forall_app; auto]. Qed.
Lemma ref_poll s gaps s' r q : Forall (Forall sets) gaps -> nth 3 gaps [] = [] -> nth 4 gaps [] = [] -> iexec rstep (ref_main PPoll) s gaps = Ok (s', r, q) ->
  rp_last s' = match r with Some x => x | None => rp_last s end.
Proof.
  intros HG N3 N4 E. pose proof (sets_gaps 0 _ HG) as G0. pose proof (sets_gaps 1 _ HG) as G1. pose proof (sets_gaps 2 _ HG) as G2. pose proof (sets_rest 2 _ HG) as R2. pose proof (sets_rest 5 _ HG) as R5.
  rewrite <- (hd_nth gaps 0) in G0. rewrite <- (hd_nth gaps 1) in G1. rewrite <- (hd_nth gaps 2) in G2. rewrite <- (hd_nth gaps 3) in N3. rewrite <- (hd_nth gaps 4) in N4.
  assert (T : forall n, tl (skipn n gaps) = skipn (S n) gaps) by (intros n; clear; revert gaps; induction n as [|n IH]; intros [|a g]; try reflexivity; apply IH).
  change gaps with (skipn 0 gaps) in E. cbn [ref_main] in E. acc E s0 q0 F0 x0. rewrite T in E. acc E s1 q1 F1 x1. rewrite T in E. apply (ref_sets _ G0) in F0. apply (ref_sets _ G1) in F1.
  destruct (rp_var s0 =? rp_last s1).
  - ret E. apply (ref_sets _ R2) in E. congruence.
  - acc E s2 q2 F2 x2. rewrite T in E. acc E s3 q3 F3 x3. rewrite T in E. rewrite N3 in F3. cbn in F3. injection F3 as <- <-. acc E s4 q4 F4 x4. rewrite T in E. rewrite N4 in F4. cbn in F4. injection F4 as <- <-. ret E. apply (ref_sets _ R5) in E. rewrite E. reflexivity.
Qed.
Lemma ref_main_polls h : forall s s' rs qs, Forall (calls_by polls sets) h -> Forall unset_after_change h -> irun rstep ref_main s h = Ok (s', rs, qs) -> rp_last s' = last_seen (rp_last s) rs.
Proof.
  induction h as [|c h IH]; intros s s' rs qs H U E; cbn in E; [injection E as <- <- <-; reflexivity|]. pose proof (Forall_inv H) as Hc. pose proof (Forall_inv U) as Uc. destruct c as [i|m gaps].
  - destruct Hc as [x ->]. cbn in E. destruct (irun rstep ref_main (RP x (rp_last s)) h) as [[[s2 rs2] qs2]|k|] eqn:E2; cbn in E; [|discriminate E..]. injection E as <- <- <-. exact (IH _ _ _ _ (Forall_inv_tail H) (Forall_inv_tail U) E2).
  - destruct Hc as [-> HG]. destruct Uc as [N3 N4]. destruct (iexec rstep (ref_main PPoll) s gaps) as [[[s1 r] q]|k|] eqn:E1; cbn in E; [|discriminate E..].
    destruct (irun rstep ref_main s1 h) as [[[s2 rs2] qs2]|k|] eqn:E2; cbn in E; [|discriminate E..]. injection E as <- <- <-. rewrite (IH _ _ _ _ (Forall_inv_tail H) (Forall_inv_tail U) E2), (ref_poll _ _ _ _ _ HG N3 N4 E1). reflexivity.
Qed.
Theorem ref_up_to_date h s s' rs qs : Forall (calls_by polls sets) h -> Forall unset_after_change h -> irun rstep ref_main s (h ++ [Call PPoll []]) = Ok (s', rs, qs) -> last_seen (rp_last s) rs = rp_var s'.
Proof.
  intros H U E. apply irun_snoc in E. destruct E as (s1 & rs1 & qs1 & rs2 & qs2 & E1 & E2 & -> & ->). pose proof (ref_main_polls _ _ _ _ _ H U E1) as X. unfold last_seen in *. rewrite fold_left_app, <- X.
  cbn in E2. destruct (Z.eqb_spec (rp_var s1) (rp_last s1)) as [Q|Q]; cbn in E2; injection E2 as <- <- <-; cbn; auto.
Qed.
Theorem ref_change_lost s a w : a <> rp_last s -> w <> a ->
  irun rstep ref_main s [Call PPoll [[PSet a]; []; []; []; [PSet w]]; Irq (PSet a); Call PPoll []] = Ok (RP a a, [Some w; None], [None; None; None]).
Proof. intros H1 H2. cbn. replace (a =? rp_last s) with false by lia. cbn. rewrite Z.eqb_refl. reflexivity. Qed.
(* the setter interrupted by the poll: one store *)
Lemma ref_set_atomic x gaps : at_once rstep ref_main (PSet x) gaps.
Proof.
  intros s s1 r q E. cbn [ref_main] in E. acc E s2 q1 F1 x1. ret E. exists (hd [] gaps), (concat (tl gaps)), q1, x1. split; [apply concat_hd|]. split; [exact (run_size _ _ _ _ _ F1)|]. split; [reflexivity|]. eapply run_cat_ok; [exact F1|]. cbn. rewrite E. reflexivity.
Qed.
Theorem ref_setter_atomic h s s' rs qs : Forall (calls_by sets polls) h -> irun rstep ref_main s h = Ok (s', rs, qs) -> atomically rstep s h rs qs s'.
Proof. intros H. apply irun_atomic. eapply Forall_impl; [|exact H]. intros [i|m gaps]; cbn; [trivial|]. intros [[x ->] _]. apply ref_set_atomic. Qed.
Lemma ref_run_seen l : forall s s' q, run rstep s l = Ok (s', q) -> rp_last s' = last_seen (rp_last s) q.
Proof.
  induction l as [|o l IH]; intros s s' q E; cbn in E; [injection E as <- <-; reflexivity|]. destruct (run rstep (fst (ref_step s o)) l) as [[s1 q1]|k|] eqn:E1; destruct o as [x|]; cbn in E, E1.
  all: try (destruct (rp_var s =? rp_last s) eqn:Q; cbn in E, E1). all: rewrite E1 in E; cbn in E; try discriminate E; injection E as <- <-; rewrite (IH _ _ _ E1); reflexivity.
Qed.
Lemma seen_app v a b : last_seen v (a ++ b) = last_seen (last_seen v a) b.
Proof. apply fold_left_app. Qed.
Lemma ref_atomic_seen h s s' rs qs : atomically rstep s h rs qs s' -> Forall (calls_by sets polls) h -> rp_last s' = last_seen (rp_last s) qs.
Proof.
  intros E1. induction E1 as [s|s i s1 q h rs qs s' Es E1 IH|s m gaps a b s1 qa r qb h rs qs s' Eg El Er E1 IH]; intros H; [reflexivity| |]; pose proof (Forall_inv H) as Hc; specialize (IH (Forall_inv_tail H)).
    - rewrite IH. pose proof (ref_run_seen [i] s s1 [q]) as Y. cbn [run] in Y. rewrite Es in Y. cbn in Y. specialize (Y eq_refl). cbn in Y |- *. rewrite Y. reflexivity.
    - destruct Hc as [[x ->] _]. rewrite run_cat in Er. destruct (run rstep s a) as [[sa qa']|k|] eqn:Ea; [|discriminate Er..]. cbn [run] in Er. unfold total at 1 in Er. cbn [ref_step rp_step fst bind] in Er. destruct (run rstep (RP x (rp_last sa)) b) as [[sb qb']|k|] eqn:Eb; cbn [bind] in Er; [|discriminate Er..].
      injection Er as <- Eq. assert (La : length qa' = length qa) by (rewrite El; exact (run_size _ _ _ _ _ Ea)). assert (qa' = qa /\ None = r /\ qb' = qb) as (-> & <- & ->).
      { clear - Eq La. revert qa Eq La. induction qa' as [|y qa' IHq]; intros [|z qa] Eq La; try discriminate La; cbn in Eq; [injection Eq as -> ->; auto|]. injection Eq as -> Eq. destruct (IHq qa Eq) as (-> & A & B); [cbn in La; lia|]. auto. }
      rewrite IH, !seen_app. apply ref_run_seen in Ea. apply ref_run_seen in Eb. cbn [rp_last] in Eb. rewrite Eb, Ea. reflexivity.
Qed.
Theorem ref_setter_up_to_date h s s' rs qs : Forall (calls_by sets polls) h -> irun rstep ref_main s (h ++ [Irq PPoll]) = Ok (s', rs, qs) -> last_seen (rp_last s) qs = rp_var s'.
Proof.
  intros H E. apply irun_snoc in E. destruct E as (s1 & rs1 & qs1 & rs2 & qs2 & E1 & E2 & -> & ->). apply (ref_setter_atomic h _ _ _ _ H) in E1.
  pose proof (ref_atomic_seen _ _ _ _ _ E1 H) as X.
  rewrite seen_app, <- X. cbn in E2. destruct (Z.eqb_spec (rp_var s1) (rp_last s1)) as [Q|Q]; cbn in E2; injection E2 as <- <- <-; cbn; auto.
Qed.

Lemma uninterrupted_ref s o : irun (total ref_step) ref_main s [Call o []] = Ok (fst (ref_step s o), [snd (ref_step s o)], []).
Proof. destruct s as [v l], o; cbn; [reflexivity|]. destruct (v =? l); reflexivity. Qed.
