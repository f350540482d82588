From Verif.Common Require Import Base Lemmas.
From Verif.Spec Require Import History.

Lemma since_nil {A} (b e : list A -> A -> Prop) : ~ since b e [].
Proof. intros (pre & o & post & E & _). destruct pre; discriminate. Qed.
Lemma since_snoc {A} (b e : list A -> A -> Prop) h x : since b e (h ++ [x]) <-> b h x \/ (since b e h /\ ~ e h x).
Proof.
  split.
  - intros (pre & o & post & E & Hb & Hp). destruct (rev post) as [|y q] eqn:R.
    + assert (post = []) by (rewrite <- (rev_involutive post), R; reflexivity). subst post.
      apply app_inj_tail in E as [-> ->]. left. exact Hb.
    + assert (post = rev q ++ [y]) by (rewrite <- (rev_involutive post), R; reflexivity). subst post.
      rewrite app_comm_cons, app_assoc in E. apply app_inj_tail in E as [-> ->]. right. split.
      * exists pre, o, (rev q). splits; auto. intros p1 z p2 E. apply (Hp p1 z (p2 ++ [y])). rewrite E, <- app_assoc. reflexivity.
      * apply (Hp (rev q) y []). reflexivity.
  - intros [Hb | [(pre & o & post & -> & Hb & Hp) He]].
    + exists h, x, []. splits; auto. intros p1 z p2 E. destruct p1; discriminate.
    + exists pre, o, (post ++ [x]). rewrite <- app_assoc. splits; auto. intros p1 z p2 E.
      destruct (rev p2) as [|y q] eqn:R.
      * assert (p2 = []) by (rewrite <- (rev_involutive p2), R; reflexivity). subst p2.
        apply app_inj_tail in E as [-> ->]. exact He.
      * assert (p2 = rev q ++ [y]) by (rewrite <- (rev_involutive p2), R; reflexivity). subst p2.
        rewrite app_comm_cons, app_assoc in E. apply app_inj_tail in E as [E _]. exact (Hp p1 z (rev q) E).
Qed.
Lemma srun_app {S O R} (step : S -> O -> S * R) a b : forall s, fst (srun step s (a ++ b)) = fst (srun step (fst (srun step s a)) b).
Proof.
  induction a as [|o a IH]; intros s; cbn [app srun]; [reflexivity|]. destruct (step s o) as [s1 r].
  specialize (IH s1). destruct (srun step s1 (a ++ b)), (srun step s1 a). exact IH.
Qed.
Lemma after_nil {S O R} (step : S -> O -> S * R) s : after step s [] = s.
Proof. reflexivity. Qed.
Lemma after_snoc {S O R} (step : S -> O -> S * R) s h o : after step s (h ++ [o]) = fst (step (after step s h) o).
Proof. unfold after. rewrite srun_app. cbn [srun]. destruct (step (fst (srun step s h)) o). reflexivity. Qed.
