(* FixedVector shared with an interrupt handler. *)
From Verif.Common Require Import Base Lemmas Lists.
From Verif.Spec Require Import VectorSpec VectorIrqSpec.
From Verif.Model Require Import FixedVector Irq VectorIrq.
From Verif.Proofs Require Import FixedVector Irq Readers.

Section VI.
Context {T : Type}.
Variables (N : Z) (dflt : T).
Notation step := (fv_step false N dflt).
Notation spec := (vec_spec dflt N).
Definition vinv (s : fvec T) : Prop := zlen (v_data s) = N /\ 0 <= v_n s <= N.
Definition vreads (o : vop T) : Prop := v_reads o /\ vop_ok N o.

Lemma vrel_of s : vinv s -> VRel N s (fv_contents s).
Proof using. intros [H1 H2]. repeat split; auto; apply H2. Qed.
Lemma whole s m : vinv s -> vop_ok N m -> exists s' r, step s m = Ok (s', r) /\ spec (fv_contents s) m r (fv_contents s') /\ vinv s'.
Proof using.
  intros Hs Hm. destruct (fv_refines N dflt false s _ m eq_refl (vrel_of s Hs) Hm) as (s' & r & l' & E & Hp & HR). exists s', r.
  pose proof HR as (H1 & H2 & ->). split; [exact E|]. split; [exact Hp|]. split; assumption.
Qed.
Lemma vlooks s o : vinv s -> vreads o -> exists r, step s o = Ok (s, r) /\ spec (fv_contents s) o r (fv_contents s).
Proof using.
  intros Hs [Hr Ho]. destruct (whole s o Hs Ho) as (s' & r & E & Hp & _). exists r. assert (s' = s); [|subst; auto].
  destruct o; cbn in Hr; try contradiction; cbn [fv_step] in E; try (injection E as <- <-; reflexivity);
    match type of E with bind ?m _ = _ => destruct m; cbn [bind] in E; [|discriminate E..]; injection E as <- <-; reflexivity end.
Qed.

Notation bef := (before step spec fv_contents vreads).
Notation aft := (after step spec fv_contents vreads).

(* loading changes nothing *)
Lemma bef_n m k s : vinv s -> bef m (k (v_n s)) s -> bef m (load_n k) s.
Proof using. intros Hs H. eapply before_acc; [exact vlooks|exact Hs|reflexivity|reflexivity|exact H]. Qed.
Lemma aft_n r k s : vinv s -> aft r (k (v_n s)) s -> aft r (load_n k) s.
Proof using. intros Hs H. eapply after_acc; [exact vlooks|exact Hs|reflexivity|reflexivity|exact H]. Qed.
Lemma bef_el m i k s x : vinv s -> znth (v_data s) i = Some x -> bef m (k x) s -> bef m (load_el i k) s.
Proof using. intros Hs Hx H. eapply before_acc; [exact vlooks|exact Hs|cbn; rewrite (rd_ok _ _ _ Hx); reflexivity|reflexivity|exact H]. Qed.
Lemma aft_el r i k s x : vinv s -> znth (v_data s) i = Some x -> aft r (k x) s -> aft r (load_el i k) s.
Proof using. intros Hs Hx H. eapply after_acc; [exact vlooks|exact Hs|cbn; rewrite (rd_ok _ _ _ Hx); reflexivity|reflexivity|exact H]. Qed.
Lemma bef_ret m r s : vinv s -> step s m = Ok (s, r) -> vop_ok N m -> bef m (Ret r) s.
Proof using. intros Hs E Hm. apply before_ret with (inv := vinv); [exact vlooks|exact Hs|]. destruct (whole s m Hs Hm) as (s' & r' & E' & Hp & _). rewrite E in E'. injection E' as <- <-. exact Hp. Qed.
Lemma aft_ret r s : vinv s -> aft r (Ret r) s.
Proof using. intros Hs. apply after_ret with (inv := vinv); [exact vlooks|exact Hs]. Qed.

Lemma unseen d n i x : n <= i -> 0 <= n -> firstn (Z.to_nat n) (@zupd T d i x) = firstn (Z.to_nat n) d.
Proof using. intros H Hn. apply znth_opt_ext. intros j Hj. rewrite !znth_firstn_if, znth_zupd. destruct (Z.ltb_spec j n); [|reflexivity]. replace (i =? j) with false by lia. reflexivity. Qed.
(* writing beyond the end is not seen *)
Lemma bef_store m i x k s : vinv s -> v_n s <= i < N -> bef m k (FVec (zupd (v_data s) i x) (v_n s)) -> bef m (store_el i x k) s.
Proof using.
  intros Hs Hi H. pose proof Hs as [H1 H2]. eapply before_acc; [exact vlooks|exact Hs|cbn; rewrite wr_ok by lia; reflexivity| |exact H].
  unfold fv_contents. cbn. apply unseen; lia.
Qed.
(* the store after which the call is done *)
Lemma bef_commit m n k s s' r : vinv s -> vinv s' -> vop_ok N m -> FVec (v_data s) n = s' -> spec (fv_contents s) m r (fv_contents s') -> aft r k s' -> bef m (store_n n k) s.
Proof using. intros Hs Hs' Hm <- Hp H. eapply commit_acc; [exact vlooks|exact Hs|reflexivity|exact Hp|exact H]. Qed.

Lemma step_spec s m s' r : vinv s -> vop_ok N m -> step s m = Ok (s', r) -> spec (fv_contents s) m r (fv_contents s') /\ vinv s'.
Proof using. intros Hs Hm E. destruct (whole s m Hs Hm) as (s1 & r1 & E1 & Hp & Hi). rewrite E in E1. injection E1 as <- <-. auto. Qed.

(* push_back as the tail of [m] *)
Lemma bef_push m x no yes s r rn : vinv s -> vop_ok N m ->
  step s m = Ok (if v_n s >=? N then s else FVec (zupd (v_data s) (v_n s) x) (v_n s + 1), if v_n s >=? N then rn else r) ->
  no = Ret rn -> yes = Ret r -> bef m (push_prog N x no yes) s.
Proof using.
  intros Hs Hm E -> ->. pose proof Hs as [H1 H2]. unfold push_prog. apply bef_n; [exact Hs|]. destruct (Z.geb_spec (v_n s) N).
  - apply bef_ret; auto.
  - apply bef_n; [exact Hs|]. apply bef_store; [exact Hs|lia|]. set (s1 := FVec (zupd (v_data s) (v_n s) x) (v_n s)).
    assert (Hs1 : vinv s1) by (split; cbn; rewrite ?zlen_zupd; lia). apply bef_n; [exact Hs1|].
    destruct (step_spec s m _ _ Hs Hm E) as [Hp Hi]. eapply bef_commit; [exact Hs1|exact Hi|exact Hm|reflexivity| |apply aft_ret; exact Hi].
    replace (fv_contents s1) with (fv_contents s); [exact Hp|]. unfold fv_contents, s1. cbn. symmetry. apply unseen; lia.
Qed.

Lemma fill_bef m x k done : forall i s d', vinv s -> v_n s <= i -> i + Z.of_nat k <= N -> fill_from k i (v_data s) x = Ok d' ->
  (forall s2, s2 = FVec d' (v_n s) -> vinv s2 -> fv_contents s2 = fv_contents s -> bef m done s2) -> bef m (fill_prog k i x done) s.
Proof using.
  induction k as [|k IH]; intros i s d' Hs Hi Hk E H; cbn [fill_prog fill_from] in *.
  - injection E as <-. apply H; auto. destruct s; reflexivity.
  - pose proof Hs as [H1 H2]. rewrite wr_ok in E by lia. cbn [bind] in E. apply bef_store; [exact Hs|lia|].
    assert (U : fv_contents (FVec (zupd (v_data s) i x) (v_n s)) = fv_contents s) by (unfold fv_contents; cbn; apply unseen; lia).
    apply (IH (i + 1) (FVec (zupd (v_data s) i x) (v_n s)) d'); cbn; try lia; auto.
    + split; cbn; rewrite ?zlen_zupd; lia.
    + intros s2 -> Hi2 Hc. apply H; auto. congruence.
Qed.

Lemma list_bef : forall k i seen s, vinv s -> 0 <= i -> Z.of_nat k + i = v_n s -> seen = rev (firstn (Z.to_nat i) (v_data s)) -> bef VContents (list_prog k i seen) s.
Proof using.
  induction k as [|k IH]; intros i seen s Hs Hi Hk Hl; cbn [list_prog].
  - subst seen. rewrite rev_involutive. apply bef_ret; [exact Hs| |exact I]. cbn. replace i with (v_n s) by lia. reflexivity.
  - pose proof Hs as [H1 H2]. destruct (znth_some (v_data s) i) as [x Hx]; [lia|]. eapply bef_el; [exact Hs|exact Hx|]. apply IH; try lia; auto. subst seen.
    rewrite <- (rev_unit _ x). f_equal.
    apply znth_opt_ext. intros j Hj. rewrite znth_app, !znth_firstn_if, zlen_firstn by lia.
    destruct (Z.ltb_spec j i).
    + replace (j <? i + 1) with true by lia. reflexivity.
    + destruct (Z.eq_dec j i) as [->|]; [replace (i <? i + 1) with true by lia; replace (i - i) with 0 by lia; cbn; auto|].
      replace (j <? i + 1) with false by lia. rewrite znth_none; [reflexivity|]. cbn. lia.
Qed.

Theorem interrupted s m gaps : zlen (v_data s) = N -> 0 <= v_n s <= N -> vop_ok N m -> v_moves_nothing (v_n s) m -> Forall (fun o => v_reads o /\ vop_ok N o) (concat gaps) ->
  exists s' r a b qa qb, iexec step (v_main N dflt m) s gaps = Ok (s', r, qa ++ qb) /\ concat gaps = a ++ b /\ length qa = length a /\
    rel_run spec (fv_contents s) (a ++ m :: b) (qa ++ r :: qb) (fv_contents s').
Proof using.
  intros H1 H2 Hm Hn HG. assert (Hs : vinv s) by (split; auto). revert gaps HG. change (bef m (v_main N dflt m) s).
  destruct m as [x| | | |i x|i|f e|n x|n| | | | | |i|i x]; cbn [v_main]; cbn [vop_ok v_moves_nothing] in *.
  - eapply bef_push; try reflexivity; auto. cbn [fv_step]. unfold fv_push. destruct (Z.geb_spec (v_n s) N); [reflexivity|]. rewrite wr_ok by lia. reflexivity.
  - apply bef_n; [exact Hs|]. destruct (Z.geb_spec (v_n s) N) as [Hc|Hc].
    + apply bef_ret; auto. cbn [fv_step]. unfold fv_push_ow. replace (v_n s >=? N) with true by lia. reflexivity.
    + apply bef_n; [exact Hs|]. apply bef_n; [exact Hs|]. destruct (step_spec s VPushOverwrite (FVec (v_data s) (v_n s + 1)) (VNum (v_n s)) Hs I) as [Hp Hi].
      { cbn [fv_step]. unfold fv_push_ow. replace (v_n s >=? N) with false by lia. reflexivity. }
      eapply bef_commit; [exact Hs|exact Hi|exact I|reflexivity|exact Hp|apply aft_ret; exact Hi].
  - apply bef_n; [exact Hs|]. destruct (Z.eqb_spec (v_n s) 0) as [Hc|Hc].
    + apply bef_ret; auto. cbn [fv_step]. unfold fv_pop. replace (v_n s =? 0) with true by lia. reflexivity.
    + destruct (znth_some (v_data s) (v_n s - 1)) as [x Hx]; [lia|]. apply bef_n; [exact Hs|]. destruct (step_spec s VPop (FVec (v_data s) (v_n s - 1)) (VItem x) Hs I) as [Hp Hi].
      { cbn [fv_step]. unfold fv_pop. replace (v_n s =? 0) with false by lia. rewrite (rd_ok _ _ _ Hx). reflexivity. }
      eapply bef_commit; [exact Hs|exact Hi|exact I|reflexivity|exact Hp|]. apply aft_n; [exact Hi|]. cbn [v_n]. eapply aft_el; [exact Hi|exact Hx|]. apply aft_ret; exact Hi.
  - apply bef_n; [exact Hs|]. destruct (Z.gtb_spec (v_n s) 0) as [Hc|Hc].
    + destruct (znth_some (v_data s) (v_n s - 1)) as [x Hx]; [lia|]. apply bef_n; [exact Hs|]. eapply bef_el; [exact Hs|exact Hx|]. apply bef_ret; auto.
      cbn [fv_step]. unfold fv_back. replace (v_n s >? 0) with true by lia. rewrite (rd_ok _ _ _ Hx). reflexivity.
    + apply bef_ret; auto. cbn [fv_step]. unfold fv_back. replace (v_n s >? 0) with false by lia. reflexivity.
  - apply bef_n; [exact Hs|]. destruct (Z.geb_spec (v_n s) N) as [Hc|Hc]; [apply bef_ret; auto; cbn [fv_step]; unfold fv_insert; replace (v_n s >=? N) with true by lia; reflexivity|].
    apply bef_n; [exact Hs|]. destruct (Z.gtb_spec i (v_n s)) as [Hd|Hd].
    { apply bef_ret; auto. cbn [fv_step]. unfold fv_insert. replace (v_n s >=? N) with false by lia. replace (i >? v_n s) with true by lia. reflexivity. }
    apply bef_n; [exact Hs|]. replace (i =? v_n s) with true by lia. eapply bef_push; try reflexivity; auto. cbn [fv_step]. unfold fv_insert, fv_push.
    replace (v_n s >=? N) with false by lia. replace (i >? v_n s) with false by lia. replace (i =? v_n s) with true by lia. cbn [orb]. rewrite wr_ok by lia. reflexivity.
  - apply bef_n; [exact Hs|]. destruct (Z.eqb_spec (v_n s) 0) as [Hc|Hc]; [apply bef_ret; auto; cbn [fv_step]; unfold fv_erase; replace (v_n s =? 0) with true by lia; reflexivity|].
    apply bef_n; [exact Hs|]. destruct (Z.geb_spec i (v_n s)) as [Hd|Hd].
    { apply bef_ret; auto. cbn [fv_step]. unfold fv_erase. replace (v_n s =? 0) with false by lia. replace (i >=? v_n s) with true by lia. reflexivity. }
    apply bef_n; [exact Hs|]. replace (i =? v_n s - 1) with true by lia. apply bef_n; [exact Hs|]. destruct (step_spec s (VErase i) (FVec (v_data s) (v_n s - 1)) VUnit Hs Hm) as [Hp Hi].
    { cbn [fv_step]. unfold fv_erase. replace (v_n s =? 0) with false by lia. replace (i >=? v_n s) with false by lia. replace (i =? v_n s - 1) with true by lia. reflexivity. }
    eapply bef_commit; [exact Hs|exact Hi|exact Hm|reflexivity|exact Hp|apply aft_ret; exact Hi].
  - apply bef_n; [exact Hs|]. destruct ((f <=? v_n s) && (e <=? v_n s)) eqn:Hc; cbn [negb]; [|apply bef_ret; auto; cbn [fv_step]; rewrite Hc; reflexivity].
    apply bef_n; [exact Hs|]. destruct ((v_n s =? 0) || (e - f <=? 0)) eqn:Hd.
    { apply bef_ret; auto. cbn [fv_step]. rewrite Hc. unfold fv_erase_range. rewrite Hd. reflexivity. }
    apply bef_n; [exact Hs|]. assert (e = v_n s) by lia. subst e. replace (Z.to_nat (v_n s - v_n s)) with 0%nat by lia. cbn [shift_down]. apply bef_n; [exact Hs|].
    destruct (step_spec s (VEraseRange f (v_n s)) (FVec (v_data s) (v_n s - (v_n s - f))) VUnit Hs Hm) as [Hp Hi].
    { cbn [fv_step]. rewrite Hc. unfold fv_erase_range. rewrite Hd. replace (Z.to_nat (v_n s - v_n s)) with 0%nat by lia. reflexivity. }
    eapply bef_commit; [exact Hs|exact Hi|exact Hm|reflexivity|exact Hp|apply aft_ret; exact Hi].
  - apply bef_n; [exact Hs|]. set (nb := Z.min n N). destruct (Z.gtb_spec nb (v_n s)) as [Hc|Hc].
    + apply bef_n; [exact Hs|]. destruct (fill_from_ok x (Z.to_nat (nb - v_n s)) (v_n s) (v_data s)) as (d' & E & Hl & _); [lia|lia|].
      eapply fill_bef; [exact Hs|lia|lia|exact E|]. intros s2 -> Hi2 Hc2.
      destruct (step_spec s (VResize n x) (FVec d' nb) (VBool (n =? nb)) Hs Hm) as [Hp Hi].
      { cbn [fv_step]. unfold fv_resize. fold nb. replace (nb >? v_n s) with true by lia. rewrite E. reflexivity. }
      eapply bef_commit; [exact Hi2|exact Hi|exact Hm|reflexivity|rewrite Hc2; exact Hp|apply aft_ret; exact Hi].
    + destruct (step_spec s (VResize n x) (FVec (v_data s) nb) (VBool (n =? nb)) Hs Hm) as [Hp Hi].
      { cbn [fv_step]. unfold fv_resize. fold nb. replace (nb >? v_n s) with false by lia. reflexivity. }
      eapply bef_commit; [exact Hs|exact Hi|exact Hm|reflexivity|exact Hp|apply aft_ret; exact Hi].
  - destruct (step_spec s (VResizeOverwrite n) (FVec (v_data s) (Z.min n N)) (VBool (n =? Z.min n N)) Hs Hm eq_refl) as [Hp Hi].
    eapply bef_commit; [exact Hs|exact Hi|exact Hm|reflexivity|exact Hp|]. apply aft_n; [exact Hi|]. apply aft_ret; exact Hi.
  - apply bef_n; [exact Hs|]. apply bef_ret; auto.
  - apply bef_ret; auto.
  - apply bef_n; [exact Hs|]. apply bef_ret; auto.
  - destruct (step_spec s VClear (FVec (v_data s) 0) VUnit Hs I eq_refl) as [Hp Hi].
    eapply bef_commit; [exact Hs|exact Hi|exact I|reflexivity|exact Hp|apply aft_ret; exact Hi].
  - apply bef_n; [exact Hs|]. apply list_bef; auto; lia.
  - destruct (znth_some (v_data s) i) as [x Hx]; [lia|]. eapply bef_el; [exact Hs|exact Hx|]. apply bef_ret; auto. cbn [fv_step]. unfold fv_at. rewrite (rd_ok _ _ _ Hx). reflexivity.
  - assert (E : step s (VSet i x) = Ok (FVec (zupd (v_data s) i x) (v_n s), VUnit)) by (cbn [fv_step]; unfold fv_set; rewrite wr_ok by lia; reflexivity).
    destruct (step_spec s (VSet i x) _ _ Hs Hm E) as [Hp Hi].
    eapply commit_acc; [exact vlooks|exact Hs|cbn; rewrite wr_ok by lia; reflexivity|exact Hp|apply aft_ret; exact Hi].
Qed.

(* ---- moving elements ---- *)
Section Moving.
Variables (A : list T) (n0 n1 : Z).
Definition vj (s : fvec T) : Prop := vinv s /\ (v_n s = n0 \/ v_n s = n1) /\ incl (fv_contents s) A.
Notation thr Post := (through step vreads vj Post).

Lemma in_contents s i x : vinv s -> i < v_n s -> znth (v_data s) i = Some x -> In x (fv_contents s).
Proof using.
  intros [H1 H2] Hi Hx. unfold fv_contents. assert (E : znth (firstn (Z.to_nat (v_n s)) (v_data s)) i = Some x) by (rewrite znth_firstn_if; replace (i <? v_n s) with true by lia; exact Hx).
  unfold znth in E. destruct (i <? 0); [discriminate E|]. eapply nth_error_In; eauto.
Qed.
Lemma incl_upd d n i x : 0 <= n -> In x A -> incl (firstn (Z.to_nat n) d) A -> incl (firstn (Z.to_nat n) (@zupd T d i x)) A.
Proof using.
  intros Hn Hx H y Hy. apply In_nth_error in Hy. destruct Hy as [k Hk].
  assert (E : znth (firstn (Z.to_nat n) (zupd d i x)) (Z.of_nat k) = Some y) by (unfold znth; replace (Z.of_nat k <? 0) with false by lia; rewrite Nat2Z.id; exact Hk).
  rewrite znth_firstn_if, znth_zupd in E. destruct (Z.ltb_spec (Z.of_nat k) n); [|discriminate E].
  destruct ((i =? Z.of_nat k) && (0 <=? i) && (i <? zlen d)); [injection E as <-; exact Hx|]. apply H.
  assert (E' : znth (firstn (Z.to_nat n) d) (Z.of_nat k) = Some y) by (rewrite znth_firstn_if; replace (Z.of_nat k <? n) with true by lia; exact E).
  unfold znth in E'. destruct (Z.of_nat k <? 0); [discriminate E'|]. eapply nth_error_In; eauto.
Qed.

Lemma thr_n Post k s : vj s -> thr Post (k (v_n s)) s -> thr Post (load_n k) s.
Proof using. intros Hs H. eapply through_acc; [exact vlooks|exact (proj1 Hs)|exact Hs|reflexivity|exact H]. Qed.
Lemma thr_el Post i k s x : vj s -> znth (v_data s) i = Some x -> thr Post (k x) s -> thr Post (load_el i k) s.
Proof using. intros Hs Hx H. eapply through_acc; [exact vlooks|exact (proj1 Hs)|exact Hs|cbn; rewrite (rd_ok _ _ _ Hx); reflexivity|exact H]. Qed.
Lemma thr_store Post i x k s : vj s -> 0 <= i < N -> In x A -> (vj (FVec (zupd (v_data s) i x) (v_n s)) -> thr Post k (FVec (zupd (v_data s) i x) (v_n s))) -> thr Post (store_el i x k) s.
Proof using.
  intros Hs Hi Hx H. pose proof Hs as ((H1 & H2) & H3 & H4). eapply through_acc; [exact vlooks|exact (proj1 Hs)|exact Hs|cbn; rewrite wr_ok by lia; reflexivity|].
  apply H. split; [split; cbn; rewrite ?zlen_zupd; lia|]. split; [exact H3|]. unfold fv_contents; cbn. apply incl_upd; auto; lia.
Qed.
Lemma thr_end (Post : fvec T -> vout T -> Prop) n s : vj s -> vj (FVec (v_data s) n) -> Post (FVec (v_data s) n) VUnit -> thr Post (store_n n (Ret VUnit)) s.
Proof using.
  intros Hs Hs' HP. eapply through_acc; [exact vlooks|exact (proj1 Hs)|exact Hs|reflexivity|]. eapply through_ret; [exact vlooks|exact (proj1 Hs')|exact Hs'|exact HP].
Qed.
Lemma thr_up Post rest : forall k last dlast s d', vj s -> last <= v_n s -> last <= dlast <= N -> 0 <= last - Z.of_nat k -> move_backward k (v_data s) last dlast = Ok d' ->
  (vj (FVec d' (v_n s)) -> thr Post rest (FVec d' (v_n s))) -> thr Post (shift_up k last dlast rest) s.
Proof using.
  induction k as [|k IH]; intros last dlast s d' Hs Hl Hd Hk E H; cbn [shift_up move_backward] in *.
  - injection E as <-. destruct s. auto.
  - pose proof Hs as ((H1 & H2) & H3 & H4). destruct (znth_some (v_data s) (last - 1)) as [x Hx]; [lia|]. rewrite (rd_ok _ _ _ Hx) in E. cbn [bind] in E. rewrite wr_ok in E by lia. cbn [bind] in E.
    eapply thr_el; [exact Hs|exact Hx|]. apply thr_store; [exact Hs|lia| |].
    + apply H4. eapply in_contents; [exact (proj1 Hs)| |exact Hx]. lia.
    + intros Hj. eapply IH; [exact Hj|cbn; lia|lia|lia|exact E|exact H].
Qed.
Lemma thr_down Post rest : forall k first dst s d', vj s -> 0 <= dst <= first -> first + Z.of_nat k <= v_n s -> move_forward k (v_data s) first dst = Ok d' ->
  (vj (FVec d' (v_n s)) -> thr Post rest (FVec d' (v_n s))) -> thr Post (shift_down k first dst rest) s.
Proof using.
  induction k as [|k IH]; intros first dst s d' Hs Hl Hd E H; cbn [shift_down move_forward] in *.
  - injection E as <-. destruct s. auto.
  - pose proof Hs as ((H1 & H2) & H3 & H4). destruct (znth_some (v_data s) first) as [x Hx]; [lia|]. rewrite (rd_ok _ _ _ Hx) in E. cbn [bind] in E. rewrite wr_ok in E by lia. cbn [bind] in E.
    eapply thr_el; [exact Hs|exact Hx|]. apply thr_store; [exact Hs|lia| |].
    + apply H4. eapply in_contents; [exact (proj1 Hs)| |exact Hx]. lia.
    + intros Hj. eapply IH; [exact Hj|lia|cbn; lia|exact E|exact H].
Qed.
End Moving.

Lemma take_incl (l : list T) n : incl (take n l) l.
Proof using. intros x Hx. unfold take in Hx. rewrite <- (firstn_skipn (Z.to_nat n) l). apply in_or_app. auto. Qed.
Lemma drop_incl (l : list T) n : incl (drop n l) l.
Proof using. intros x Hx. unfold drop in Hx. rewrite <- (firstn_skipn (Z.to_nat n) l). apply in_or_app. auto. Qed.

Theorem moving s m gaps : zlen (v_data s) = N -> 0 <= v_n s <= N -> vop_ok N m -> ~ v_moves_nothing (v_n s) m -> Forall (fun o => v_reads o /\ vop_ok N o) (concat gaps) ->
  exists s' q, iexec step (v_main N dflt m) s gaps = Ok (s', VUnit, q) /\ spec (fv_contents s) m VUnit (fv_contents s') /\
    Forall2 (fun o r => exists lk, spec lk o r lk /\ incl lk (v_new m ++ fv_contents s) /\ (zlen lk = zlen (fv_contents s) \/ zlen lk = zlen (fv_contents s'))) (concat gaps) q.
Proof using.
  intros H1 H2 Hm Hn HG. assert (Hs : vinv s) by (split; auto). destruct (whole s m Hs Hm) as (sf & rf & Ef & Hp & Hf).
  assert (HL : zlen (fv_contents s) = v_n s) by (apply zlen_firstn; lia).
  assert (Hj : vj (v_new m ++ fv_contents s) (v_n s) (v_n sf) s) by (split; [exact Hs|]; split; [auto|]; apply incl_appr, incl_refl).
  assert (Hrf : rf = VUnit /\ incl (fv_contents sf) (v_new m ++ fv_contents s)).
  { destruct m; cbn [v_moves_nothing] in Hn; try (exfalso; apply Hn; exact I); cbn [vec_spec] in Hp; destruct Hp as [-> Hl]; (split; [reflexivity|]); rewrite Hl; cbn [v_new].
    - destruct (_ && _); [|apply incl_appr, incl_refl]. intros y Hy. apply in_app_or in Hy. destruct Hy as [Hy|[<-|Hy]]; [right; eapply take_incl; eauto|left; reflexivity|right; eapply drop_incl; eauto].
    - destruct (_ <? _); [|apply incl_appr, incl_refl]. apply incl_app; [apply take_incl|apply drop_incl].
    - destruct (_ && _); [|apply incl_appr, incl_refl]. apply incl_app; [apply take_incl|apply drop_incl]. }
  destruct Hrf as [-> Hin]. assert (Hjf : vj (v_new m ++ fv_contents s) (v_n s) (v_n sf) sf) by (split; [exact Hf|]; auto).
  assert (X : through step vreads (vj (v_new m ++ fv_contents s) (v_n s) (v_n sf)) (fun s' r => s' = sf /\ r = VUnit) (v_main N dflt m) s).
  { destruct m as [x| | | |i x|i|f e|n x|n| | | | | |i|i x]; cbn [v_main]; cbn [vop_ok v_moves_nothing v_new] in *; try (exfalso; apply Hn; exact I); cbn [fv_step] in Ef.
    - unfold fv_insert in Ef. apply thr_n; [exact Hj|]. destruct (Z.geb_spec (v_n s) N) as [Hc|Hc].
      { cbn in Ef. injection Ef as <-. eapply through_ret; [exact vlooks|exact Hs|exact Hj|auto]. }
      apply thr_n; [exact Hj|]. replace (i >? v_n s) with false in * by lia. apply thr_n; [exact Hj|]. replace (i =? v_n s) with false in * by lia. cbn [orb] in Ef.
      apply thr_n; [exact Hj|]. apply thr_n; [exact Hj|]. unfold addr in Ef. cbn [andb bind] in Ef.
      destruct (move_backward_ok (Z.to_nat (v_n s - i)) (v_data s) (v_n s) (v_n s + 1)) as (d' & Ed & Hl & _); [lia|lia|lia|]. rewrite Ed in Ef. cbn [bind] in Ef. rewrite wr_ok in Ef by lia. cbn in Ef. injection Ef as <-.
      eapply thr_up; [exact Hj|lia|lia|lia|exact Ed|]. intros Hj1. apply thr_store; [exact Hj1|lia|left; reflexivity|]. intros Hj2. cbn [v_data v_n] in *.
      apply thr_n; [exact Hj2|]. apply thr_end; auto.
    - unfold fv_erase in Ef. apply thr_n; [exact Hj|]. replace (v_n s =? 0) with false in * by lia.
      apply thr_n; [exact Hj|]. replace (i >=? v_n s) with false in * by lia. apply thr_n; [exact Hj|]. replace (i =? v_n s - 1) with false in * by lia. cbn [orb] in Ef.
      apply thr_n; [exact Hj|]. unfold addr in Ef. cbn [andb bind] in Ef.
      destruct (move_forward_ok (Z.to_nat (v_n s - (i + 1))) (v_data s) (i + 1) i) as (d' & Ed & Hl & _); [lia|lia|]. rewrite Ed in Ef. cbn in Ef. injection Ef as <-.
      eapply thr_down; [exact Hj|lia|lia|exact Ed|]. intros Hj1. apply thr_n; [exact Hj1|]. apply thr_end; auto.
    - apply thr_n; [exact Hj|]. destruct ((f <=? v_n s) && (e <=? v_n s)) eqn:Hc; cbn [negb]; [|injection Ef as <-; eapply through_ret; [exact vlooks|exact Hs|exact Hj|auto]].
      unfold fv_erase_range in Ef. apply thr_n; [exact Hj|]. replace ((v_n s =? 0) || (e - f <=? 0)) with false in * by lia. apply thr_n; [exact Hj|].
      destruct (move_forward_ok (Z.to_nat (v_n s - e)) (v_data s) e f) as (d' & Ed & Hl & _); [lia|lia|]. rewrite Ed in Ef. cbn in Ef. injection Ef as <-.
      eapply thr_down; [exact Hj|lia|lia|exact Ed|]. intros Hj1. apply thr_n; [exact Hj1|]. apply thr_end; auto. }
  destruct (X gaps HG) as (s' & r & q & E & [-> ->] & Hq). exists sf, q. split; [exact E|]. split; [exact Hp|].
  assert (HLf : zlen (fv_contents sf) = v_n sf) by (destruct Hf; apply zlen_firstn; lia). rewrite HL, HLf. clear - Hq HG. revert HG. induction Hq as [|o r os q Ho _ IH]; intros HG; constructor.
  - destruct Ho as (s1 & (Hi & Hn & Hc) & E). exists (fv_contents s1). inversion HG as [|? ? [_ Hok] _]; subst. split; [exact (proj1 (step_spec s1 o s1 r Hi Hok E))|]. split; [exact Hc|].
    destruct Hi as [A B]. unfold fv_contents at 1 2. rewrite zlen_firstn by lia. exact Hn.
  - inversion HG; auto.
Qed.

(* ---- what the handler can see ---- *)
Notation vsees := (sees step).
Lemma sees_n o q k s s' r : vsees o q (k (v_n s)) s s' r -> vsees o q (load_n k) s s' r.
Proof using. intros H. eapply sees_acc; [reflexivity|exact H]. Qed.
Lemma sees_el o q i k s s' r x : znth (v_data s) i = Some x -> vsees o q (k x) s s' r -> vsees o q (load_el i k) s s' r.
Proof using. intros Hx H. eapply sees_acc; [cbn; rewrite (rd_ok _ _ _ Hx); reflexivity|exact H]. Qed.
Lemma sees_store o q i x k s s' r : 0 <= i < zlen (v_data s) -> vsees o q k (FVec (zupd (v_data s) i x) (v_n s)) s' r -> vsees o q (store_el i x k) s s' r.
Proof using. intros Hi H. eapply sees_acc; [cbn; rewrite wr_ok by lia; reflexivity|exact H]. Qed.
Lemma sees_up o q rest s' r : forall k last dlast s d', last <= dlast <= zlen (v_data s) -> 0 <= last - Z.of_nat k -> move_backward k (v_data s) last dlast = Ok d' ->
  vsees o q rest (FVec d' (v_n s)) s' r -> vsees o q (shift_up k last dlast rest) s s' r.
Proof using.
  induction k as [|k IH]; intros last dlast s d' Hl Hk E H; cbn [shift_up move_backward] in *.
  - injection E as <-. destruct s. exact H.
  - destruct (znth_some (v_data s) (last - 1)) as [x Hx]; [lia|]. rewrite (rd_ok _ _ _ Hx) in E. cbn [bind] in E. rewrite wr_ok in E by lia. cbn [bind] in E.
    eapply sees_el; [exact Hx|]. apply sees_store; [lia|]. eapply IH; [cbn; rewrite zlen_zupd; lia|lia|exact E|exact H].
Qed.
Lemma sees_down o q rest s' r : forall k first dst s d', 0 <= dst <= first -> first + Z.of_nat k <= zlen (v_data s) -> move_forward k (v_data s) first dst = Ok d' ->
  vsees o q rest (FVec d' (v_n s)) s' r -> vsees o q (shift_down k first dst rest) s s' r.
Proof using.
  induction k as [|k IH]; intros first dst s d' Hl Hk E H; cbn [shift_down move_forward] in *.
  - injection E as <-. destruct s. exact H.
  - destruct (znth_some (v_data s) first) as [x Hx]; [lia|]. rewrite (rd_ok _ _ _ Hx) in E. cbn [bind] in E. rewrite wr_ok in E by lia. cbn [bind] in E.
    eapply sees_el; [exact Hx|]. apply sees_store; [lia|]. eapply IH; [lia|cbn; rewrite zlen_zupd; lia|exact E|exact H].
Qed.

Lemma contents_nth s i : vinv s -> znth (fv_contents s) i = if i <? v_n s then znth (v_data s) i else None.
Proof using. intros H. apply vrel_nth with (N := N). apply vrel_of. exact H. Qed.

Theorem insert_loses_last s i x : zlen (v_data s) = N -> 0 <= v_n s < N -> 0 <= i < v_n s ->
  exists gaps s', concat gaps = [VContents] /\ iexec step (v_main N dflt (VInsert i x)) s gaps =
    Ok (s', VUnit, [VList (take i (fv_contents s) ++ x :: take (v_n s - 1 - i) (drop i (fv_contents s)))]).
Proof using.
  intros H1 H2 Hi. assert (Hs : vinv s) by (split; auto; lia). cbn [v_main].
  destruct (move_backward_ok (Z.to_nat (v_n s - i)) (v_data s) (v_n s) (v_n s + 1)) as (d' & Ed & Hl & Hc); [lia|lia|lia|].
  enough (X : exists s', vsees VContents (VList (take i (fv_contents s) ++ x :: take (v_n s - 1 - i) (drop i (fv_contents s)))) (v_main N dflt (VInsert i x)) s s' VUnit).
  { destruct X as (s' & gaps & E1 & E2). exists gaps, s'. auto. }
  eexists. cbn [v_main]. apply sees_n. replace (v_n s >=? N) with false by lia. apply sees_n. replace (i >? v_n s) with false by lia. apply sees_n. replace (i =? v_n s) with false by lia.
  apply sees_n. apply sees_n. eapply sees_up; [lia|lia|exact Ed|]. apply sees_store; [cbn; lia|]. cbn [v_data v_n]. apply sees_n. cbn [v_n].
  eapply sees_now; [|reflexivity|reflexivity]. cbn [fv_step]. do 3 f_equal. apply znth_opt_ext. intros j Hj.
  unfold take, drop. rewrite contents_nth by (split; cbn; rewrite ?zlen_zupd; lia). cbn [v_n v_data]. rewrite znth_zupd, Hc, Hl.
  rewrite znth_app, zlen_firstn_min by lia. assert (HL : zlen (fv_contents s) = v_n s) by (apply zlen_firstn; lia). rewrite HL.
  rewrite znth_cons, !znth_firstn_if. replace (Z.min i (v_n s)) with i by lia.
  destruct (Z.ltb_spec j (v_n s)), (Z.ltb_spec j i); try lia.
  - replace ((i =? j) && (0 <=? i) && (i <? zlen (v_data s))) with false by lia. replace ((v_n s + 1 - Z.of_nat (Z.to_nat (v_n s - i)) <=? j) && (j <? v_n s + 1)) with false by lia.
    rewrite contents_nth by exact Hs. replace (j <? v_n s) with true by lia. reflexivity.
  - destruct (Z.eqb_spec (j - i) 0).
    + replace ((i =? j) && (0 <=? i) && (i <? zlen (v_data s))) with true by lia. reflexivity.
    + replace ((i =? j) && (0 <=? i) && (i <? zlen (v_data s))) with false by lia. replace ((v_n s + 1 - Z.of_nat (Z.to_nat (v_n s - i)) <=? j) && (j <? v_n s + 1)) with true by lia.
      replace (j - i <? 0) with false by lia. replace (j - i - 1 <? v_n s - 1 - i) with true by lia. rewrite znth_skipn by lia. rewrite contents_nth by exact Hs. replace (i + (j - i - 1) <? v_n s) with true by lia. f_equal; lia.
  - destruct (Z.eqb_spec (j - i) 0); [lia|]. replace (j - i <? 0) with false by lia. replace (j - i - 1 <? v_n s - 1 - i) with false by lia. reflexivity.
Qed.

Theorem erase_doubles_last s i : zlen (v_data s) = N -> 0 <= v_n s <= N -> 0 <= i < v_n s - 1 ->
  exists gaps s' z, znth (fv_contents s) (v_n s - 1) = Some z /\ concat gaps = [VContents] /\ iexec step (v_main N dflt (VErase i)) s gaps =
    Ok (s', VUnit, [VList (take i (fv_contents s) ++ drop (i + 1) (fv_contents s) ++ [z])]).
Proof using.
  intros H1 H2 Hi. assert (Hs : vinv s) by (split; auto; lia). assert (HL : zlen (fv_contents s) = v_n s) by (apply zlen_firstn; lia).
  destruct (znth_some (fv_contents s) (v_n s - 1)) as [z Hz]; [lia|].
  destruct (move_forward_ok (Z.to_nat (v_n s - (i + 1))) (v_data s) (i + 1) i) as (d' & Ed & Hl & Hc); [lia|lia|].
  enough (X : exists s', vsees VContents (VList (take i (fv_contents s) ++ drop (i + 1) (fv_contents s) ++ [z])) (v_main N dflt (VErase i)) s s' VUnit).
  { destruct X as (s' & gaps & E1 & E2). exists gaps, s', z. auto. }
  eexists. cbn [v_main]. apply sees_n. replace (v_n s =? 0) with false by lia. apply sees_n. replace (i >=? v_n s) with false by lia. apply sees_n. replace (i =? v_n s - 1) with false by lia.
  apply sees_n. eapply sees_down; [lia|lia|exact Ed|]. apply sees_n. cbn [v_n].
  eapply sees_now; [|reflexivity|reflexivity]. cbn [fv_step]. do 3 f_equal. apply znth_opt_ext. intros j Hj.
  unfold take, drop. rewrite contents_nth by (split; cbn; lia). cbn [v_n v_data]. rewrite Hc. rewrite !znth_app, zlen_firstn_min, zlen_skipn_max, HL by lia.
  rewrite znth_firstn_if. replace (Z.min i (v_n s)) with i by lia. replace (Z.max 0 (v_n s - (i + 1))) with (v_n s - 1 - i) by lia.
  rewrite contents_nth in Hz by exact Hs. replace (v_n s - 1 <? v_n s) with true in Hz by lia.
  destruct (Z.ltb_spec j (v_n s)), (Z.ltb_spec j i); try lia.
  - replace ((i <=? j) && _) with false by lia. rewrite contents_nth by exact Hs. replace (j <? v_n s) with true by lia. reflexivity.
  - destruct (Z.ltb_spec (j - i) (v_n s - 1 - i)).
    + replace ((i <=? j) && (j <? i + Z.of_nat (Z.to_nat (v_n s - (i + 1))))) with true by lia. rewrite znth_skipn by lia. rewrite contents_nth by exact Hs.
      replace (i + 1 + (j - i) <? v_n s) with true by lia. reflexivity.
    + replace ((i <=? j) && (j <? i + Z.of_nat (Z.to_nat (v_n s - (i + 1))))) with false by lia. replace (j - i - (v_n s - 1 - i)) with 0 by lia. cbn. rewrite <- Hz. f_equal; lia.
  - destruct (Z.ltb_spec (j - i) (v_n s - 1 - i)); [lia|]. symmetry. apply znth_none. cbn. lia.
Qed.

Theorem push_during_push s x y : zlen (v_data s) = N -> 0 <= v_n s < N ->
  exists gaps s', concat gaps = [VPush y] /\ iexec step (v_main N dflt (VPush x)) s gaps = Ok (s', VBool true, [VBool true]) /\ fv_contents s' = fv_contents s ++ [y].
Proof using.
  intros H1 H2. assert (Hs : vinv s) by (split; auto; lia). set (s1 := FVec (zupd (zupd (v_data s) (v_n s) x) (v_n s) y) (v_n s + 1)).
  assert (X : vsees (VPush y) (VBool true) (v_main N dflt (VPush x)) s s1 (VBool true)).
  { cbn [v_main]. unfold push_prog. apply sees_n. replace (v_n s >=? N) with false by lia. apply sees_n. apply sees_store; [lia|]. apply sees_n. cbn [v_n v_data].
    eapply (sees_now step _ _ _ _ s1); [|reflexivity|reflexivity]. cbn [fv_step]. unfold fv_push. cbn [v_n v_data]. replace (v_n s >=? N) with false by lia. rewrite wr_ok by (rewrite zlen_zupd; lia). reflexivity. }
  destruct X as (gaps & E1 & E2). exists gaps, s1. split; [exact E1|]. split; [exact E2|]. apply znth_opt_ext. intros j Hj.
  rewrite contents_nth by (split; cbn; rewrite ?zlen_zupd; lia). unfold s1. cbn [v_n v_data]. rewrite zupd_zupd_eq, znth_zupd, znth_app, contents_nth by exact Hs.
  assert (HL : zlen (fv_contents s) = v_n s) by (apply zlen_firstn; lia). rewrite HL. destruct (Z.ltb_spec j (v_n s)).
  - replace (j <? v_n s + 1) with true by lia. replace (v_n s =? j) with false by lia. reflexivity.
  - destruct (Z.eqb_spec (v_n s) j) as [<-|]; [replace (v_n s <? v_n s + 1) with true by lia; replace (0 <=? v_n s) with true by lia; replace (v_n s <? zlen (v_data s)) with true by lia; replace (v_n s - v_n s) with 0 by lia; reflexivity|].
    replace (j <? v_n s + 1) with false by lia. symmetry. apply znth_none. cbn. lia.
Qed.

Theorem pop_during_pop s : zlen (v_data s) = N -> 0 < v_n s <= N ->
  exists gaps s' z, znth (fv_contents s) (v_n s - 1) = Some z /\ concat gaps = [VPop] /\ iexec step (v_main N dflt VPop) s gaps = Ok (s', VItem z, [VItem z]).
Proof using.
  intros H1 H2. assert (Hs : vinv s) by (split; auto; lia). assert (HL : zlen (fv_contents s) = v_n s) by (apply zlen_firstn; lia).
  destruct (znth_some (fv_contents s) (v_n s - 1)) as [z Hz]; [lia|]. pose proof Hz as Hz'. rewrite contents_nth in Hz' by exact Hs. replace (v_n s - 1 <? v_n s) with true in Hz' by lia.
  enough (X : exists s', vsees VPop (VItem z) (v_main N dflt VPop) s s' (VItem z)). { destruct X as (s' & gaps & E1 & E2). exists gaps, s', z. auto. }
  eexists. cbn [v_main]. apply sees_n. replace (v_n s =? 0) with false by lia. apply sees_n.
  eapply sees_now; [cbn [fv_step]; unfold fv_pop; replace (v_n s =? 0) with false by lia; rewrite (rd_ok _ _ _ Hz'); reflexivity|reflexivity|].
  cbn. rewrite (rd_ok _ _ _ Hz'). reflexivity.
Qed.
Theorem pop_during_last_pop s : zlen (v_data s) = N -> v_n s = 1 -> 1 <= N ->
  exists gaps, concat gaps = [VPop] /\ iexec step (v_main N dflt VPop) s gaps = UB OutOfBounds.
Proof using.
  intros H1 H2 HN. exists [[]; [VPop]]. split; [reflexivity|]. destruct (znth_some (v_data s) 0) as [z Hz]; [lia|]. cbn. rewrite H2. cbn. unfold fv_pop. rewrite H2. cbn. rewrite (rd_ok _ _ _ Hz). reflexivity.
Qed.
End VI.
