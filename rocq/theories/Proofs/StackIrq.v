(* CircularStack shared with an interrupt handler. *)
From Verif.Common Require Import Base Lemmas Lists.
From Verif.Spec Require Import RingSpec IrqSpec StackIrqSpec.
From Verif.Model Require Import Circular Irq StackIrq.
From Verif.Proofs Require Import Circular Irq Readers.

Section SI.
Context {T : Type}.
Variables (cap : Z) (dflt : T).
Hypothesis Hcap : 0 < cap.
Notation step := (st_step cap dflt).
Notation stack := (stack_step dflt cap).
Notation srel := (@SRel T cap).
Definition sinv (s : cstk T) : Prop := zlen (st_data s) = cap /\ 0 <= st_top s <= cap /\ 0 <= st_bot s < cap.
Definition below (t : Z) : Z := if t =? 0 then cap - 1 else t - 1.

Lemma srel_inv s q : srel s q -> sinv s.
Proof using Hcap. clear dflt. intros (H1 & H2 & H3 & _). unfold sinv. lia. Qed.
Lemma below_range t : 0 <= t <= cap -> 0 <= below t < cap.
Proof using Hcap. clear dflt. intros H. unfold below. destruct (Z.eqb_spec t 0); lia. Qed.
Lemma slooks s o : sinv s -> s_reads o -> exists r, step s o = Ok (s, r) /\ True.
Proof using Hcap.
  intros (H1 & H2 & H3) Ho. destruct o; cbn in Ho; try contradiction; cbn [st_step]; try (eexists; split; [reflexivity|exact I]).
  unfold st_back. destruct (st_size cap s =? 0); [eexists; split; [reflexivity|exact I]|]. fold (below (st_top s)).
  destruct (znth_some (st_data s) (below (st_top s))) as (x & Ex); [rewrite H1; apply below_range; exact H2|]. rewrite (rd_ok _ _ _ Ex). eexists; split; [reflexivity|exact I].
Qed.

(* what all looks see *)
Definition view (s : cstk T) (lk : list T) : Prop :=
  sinv s /\ st_size cap s = zlen lk /\ st_empty s = (zlen lk =? 0) /\ st_back cap s = Ok (match lk with [] => None | x :: _ => Some x end).
Lemma view_nil s : sinv s -> st_full s = false -> st_top s = st_bot s -> view s [].
Proof using.
  intros Hs Hf Ht. split; [exact Hs|]. assert (E : st_size cap s = 0) by (unfold st_size; rewrite Hf, Ht; destruct (Z.geb_spec (st_bot s) (st_bot s)); lia).
  split; [exact E|]. split; [unfold st_empty; rewrite Hf, Ht, Z.eqb_refl; reflexivity|]. unfold st_back. rewrite E. reflexivity.
Qed.
Lemma view_cons s x l : sinv s -> st_size cap s = zlen (x :: l) -> (st_full s = true \/ st_top s <> st_bot s) -> znth (st_data s) (below (st_top s)) = Some x -> view s (x :: l).
Proof using.
  intros Hs E Hn Hx. pose proof (zlen_nonneg l). rewrite zlen_cons in E. split; [exact Hs|]. rewrite zlen_cons. split; [exact E|]. split.
  - unfold st_empty. replace (zlen l + 1 =? 0) with false by lia. destruct Hn as [->|Hn]; [reflexivity|]. replace (st_top s =? st_bot s) with false by lia. destruct (st_full s); reflexivity.
  - unfold st_back. rewrite E. replace (zlen l + 1 =? 0) with false by lia. fold (below (st_top s)). rewrite (rd_ok _ _ _ Hx). reflexivity.
Qed.
Lemma view_rel s q : srel s q -> view s q.
Proof using Hcap dflt.
  intros HR. split; [exact (srel_inv _ _ HR)|].
  destruct (sstep_refines cap dflt Hcap s q SSize HR) as (s1 & E1 & _). destruct (sstep_refines cap dflt Hcap s q SEmpty HR) as (s2 & E2 & _). destruct (sstep_refines cap dflt Hcap s q SBack HR) as (s3 & E3 & _).
  cbn [st_step stack_step snd] in E1, E2, E3. injection E1 as _ E1. injection E2 as _ E2. split; [exact E1|]. split; [exact E2|].
  destruct (st_back cap s) as [b|k|]; cbn in E3; try discriminate E3. injection E3 as _ ->. reflexivity.
Qed.

Definition J (q : list T) (m : sop T) (s : cstk T) : Prop := forall o r, s_reads o -> step s o = Ok (s, r) -> look_ok dflt cap q m o r.
Lemma view_step s lk o r : view s lk -> s_reads o -> step s o = Ok (s, r) -> r = snd (stack lk o).
Proof using dflt.
  intros (_ & E1 & E2 & E3) Ho E. destruct o; cbn in Ho; try contradiction; cbn [st_step stack_step snd] in *; [|congruence..]. rewrite E3 in E. cbn in E. congruence.
Qed.
Lemma view_J q m s lk : view s lk -> (lk = q \/ lk = fst (stack q m) \/ (lk = [] /\ exists x, m = SPush x /\ zlen q = cap - 1)) -> m <> SClear -> J q m s.
Proof using dflt.
  intros Hv Hl Hm o r Ho E. assert (L : exists lk, r = snd (stack lk o) /\ (lk = q \/ lk = fst (stack q m) \/ (lk = [] /\ exists x, m = SPush x /\ zlen q = cap - 1))) by (exists lk; split; [eapply view_step; eauto|exact Hl]).
  destruct m; try exact L. congruence.
Qed.

Notation thr := (through step s_reads).
Definition post (q : list T) (m : sop T) (s : cstk T) (r : rout T) : Prop := r = snd (stack q m) /\ srel s (fst (stack q m)).

Lemma thr_acc q m f s s1 p : sinv s -> J q m s -> f s = Ok (s1, p) -> thr (J q m) (post q m) p s1 -> thr (J q m) (post q m) (Acc f) s.
Proof using Hcap dflt. intros. eapply (through_acc step (fun _ _ _ _ => True) (fun x => x) s_reads sinv slooks); eauto. Qed.
Lemma thr_ret q m r s : sinv s -> J q m s -> post q m s r -> thr (J q m) (post q m) (Ret r) s.
Proof using Hcap dflt. intros. eapply (through_ret step (fun _ _ _ _ => True) (fun x => x) s_reads sinv slooks); eauto. Qed.

(* loads *)
Lemma thr_top q m k s : sinv s -> J q m s -> thr (J q m) (post q m) (k (st_top s)) s -> thr (J q m) (post q m) (ld_top k) s.
Proof using Hcap dflt. intros. eapply thr_acc; eauto. Qed.
Lemma thr_bot q m k s : sinv s -> J q m s -> thr (J q m) (post q m) (k (st_bot s)) s -> thr (J q m) (post q m) (ld_bot k) s.
Proof using Hcap dflt. intros. eapply thr_acc; eauto. Qed.
Lemma thr_full q m k s : sinv s -> J q m s -> thr (J q m) (post q m) (k (st_full s)) s -> thr (J q m) (post q m) (ld_full k) s.
Proof using Hcap dflt. intros. eapply thr_acc; eauto. Qed.
Lemma thr_el q m i x k s : sinv s -> J q m s -> znth (st_data s) i = Some x -> thr (J q m) (post q m) (k x) s -> thr (J q m) (post q m) (ld_el i k) s.
Proof using Hcap dflt. intros Hs Hj Hx Hk. eapply thr_acc; [exact Hs|exact Hj| |exact Hk]. cbn. rewrite (rd_ok (st_data s) i x) by assumption. reflexivity. Qed.
Lemma thr_size q m k s : sinv s -> J q m s -> thr (J q m) (post q m) (k (st_size cap s)) s -> thr (J q m) (post q m) (size_prog cap k) s.
Proof using Hcap dflt.
  intros Hs Hj H. unfold size_prog. apply thr_full; try assumption. unfold st_size in H. destruct (st_full s); [exact H|].
  apply thr_top; try assumption. apply thr_bot; try assumption. destruct (st_top s >=? st_bot s); (apply thr_top; try assumption; apply thr_bot; assumption).
Qed.

Lemma size_cases s q : srel s q -> (st_full s = true /\ zlen q = cap /\ st_top s = st_bot s) \/
  (st_full s = false /\ zlen q < cap /\ (st_bot s <= st_top s /\ zlen q = st_top s - st_bot s \/ st_top s < st_bot s /\ zlen q = st_top s + cap - st_bot s)).
Proof using Hcap.
  clear dflt. intros HR. pose proof (ssize_ok cap Hcap s q HR) as E. destruct HR as (Hd & Ht & Hb & Hq & He & Hf & _). unfold st_size in E. rewrite Hf in *. destruct (Z.eqb_spec (zlen q) cap) as [L|L].
  - left. split; [reflexivity|]. split; [exact L|]. rewrite He, L. replace (st_bot s + cap) with (st_bot s + 1 * cap) by lia. rewrite Z_mod_plus_full, Z.mod_small; lia.
  - right. split; [reflexivity|]. split; [lia|]. destruct (Z.geb_spec (st_top s) (st_bot s)); lia.
Qed.

Lemma call_back s q : srel s q -> thr (J q SBack) (post q SBack) (stk_main cap dflt SBack) s.
Proof using Hcap dflt.
  intros HR. pose proof (view_rel s q HR) as Hv. assert (Hj : J q SBack s) by (eapply view_J; [exact Hv|auto|discriminate]). pose proof (srel_inv _ _ HR) as Hs.
  cbn [stk_main]. apply thr_size; try assumption. destruct Hv as (_ & E1 & _ & E3). unfold st_back in E3. destruct (Z.eqb_spec (st_size cap s) 0) as [L|L].
  - apply thr_ret; try assumption. split; [cbn [stack_step snd]; congruence|exact HR].
  - fold (below (st_top s)) in E3. destruct q as [|x q]; [unfold zlen in E1; cbn in E1; lia|]. destruct (rd (st_data s) (below (st_top s))) as [y|k|] eqn:Er; cbn in E3; try discriminate E3. injection E3 as ->.
    assert (Ex : znth (st_data s) (below (st_top s)) = Some x) by (unfold rd in Er; destruct (znth (st_data s) (below (st_top s))); congruence).
    assert (P0 : post (x :: q) SBack s (OOpt (Some x))) by (split; [reflexivity|exact HR]).
    apply thr_top; try assumption. unfold below in Ex. destruct (st_top s =? 0).
    + eapply thr_el; try eassumption. apply thr_ret; assumption.
    + apply thr_top; try assumption. eapply thr_el; try eassumption. apply thr_ret; assumption.
Qed.
Lemma call_look s q m : srel s q -> s_reads m -> thr (J q m) (post q m) (stk_main cap dflt m) s.
Proof using Hcap dflt.
  intros HR Hm. pose proof (view_rel s q HR) as Hv. pose proof (srel_inv _ _ HR) as Hs. assert (Hj : J q m s) by (eapply view_J; [exact Hv|auto|intros ->; exact Hm]).
  destruct m; cbn in Hm; try contradiction; [apply call_back; exact HR|..]; cbn [stk_main].
  - apply thr_size; try assumption. apply thr_ret; try assumption. split; [|exact HR]. cbn. f_equal. apply Hv.
  - apply thr_full; try assumption. destruct Hv as (_ & _ & E & _). unfold st_empty in E. destruct (st_full s).
    + apply thr_ret; try assumption. split; [cbn; congruence|exact HR].
    + apply thr_top; try assumption. apply thr_bot; try assumption. apply thr_ret; try assumption. split; [|exact HR]. cbn. f_equal. rewrite <- E. destruct (st_top s =? st_bot s); reflexivity.
  - apply thr_ret; try assumption. split; [reflexivity|exact HR].
Qed.

Lemma call_pop s q m none some : srel s q -> (m = SPop /\ none = OOpt None /\ some = (fun x => OOpt (Some x)) \/ m = SPopOrZero /\ none = OItem dflt /\ some = OItem) ->
  thr (J q m) (post q m) (pop_prog cap none some) s.
Proof using Hcap dflt.
  intros HR Hm. pose proof (view_rel s q HR) as Hv. pose proof (srel_inv _ _ HR) as Hs. assert (Hn : m <> SClear) by (destruct Hm as [(-> & _)|(-> & _)]; discriminate).
  assert (Hj : J q m s) by (eapply view_J; [exact Hv|auto|exact Hn]).
  unfold pop_prog. apply thr_size; try assumption. pose proof Hv as (_ & E1 & _ & E3). rewrite E1. destruct q as [|x q].
  - apply thr_ret; try assumption. split; [destruct Hm as [(-> & -> & _)|(-> & -> & _)]; reflexivity|]. destruct Hm as [(-> & _)|(-> & _)]; exact HR.
  - pose proof (zlen_nonneg q) as Hq. replace (zlen (x :: q) =? 0) with false by (rewrite zlen_cons; lia).
    assert (Ef : fst (stack (x :: q) m) = q) by (destruct Hm as [(-> & _)|(-> & _)]; reflexivity).
    assert (Es : snd (stack (x :: q) m) = some x) by (destruct Hm as [(-> & _ & ->)|(-> & _ & ->)]; reflexivity).
    destruct (spop_ok cap Hcap s x q HR) as [Er HR']. pose proof HR as (Hd & Ht & Hb & Hl & _). rewrite <- dec_ok in Er, HR' by assumption. fold (below (st_top s)) in Er, HR'.
    assert (Ex : znth (st_data s) (below (st_top s)) = Some x) by (unfold rd in Er; destruct (znth (st_data s) (below (st_top s))); congruence).
    pose proof (below_range (st_top s) ltac:(lia)) as Hr.
    set (s1 := CStk (st_data s) (below (st_top s)) (st_bot s) (st_full s)). set (s2 := CStk (st_data s) (below (st_top s)) (st_bot s) false).
    assert (I1 : sinv s1) by (unfold s1, sinv; cbn; lia). pose proof (srel_inv _ _ HR') as I2. fold s2 in HR', I2.
    assert (J2 : J (x :: q) m s2) by (eapply view_J; [apply (view_rel _ _ HR')|right; left; congruence|exact Hn]).
    assert (J1 : J (x :: q) m s1).
    { destruct (st_full s) eqn:Hf; [|exact J2]. destruct (size_cases s _ HR) as [(_ & L & EQ)|(? & _)]; [|congruence]. intros o r Ho E.
      assert (X : exists lk, r = snd (stack lk o) /\ (lk = x :: q \/ lk = fst (stack (x :: q) m) \/ (lk = [] /\ exists y, m = SPush y /\ zlen (x :: q) = cap - 1))); [|destruct m; try exact X; congruence].
      destruct o; cbn in Ho; try contradiction.
      - destruct q as [|y q].
        + exists [x]. split; [|left; reflexivity]. cbn [st_step] in E. unfold st_back, st_size, s1 in E. cbn in E. replace (cap =? 0) with false in E by lia. fold (below (below (st_top s))) in E. rewrite zlen_cons in L. change (zlen (@nil T)) with 0 in L.
          assert (EB : below (below (st_top s)) = below (st_top s)) by (unfold below; rewrite <- L; change (0 + 1) with 1; destruct (Z.eqb_spec (st_top s) 0); cbn; destruct (Z.eqb_spec (st_top s - 1) 0); lia). rewrite EB in E.
          rewrite (rd_ok _ _ _ Ex) in E. cbn in E. injection E as <-. reflexivity.
        + exists (y :: q). split; [|right; left; congruence]. destruct (view_rel _ _ HR') as (_ & B1 & _ & B3). cbn [st_step] in E. unfold st_back in B3, E. rewrite B1 in B3. replace (zlen (y :: q) =? 0) with false in B3 by (rewrite zlen_cons; pose proof (zlen_nonneg q); lia).
          unfold st_size, s1 in E. cbn in E. replace (cap =? 0) with false in E by lia. unfold s2 in B3. cbn [st_top st_data] in B3. rewrite B3 in E. cbn in E. injection E as <-. reflexivity.
      - exists (x :: q). split; [|left; reflexivity]. cbn [st_step] in E. injection E as <-. cbn [stack_step snd]. rewrite L. reflexivity.
      - exists (x :: q). split; [|left; reflexivity]. cbn [st_step] in E. injection E as <-. cbn [stack_step snd]. rewrite L. replace (cap =? 0) with false by lia. reflexivity.
      - exists (x :: q). split; [|left; reflexivity]. cbn in E. injection E as <-. reflexivity. }
    assert (Fin : thr (J (x :: q) m) (post (x :: q) m) (sto_full false (ld_top (fun i => ld_el i (fun x => Ret (some x))))) s1).
    { eapply thr_acc; [exact I1|exact J1|reflexivity|]. change (CStk (st_data s1) (st_top s1) (st_bot s1) false) with s2. apply thr_top; try assumption. apply thr_el with (x := x); [exact I2|exact J2|exact Ex|].
      apply thr_ret; try assumption. split; [congruence|]. rewrite Ef. exact HR'. }
    apply thr_top; try assumption. unfold s1, below in Fin. destruct (st_top s =? 0).
    + eapply thr_acc; [exact Hs|exact Hj|reflexivity|exact Fin].
    + apply thr_top; try assumption. eapply thr_acc; [exact Hs|exact Hj|reflexivity|exact Fin].
Qed.
Lemma call_push s q x : srel s q -> thr (J q (SPush x)) (post q (SPush x)) (push_prog cap x) s.
Proof using Hcap dflt.
  intros HR. pose proof (view_rel s q HR) as Hv. pose proof (srel_inv _ _ HR) as Hs. pose proof (size_cases s q HR) as HC. pose proof (zlen_nonneg q) as Hq.
  assert (Hj : J q (SPush x) s) by (eapply view_J; [exact Hv|auto|discriminate]). pose proof HR as (Hd & Ht & Hb & Hl & _).
  destruct (sstep_refines cap dflt Hcap s q (SPush x) HR) as (s' & E & HR'). cbn [st_step stack_step fst snd] in E, HR'. unfold st_push in E. rewrite wr_ok in E by lia. cbn [bind] in E. injection E as E.
  set (d := zupd (st_data s) (st_top s) x) in *. assert (Ed : zlen d = cap) by (unfold d; rewrite zlen_zupd; exact Hd).
  set (t' := if st_top s + 1 >=? cap then 0 else st_top s + 1) in *. assert (Bt : below (st_top s + 1) = st_top s) by (unfold below; destruct (Z.eqb_spec (st_top s + 1) 0); lia).
  assert (Bt' : below t' = st_top s) by (unfold t', below; destruct (Z.geb_spec (st_top s + 1) cap); [cbn; lia|]; destruct (Z.eqb_spec (st_top s + 1) 0); lia).
  assert (Rt' : 0 <= t' < cap) by (unfold t'; destruct (Z.geb_spec (st_top s + 1) cap); lia).
  assert (Xd : znth d (st_top s) = Some x) by (unfold d; apply znth_zupd_eq; lia).
  assert (EN : exists l, firstn (Z.to_nat cap) (x :: q) = x :: l /\ zlen (x :: l) = Z.min cap (zlen q + 1)).
  { destruct (Z.to_nat cap) as [|n] eqn:En; [lia|]. exists (firstn n q). split; [reflexivity|]. rewrite zlen_cons. unfold zlen in *. rewrite firstn_length. lia. }
  destruct EN as (l & EN & EL). rewrite EN in HR'.
  (* the view of the new stack *)
  assert (New : forall t b f, 0 <= t <= cap -> 0 <= b < cap -> below t = st_top s -> (f = true \/ t <> b) -> st_size cap (CStk d t b f) = Z.min cap (zlen q + 1) -> J q (SPush x) (CStk d t b f)).
  { intros t b f H1 H2 H3 H4 H5. eapply (view_J q (SPush x) _ (x :: l)); [|right; left; cbn [stack_step fst]; symmetry; exact EN|discriminate]. apply view_cons; [repeat split; cbn; lia|congruence|exact H4|cbn; rewrite H3; exact Xd]. }
  assert (Nil : forall t b, 0 <= t <= cap -> 0 <= b < cap -> t = b -> zlen q = cap - 1 -> J q (SPush x) (CStk d t b false)).
  { intros t b H1 H2 H3 H4. eapply (view_J q (SPush x) _ []); [|right; right; split; [reflexivity|]; exists x; auto|discriminate]. apply view_nil; [repeat split; cbn; lia|reflexivity|exact H3]. }
  (* the states in between *)
  set (s1 := CStk d (st_top s) (st_bot s) (st_full s)). assert (I1 : sinv s1) by (repeat split; cbn; lia).
  assert (J1 : J q (SPush x) s1).
  { destruct q as [|y q'].
    - eapply (view_J _ _ _ []); [|left; reflexivity|discriminate]. destruct Hv as (_ & V1 & V2 & V3). split; [exact I1|]. split; [exact V1|]. split; [exact V2|]. unfold st_back. change (st_size cap s1) with (st_size cap s). rewrite V1. reflexivity.
    - destruct (Z.eq_dec (below (st_top s)) (st_top s)) as [EB|EB].
      + assert (C1 : cap = 1) by (unfold below in EB; destruct (Z.eqb_spec (st_top s) 0); lia). rewrite zlen_cons in *. pose proof (zlen_nonneg q'). destruct HC as [(F1 & F2 & F3)|(? & ? & ?)]; [|lia].
        unfold s1. apply New; auto; try lia. unfold st_size. cbn. rewrite F1. lia.
      + eapply (view_J _ _ _ (y :: q')); [|left; reflexivity|discriminate]. destruct Hv as (_ & V1 & V2 & V3). split; [exact I1|]. split; [exact V1|]. split; [exact V2|]. unfold st_back in *. change (st_size cap s1) with (st_size cap s). rewrite V1 in *.
        replace (zlen (y :: q') =? 0) with false in * by (rewrite zlen_cons; pose proof (zlen_nonneg q'); lia). change (st_top s1) with (st_top s). fold (below (st_top s)) in *. unfold s1, d, rd in *. cbn [st_data]. rewrite znth_zupd_ne by congruence. exact V3. }
  set (s2 := CStk d (st_top s + 1) (st_bot s) (st_full s)). assert (I2 : sinv s2) by (repeat split; cbn; lia).
  assert (J2 : J q (SPush x) s2).
  { destruct HC as [(F1 & F2 & F3)|(F1 & F2 & F3)]; unfold s2; rewrite F1.
    - apply New; auto; try lia. unfold st_size. cbn. lia.
    - destruct (Z.eq_dec (st_top s + 1) (st_bot s)) as [EQ|EQ]; [apply Nil; lia|]. apply New; auto; try lia. unfold st_size. cbn. destruct (Z.geb_spec (st_top s + 1) (st_bot s)); lia. }
  set (s3 := CStk d t' (st_bot s) (st_full s)). assert (I3 : sinv s3) by (repeat split; cbn; lia).
  assert (J3 : J q (SPush x) s3).
  { unfold s3, t'. destruct (Z.geb_spec (st_top s + 1) cap) as [L|L]; [|exact J2]. destruct HC as [(F1 & F2 & F3)|(F1 & F2 & F3)]; rewrite F1.
    - apply New; auto; try lia; try (unfold below; cbn; lia); try (unfold st_size; cbn; lia).
    - destruct (Z.eq_dec 0 (st_bot s)) as [EQ|EQ]; [apply Nil; lia|]. apply New; auto; try lia; try (unfold below; cbn; lia). unfold st_size. cbn [st_full st_top st_bot]. destruct (Z.geb_spec 0 (st_bot s)); lia. }
  assert (JE : J q (SPush x) s') by (eapply (view_J _ _ _ (x :: l)); [apply view_rel; exact HR'|right; left; cbn [stack_step fst]; symmetry; exact EN|discriminate]).
  assert (PE : post q (SPush x) s' OUnit) by (split; [reflexivity|]; cbn [stack_step fst]; rewrite EN; exact HR').
  pose proof (srel_inv _ _ HR') as IE.
  unfold push_prog. apply thr_top; try assumption. eapply thr_acc; [exact Hs|exact Hj|cbn; rewrite wr_ok by lia; reflexivity|]. fold d. fold s1. apply thr_top; try assumption.
  eapply thr_acc; [exact I1|exact J1|reflexivity|]. change (CStk (st_data s1) (st_top s1 + 1) (st_bot s1) (st_full s1)) with s2. apply thr_top; try assumption. change (st_top s2) with (st_top s + 1).
  (* the rest of the call *)
  match goal with |- context [sto_top 0 ?b] => set (bottom := b) end.
  assert (HB : thr (J q (SPush x)) (post q (SPush x)) bottom s3).
  { unfold bottom. apply thr_full; try assumption. change (st_full s3) with (st_full s). destruct HC as [(F1 & F2 & F3)|(F1 & F2 & F3)]; rewrite F1 in E; rewrite F1.
    - apply thr_top; try assumption. rewrite Z.eqb_refl in E. eapply thr_acc; [exact I3|exact J3|reflexivity|]. match goal with |- through _ _ _ _ _ ?st => replace st with s' by (rewrite <- E; unfold s3; cbn [st_data st_top st_bot st_full]; try rewrite F1; reflexivity) end.
      apply thr_top; try assumption. apply thr_bot; try assumption. subst s'. cbn [st_top st_bot]. rewrite Z.eqb_refl. eapply thr_acc; [exact IE|exact JE|reflexivity|]. cbn [st_data st_top st_bot st_full]. apply thr_ret; assumption.
    - apply thr_top; try assumption. apply thr_bot; try assumption. change (st_top s3) with t'. change (st_bot s3) with (st_bot s). destruct (t' =? st_bot s).
      + eapply thr_acc; [exact I3|exact J3|reflexivity|]. match goal with |- through _ _ _ _ _ ?st => replace st with s' by (rewrite <- E; unfold s3; cbn [st_data st_top st_bot st_full]; try rewrite F1; reflexivity) end. apply thr_ret; assumption.
      + match goal with |- through _ _ _ _ _ ?st => replace st with s' by (rewrite <- E; unfold s3; cbn [st_data st_top st_bot st_full]; try rewrite F1; reflexivity) end. apply thr_ret; assumption. }
  unfold s3, t' in HB. destruct (st_top s + 1 >=? cap).
  - eapply thr_acc; [exact I2|exact J2|reflexivity|]. exact HB.
  - exact HB.
Qed.
Lemma call_clear s q : srel s q -> thr (J q SClear) (post q SClear) (stk_main cap dflt SClear) s.
Proof using Hcap dflt.
  intros HR. pose proof (srel_inv _ _ HR) as Hs. destruct (sstep_refines cap dflt Hcap s q SClear HR) as (s' & E & HR'). cbn [st_step stack_step fst snd] in E, HR'. injection E as <-.
  assert (HJ : forall s, sinv s -> (st_top s < cap \/ st_bot s = 0) -> J q SClear s).
  { intros s0 (H1 & H2 & H3) Hc o r Ho E. unfold look_ok. destruct o; cbn in Ho; try contradiction; cbn [st_step] in E.
    - destruct (st_back cap s0); cbn in E; try discriminate E. injection E as <-. exact I.
    - injection E as <-. unfold st_size. destruct (st_full s0); [lia|]. destruct (Z.geb_spec (st_top s0) (st_bot s0)); lia.
    - injection E as <-. exact I.
    - injection E as <-. lia. }
  pose proof HR as (Hd & Ht & Hb & _). pose proof (srel_inv _ _ HR') as I'.
  cbn [stk_main]. eapply thr_acc; [exact Hs|apply HJ; [exact Hs|lia]|reflexivity|]. cbn [st_data st_top st_bot st_full].
  eapply thr_acc; [|apply HJ|reflexivity|]; try (repeat split; cbn; lia); try (cbn; lia). cbn [st_data st_top st_bot st_full].
  eapply thr_acc; [|apply HJ|reflexivity|]; try (repeat split; cbn; lia); try (cbn; lia). cbn [st_data st_top st_bot st_full].
  apply thr_ret; [exact I'|apply HJ; [exact I'|cbn; lia]|]. split; [reflexivity|exact HR'].
Qed.
Lemma call_any s q m : srel s q -> thr (J q m) (post q m) (stk_main cap dflt m) s.
Proof using Hcap dflt.
  intros HR. destruct m; try (apply call_look; [exact HR|exact I]); [apply call_push; exact HR|apply call_pop; auto..|apply call_clear; exact HR].
Qed.

Lemma history h : forall s q, srel s q -> Forall (calls_by (fun _ => True) s_reads) h ->
  exists s' rs qs, irun step (stk_main cap dflt) s h = Ok (s', rs, qs) /\ rs = snd (srun stack q (main_calls h)) /\ srel s' (fst (srun stack q (main_calls h))) /\ looks_ok dflt cap q h qs.
Proof using Hcap dflt.
  induction h as [|c h IH]; intros s q HR HF.
  - exists s, [], []. repeat split; try reflexivity; apply HR.
  - inversion HF as [|? ? Hc HF']; subst. destruct c as [o|m gaps].
    + cbn in Hc. destruct (slooks s o (srel_inv _ _ HR) Hc) as (r & E & _). pose proof (view_step _ _ _ _ (view_rel _ _ HR) Hc E) as ->.
      destruct (IH s q HR HF') as (s' & rs & qs & E2 & H2 & H3 & H4). exists s', rs, (snd (stack q o) :: qs). cbn [irun]. rewrite E. cbn [bind]. rewrite E2. cbn [bind fst snd]. split; [reflexivity|]. cbn [main_calls flat_map app]. split; [exact H2|]. split; [exact H3|].
      cbn [looks_ok]. exists qs. auto.
    + cbn in Hc. destruct Hc as [_ Hc]. assert (HG : Forall s_reads (concat gaps)) by (apply Forall_concat; exact Hc).
      destruct (call_any s q m HR gaps HG) as (s1 & r & a & E & (-> & HR1) & Ha). destruct (IH s1 _ HR1 HF') as (s' & rs & qs & E2 & -> & H3 & H4).
      exists s', (snd (stack q m) :: snd (srun stack (fst (stack q m)) (main_calls h))), (a ++ qs). cbn [irun]. rewrite E. cbn [bind fst snd]. rewrite E2. cbn [bind fst snd]. split; [reflexivity|].
      cbn [main_calls flat_map app]. fold (main_calls h). cbn [srun]. destruct (stack q m) as [q1 r1] eqn:Es. cbn [fst snd] in *. destruct (srun stack q1 (main_calls h)) as [q2 rs2] eqn:Er. cbn [fst snd] in *.
      split; [reflexivity|]. split; [exact H3|]. cbn [looks_ok]. exists a, qs. split; [reflexivity|]. rewrite Es. cbn [fst]. split; [|exact H4].
      clear - Ha HG. revert HG. induction Ha as [|o r lo lr (s0 & Hj & E0) Ha IHa]; intros HG; [constructor|]. inversion HG; subst. constructor; [apply (Hj o r); assumption|apply IHa; assumption].
Qed.
Lemma looks_only data h : zlen data = cap -> Forall (calls_by (fun _ => True) s_reads) h ->
  exists s' rs qs, irun step (stk_main cap dflt) (st_init data) h = Ok (s', rs, qs) /\ rs = snd (srun stack [] (main_calls h)) /\ looks_ok dflt cap [] h qs.
Proof using Hcap dflt. intros Hd HF. destruct (history h (st_init data) [] (srel_init cap Hcap data Hd) HF) as (s' & rs & qs & E & H1 & _ & H2). eauto 8. Qed.

(* what the handler must not do, and what it may see *)
Lemma filled_looks_empty s q x : srel s q -> zlen q = cap - 1 ->
  exists gaps s', concat gaps = [SEmpty; SSize; SBack] /\ iexec step (stk_main cap dflt (SPush x)) s gaps = Ok (s', OUnit, [OBool true; ONum 0; OOpt None]) /\ step s' SSize = Ok (s', ONum cap).
Proof using Hcap dflt.
  intros HR L. pose proof HR as (Hd & Ht & Hb & _). destruct (size_cases s q HR) as [(F & L2 & _)|(F & _ & HC)]; [lia|].
  destruct (sstep_refines cap dflt Hcap s q (SPush x) HR) as (s' & E & HR'). cbn [st_step stack_step fst snd] in E, HR'. unfold st_push in E. rewrite wr_ok in E by lia. cbn [bind] in E. injection E as E.
  assert (Z' : step s' SSize = Ok (s', ONum cap)). { cbn [st_step]. rewrite (ssize_ok cap Hcap _ _ HR'). do 3 f_equal. pose proof (zlen_nonneg q). apply zlen_firstn. rewrite zlen_cons. lia. }
  assert (HV : forall d b, st_size cap (CStk d b b false) = 0 /\ st_empty (CStk d b b false : cstk T) = true).
  { intros d b. unfold st_size, st_empty. cbn. rewrite Z.eqb_refl. destruct (Z.geb_spec b b); split; try reflexivity; lia. }
  clear HR. destruct s as [d t b f]. cbn [st_data st_top st_bot st_full] in *. subst f. destruct (Z.geb_spec (t + 1) cap) as [G|G].
  - assert (b = 0) by lia. subst b. exists [[]; []; []; []; []; []; [SEmpty; SSize; SBack]], s'. split; [reflexivity|]. split; [|exact Z'].
    cbn [stk_main]. unfold push_prog, ld_top, sto_el, sto_top, ld_full, ld_bot, sto_full. cbn [iexec hd tl run bind st_top st_bot st_full st_data]. rewrite wr_ok by lia. cbn [bind iexec hd tl run st_top st_bot st_full st_data].
    destruct (Z.geb_spec (t + 1) cap); [|lia]. cbn in E. subst s'. reflexivity.
  - assert (b = t + 1) by lia. subst b. rewrite Z.eqb_refl in E. subst s'. eexists [[]; []; []; []; [SEmpty; SSize; SBack]], _. split; [reflexivity|]. split; [|exact Z'].
    cbn [stk_main]. unfold push_prog, ld_top, sto_el, sto_top, ld_full, ld_bot, sto_full. cbn [iexec hd tl run bind st_top st_bot st_full st_data]. rewrite wr_ok by lia. cbn [bind iexec hd tl run st_top st_bot st_full st_data st_step].
    unfold st_back. rewrite !(proj1 (HV _ _)), (proj2 (HV _ _)). cbn [bind Z.eqb]. destruct (Z.geb_spec (t + 1) cap); [lia|]. cbn [bind iexec hd tl run st_top st_bot st_full st_data app]. cbn. replace (t + 1 >=? cap) with false by lia. cbn. rewrite Z.eqb_refl. reflexivity.
Qed.
Lemma reach data ops s rs : zlen data = cap -> run step (st_init data) ops = Ok (s, rs) -> srel s (fst (srun stack [] ops)).
Proof using Hcap dflt.
  intros Hd E. destruct (run_refines step stack (@SRel T cap)) with (ops := ops) (s := st_init data : cstk T) (q := @nil T) as (s' & E' & HR); [intros; apply sstep_refines; assumption|apply srel_init; assumption|]. congruence.
Qed.
Lemma reached_looks_empty data ops s rs x : zlen data = cap -> run step (st_init data) ops = Ok (s, rs) -> st_size cap s = cap - 1 ->
  exists gaps s', concat gaps = [SEmpty; SSize; SBack] /\ iexec step (stk_main cap dflt (SPush x)) s gaps = Ok (s', OUnit, [OBool true; ONum 0; OOpt None]) /\ step s' SSize = Ok (s', ONum cap).
Proof using Hcap dflt. intros Hd E L. pose proof (reach _ _ _ _ Hd E) as HR. eapply filled_looks_empty; [exact HR|]. rewrite <- (ssize_ok cap Hcap _ _ HR). exact L. Qed.

(* the size test changes nothing *)
Lemma size_gaps k s gaps : exists n, iexec step (size_prog cap k) s (repeat [] n ++ gaps) = iexec step (k (st_size cap s)) s gaps.
Proof using.
  assert (B : forall (m : outcome (cstk T * rout T * list (rout T))), (let* (a, q) := m in Ok (a, q)) = m) by (intros [[a q]|k0|]; reflexivity).
  destruct s as [d t b f]. unfold st_size. cbn [st_full st_top st_bot]. destruct f.
  - exists 1%nat. cbn. apply B.
  - exists 5%nat. unfold size_prog, ld_full, ld_top, ld_bot. cbn [repeat app iexec hd tl run bind st_full st_top st_bot]. destruct (t >=? b); cbn [repeat app iexec hd tl run bind st_full st_top st_bot]; rewrite !B; reflexivity.
Qed.
Definition shifts_top (s : cstk T) (o : sop T) : Prop :=
  match o with SPush _ => st_top s = cap - 1 | SPop | SPopOrZero => st_top s = 1 | SClear => True | _ => False end.
Lemma handler_changes s m o : zlen (st_data s) = cap -> 0 < st_top s < cap -> 0 <= st_bot s < cap -> st_size cap s <> 0 -> (m = SPop \/ m = SPopOrZero \/ m = SBack) -> shifts_top s o ->
  exists gaps, concat gaps = [o] /\ iexec step (stk_main cap dflt m) s gaps = UB OutOfBounds.
Proof using Hcap.
  intros Hd Ht Hb Hn Hm Ho. assert (ES : exists s1 r, step s o = Ok (s1, r) /\ st_top s1 = 0 /\ zlen (st_data s1) = cap).
  { destruct o; cbn in Ho; try contradiction; cbn [st_step].
    - unfold st_push. rewrite wr_ok by lia. cbn [bind]. eexists _, _. split; [reflexivity|]. cbn [st_top st_data]. replace (st_top s + 1 >=? cap) with true by lia. rewrite zlen_zupd. auto.
    - unfold st_pop. replace (st_size cap s =? 0) with false by lia. replace (st_top s =? 0) with false by lia. destruct (znth_some (st_data s) (st_top s - 1) ltac:(lia)) as (v & Ev). rewrite (rd_ok _ _ _ Ev). cbn [bind]. eexists _, _. split; [reflexivity|]. cbn [st_top st_data]. split; [lia|exact Hd].
    - unfold st_pop_or_zero. replace (st_size cap s =? 0) with false by lia. replace (st_top s =? 0) with false by lia. destruct (znth_some (st_data s) (st_top s - 1) ltac:(lia)) as (v & Ev). rewrite (rd_ok _ _ _ Ev). cbn [bind]. eexists _, _. split; [reflexivity|]. cbn [st_top st_data]. split; [lia|exact Hd].
    - eexists _, _. split; [reflexivity|]. cbn. auto. }
  destruct ES as (s1 & r & ES & E0 & Ed). destruct s1 as [d1 t1 b1 f1]. cbn [st_top st_data] in E0, Ed. subst t1.
  assert (O1 : rd d1 (-1) = UB OutOfBounds) by (apply rd_oob; lia).
  assert (C : forall n, concat (repeat [] n ++ [[]; [o]]) = [o]) by (intros n; induction n as [|n IH]; [reflexivity|exact IH]).
  assert (HP : forall none some, exists gaps, concat gaps = [o] /\ iexec step (pop_prog cap none some) s gaps = UB OutOfBounds).
  { intros none some. unfold pop_prog. edestruct size_gaps as (n & E). exists (repeat [] n ++ [[]; [o]]). split; [apply C|]. rewrite E. replace (st_size cap s =? 0) with false by lia.
    unfold ld_top, sto_top, sto_full, ld_el. cbn [iexec hd tl run bind st_top]. replace (st_top s =? 0) with false by lia. cbn [iexec hd tl run bind st_top]. rewrite ES. cbn [iexec hd tl run bind st_top st_data st_bot st_full]. change (0 - 1) with (-1). rewrite O1. reflexivity. }
  destruct Hm as [Hm|Hm]; [subst m; apply HP|]. destruct Hm as [Hm|Hm]; subst m; [apply HP|]. cbn [stk_main]. edestruct size_gaps as (n & E). exists (repeat [] n ++ [[]; [o]]). split; [apply C|]. rewrite E. replace (st_size cap s =? 0) with false by lia.
  unfold ld_top, ld_el. cbn [iexec hd tl run bind st_top]. replace (st_top s =? 0) with false by lia. cbn [iexec hd tl run bind st_top]. rewrite ES. cbn [iexec hd tl run bind st_top st_data st_bot st_full]. change (0 - 1) with (-1). rewrite O1. reflexivity.
Qed.
Lemma pop_twice data ops s rs : zlen data = cap -> 2 <= cap -> run step (st_init data) ops = Ok (s, rs) -> st_size cap s = 1 ->
  exists gaps s' x y, concat gaps = [SPop] /\ iexec step (stk_main cap dflt SPop) s gaps = Ok (s', OOpt (Some y), [OOpt (Some x)]) /\ step s' SSize = Ok (s', ONum (cap - 1)).
Proof using Hcap dflt.
  intros Hd H2 E L. pose proof (reach _ _ _ _ Hd E) as HR. set (q := fst (srun stack [] ops)) in *. clearbody q. pose proof (ssize_ok cap Hcap _ _ HR) as Eq. rewrite L in Eq.
  destruct q as [|x q]; [discriminate Eq|]; destruct q as [|x2 q]; [|rewrite !zlen_cons in Eq; pose proof (zlen_nonneg q); lia].
  destruct (sstep_refines cap dflt Hcap s [x] SPop HR) as (s1 & E1 & HR1). cbn [stack_step fst snd] in E1, HR1. pose proof HR1 as (D1 & T1 & B1 & _ & _ & F1 & _). destruct (size_cases s1 _ HR1) as [(_ & HH & _)|(F & _ & HC)]; [change (zlen (@nil T)) with 0 in HH; lia|].
  change (zlen (@nil T)) with 0 in HC. assert (EB : st_top s1 = st_bot s1) by lia. destruct s1 as [d1 t1 b1 f1]. cbn [st_top st_data st_bot st_full] in *. subst t1 f1.
  pose proof (below_range b1 ltac:(lia)) as RB. destruct (znth_some d1 (below b1) ltac:(lia)) as (y & Ey).
  assert (C : forall n, concat (repeat [] n ++ [[@SPop T]]) = [SPop]) by (intros n; induction n as [|n IH]; [reflexivity|exact IH]).
  cbn [stk_main]. unfold pop_prog. edestruct size_gaps as (n & En). exists (repeat [] n ++ [[SPop]]), (CStk d1 (below b1) b1 false), x, y. split; [apply C|]. rewrite En, L. change (1 =? 0) with false. cbv iota.
  split.
  - unfold ld_top, sto_top, sto_full, ld_el. cbn [iexec hd tl run bind]. rewrite E1. cbn [iexec hd tl run bind st_top]. unfold below in Ey |- *. destruct (b1 =? 0); cbn [iexec hd tl run bind st_top st_data st_bot st_full]; rewrite (rd_ok _ _ _ Ey); reflexivity.
  - cbn [st_step]. do 3 f_equal. unfold st_size. cbn [st_top st_bot st_full]. unfold below. destruct (Z.eqb_spec b1 0); [destruct (Z.geb_spec (cap - 1) b1)|destruct (Z.geb_spec (b1 - 1) b1)]; lia.
Qed.
Lemma clear_empty data ops s rs : zlen data = cap -> run step (st_init data) ops = Ok (s, rs) -> st_size cap s = 0 -> st_bot s <> 0 ->
  exists gaps s' y, concat gaps = [SEmpty; SSize; SBack] /\ iexec step (stk_main cap dflt SClear) s gaps = Ok (s', OUnit, [OBool false; ONum (cap - st_bot s); OOpt (Some y)]).
Proof using Hcap dflt.
  intros Hd E L Hb0. pose proof (reach _ _ _ _ Hd E) as HR. pose proof HR as (D1 & T1 & B1 & _). pose proof (ssize_ok cap Hcap _ _ HR) as Eq. rewrite L in Eq.
  destruct (size_cases s _ HR) as [(_ & HH & _)|(F & _ & HC)]; [lia|]. destruct s as [d t b f]. cbn [st_top st_data st_bot st_full] in *. subst f. destruct (znth_some d (cap - 1) ltac:(lia)) as (y & Ey).
  assert (SZ : st_size cap (CStk d 0 b false : cstk T) = cap - b) by (unfold st_size; cbn [st_top st_bot st_full]; destruct (Z.geb_spec 0 b); lia).
  exists [[]; [SEmpty; SSize; SBack]], (CStk d 0 0 false), y. split; [reflexivity|]. cbn [stk_main]. unfold sto_top, sto_bot, sto_full. cbn [iexec hd tl run bind st_top st_data st_bot st_full st_step]. unfold st_back. rewrite SZ. replace (cap - b =? 0) with false by lia.
  cbn [st_top st_data Z.eqb]. rewrite (rd_ok _ _ _ Ey). unfold st_empty. cbn [st_top st_bot st_full bind]. replace (0 =? b) with false by lia. reflexivity.
Qed.
Lemma push_twice s x y z : zlen (st_data s) = cap -> 0 <= st_bot s <= st_top s -> st_top s + 2 < cap -> st_full s = false -> znth (st_data s) (st_top s + 1) = Some z ->
  exists gaps s' s'', concat gaps = [SPush y] /\ iexec step (stk_main cap dflt (SPush x)) s gaps = Ok (s', OUnit, [OUnit]) /\ run step s' [SPop; SPop] = Ok (s'', [OOpt (Some z); OOpt (Some y)]) /\ step s'' SSize = Ok (s'', ONum (st_size cap s)).
Proof using Hcap.
  intros Hd Hb Ht Hf Hz. destruct s as [d t b f]. cbn [st_top st_data st_bot st_full] in *. subst f. set (d2 := zupd (zupd d t x) t y).
  assert (Y : znth d2 t = Some y) by (apply znth_zupd_eq; rewrite zlen_zupd; lia). assert (Z2 : znth d2 (t + 1) = Some z) by (unfold d2; rewrite !znth_zupd_ne by lia; exact Hz).
  assert (SZ : forall d t, b <= t -> st_size cap (CStk d t b false : cstk T) = t - b) by (intros d0 t0 H; unfold st_size; cbn [st_top st_bot st_full]; destruct (Z.geb_spec t0 b); lia).
  exists [[]; []; [SPush y]], (CStk d2 (t + 1 + 1) b false), (CStk d2 t b false). split; [reflexivity|]. split; [|split].
  - cbn [stk_main]. unfold push_prog, ld_top, ld_bot, ld_full, sto_top, sto_bot, sto_full, sto_el. cbn [iexec hd tl run bind st_top st_data st_bot st_full]. rewrite wr_ok by lia. cbn [iexec hd tl run bind st_top st_data st_bot st_full st_step]. unfold st_push. cbn [st_top st_data st_bot st_full].
    rewrite wr_ok by (rewrite zlen_zupd; lia). fold d2. cbn [bind]. replace (t + 1 >=? cap) with false by lia. replace (t + 1 =? b) with false by lia. cbn. replace (t + 1 + 1 >=? cap) with false by lia. cbn. replace (t + 1 + 1 =? b) with false by lia. reflexivity.
  - cbn [run st_step]. unfold st_pop at 1. rewrite SZ by lia. replace (t + 1 + 1 - b =? 0) with false by lia. cbn [st_top st_data st_bot]. replace (t + 1 + 1 =? 0) with false by lia. replace (t + 1 + 1 - 1) with (t + 1) by lia. rewrite (rd_ok _ _ _ Z2). cbn [bind].
    unfold st_pop. rewrite SZ by lia. replace (t + 1 - b =? 0) with false by lia. cbn [st_top st_data st_bot]. replace (t + 1 =? 0) with false by lia. replace (t + 1 - 1) with t by lia. rewrite (rd_ok _ _ _ Y). reflexivity.
  - cbn [st_step]. rewrite !SZ by lia. reflexivity.
Qed.
End SI.

Lemma uninterrupted_stack {T} cap (dflt : T) (s : cstk T) o : irun (st_step cap dflt) (stk_main cap dflt) s [Call o []] =
  match st_step cap dflt s o with Ok (s', r) => Ok (s', [r], []) | UB k => UB k | OutOfFuel => OutOfFuel end.
Proof.
  destruct s as [d t b f], o; cbn -[rd wr Z.eqb Z.geb Z.add Z.sub]; unfold st_push, st_pop, st_pop_or_zero, st_back, st_size, st_empty; cbn -[rd wr Z.eqb Z.geb Z.add Z.sub];
    try reflexivity.
  all: try destruct (wr d t x); try destruct f; cbn -[rd wr Z.eqb Z.geb Z.add Z.sub]; try reflexivity.
  all: repeat match goal with |- context[if ?b then _ else _] => destruct b eqn:?; cbn -[rd wr Z.eqb Z.geb Z.add Z.sub] end; try reflexivity.
  all: repeat match goal with |- context[rd ?a ?b] => destruct (rd a b) end; try reflexivity.
Qed.
