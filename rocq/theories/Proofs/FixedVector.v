From Verif.Common Require Import Base Lemmas Lists.
From Verif.Spec Require Import VectorSpec.
From Verif.Model Require Import FixedVector.

Section Moves.
Context {T : Type}.

Lemma fill_from_ok (x : T) k : forall i d, 0 <= i -> i + Z.of_nat k <= zlen d ->
  exists d', fill_from k i d x = Ok d' /\ zlen d' = zlen d /\
    forall j, znth d' j = if (i <=? j) && (j <? i + Z.of_nat k) then Some x else znth d j.
Proof.
  induction k as [|k IH]; intros i d Hi Hk; cbn [fill_from].
  - exists d; splits; try reflexivity. intros j. replace ((i <=? j) && (j <? i + Z.of_nat 0)) with false by lia. reflexivity.
  - rewrite wr_ok by lia. cbn [bind]. destruct (IH (i + 1) (zupd d i x)) as (d' & E & Hl & Hc); [lia|rewrite zlen_zupd; lia|].
    rewrite zlen_zupd in Hl. exists d'; splits; [assumption|assumption|].
    intros j. rewrite Hc, znth_zupd.
    destruct (Z.eqb_spec i j) as [<-|]; cbn [andb].
    + replace ((i + 1 <=? i) && (i <? i + 1 + Z.of_nat k)) with false by lia.
      replace ((0 <=? i) && (i <? zlen d)) with true by lia.
      replace ((i <=? i) && (i <? i + Z.of_nat (S k))) with true by lia. reflexivity.
    + replace ((i + 1 <=? j) && (j <? i + 1 + Z.of_nat k)) with ((i <=? j) && (j <? i + Z.of_nat (S k))) by lia. reflexivity.
Qed.

Lemma move_forward_ok k : forall (d : list T) first dst,
  0 <= dst <= first -> first + Z.of_nat k <= zlen d ->
  exists d', move_forward k d first dst = Ok d' /\ zlen d' = zlen d /\
    forall j, znth d' j = if (dst <=? j) && (j <? dst + Z.of_nat k) then znth d (first + (j - dst)) else znth d j.
Proof.
  induction k as [|k IH]; intros d first dst Hd Hk; cbn [move_forward].
  - exists d; splits; try reflexivity. intros j. replace ((dst <=? j) && (j <? dst + Z.of_nat 0)) with false by lia. reflexivity.
  - destruct (znth_some d first) as [x Hx]; [lia|]. rewrite (rd_ok _ _ _ Hx). cbn [bind].
    rewrite wr_ok by lia. cbn [bind].
    destruct (IH (zupd d dst x) (first + 1) (dst + 1)) as (d' & E & Hl & Hc); [lia|rewrite zlen_zupd; lia|].
    rewrite zlen_zupd in Hl. exists d'; splits; [assumption|assumption|].
    intros j. rewrite Hc, !znth_zupd.
    destruct (Z.eqb_spec dst j) as [<-|]; cbn [andb].
    + replace ((dst + 1 <=? dst) && (dst <? dst + 1 + Z.of_nat k)) with false by lia.
      replace ((dst <=? dst) && (dst <? dst + Z.of_nat (S k))) with true by lia.
      replace ((0 <=? dst) && (dst <? zlen d)) with true by lia. cbn [andb]. rewrite <- Hx. f_equal; lia.
    + replace ((dst + 1 <=? j) && (j <? dst + 1 + Z.of_nat k)) with ((dst <=? j) && (j <? dst + Z.of_nat (S k))) by lia.
      cbn [andb]. destruct ((dst <=? j) && (j <? dst + Z.of_nat (S k))) eqn:Ej; [|reflexivity].
      replace (dst =? first + 1 + (j - (dst + 1))) with false by lia. cbn [andb]. f_equal; lia.
Qed.

Lemma move_backward_ok k : forall (d : list T) last dlast,
  last <= dlast -> 0 <= last - Z.of_nat k -> dlast <= zlen d ->
  exists d', move_backward k d last dlast = Ok d' /\ zlen d' = zlen d /\
    forall j, znth d' j = if (dlast - Z.of_nat k <=? j) && (j <? dlast) then znth d (last - (dlast - j)) else znth d j.
Proof.
  induction k as [|k IH]; intros d last dlast Hd Hk Hz; cbn [move_backward].
  - exists d; splits; try reflexivity. intros j. replace ((dlast - Z.of_nat 0 <=? j) && (j <? dlast)) with false by lia. reflexivity.
  - destruct (znth_some d (last - 1)) as [x Hx]; [lia|]. rewrite (rd_ok _ _ _ Hx). cbn [bind].
    rewrite wr_ok by lia. cbn [bind].
    destruct (IH (zupd d (dlast - 1) x) (last - 1) (dlast - 1)) as (d' & E & Hl & Hc); [lia|lia|rewrite zlen_zupd; lia|].
    rewrite zlen_zupd in Hl. exists d'; splits; [assumption|assumption|].
    intros j. rewrite Hc, !znth_zupd.
    destruct (Z.eqb_spec (dlast - 1) j) as [<-|]; cbn [andb].
    + replace ((dlast - 1 - Z.of_nat k <=? dlast - 1) && (dlast - 1 <? dlast - 1)) with false by lia.
      replace ((dlast - Z.of_nat (S k) <=? dlast - 1) && (dlast - 1 <? dlast)) with true by lia.
      replace ((0 <=? dlast - 1) && (dlast - 1 <? zlen d)) with true by lia. cbn [andb]. rewrite <- Hx. f_equal; lia.
    + replace ((dlast - 1 - Z.of_nat k <=? j) && (j <? dlast - 1)) with ((dlast - Z.of_nat (S k) <=? j) && (j <? dlast)) by lia.
      cbn [andb]. destruct ((dlast - Z.of_nat (S k) <=? j) && (j <? dlast)) eqn:Ej; [|reflexivity].
      replace (dlast - 1 =? last - 1 - (dlast - 1 - j)) with false by lia. cbn [andb]. f_equal; lia.
Qed.
End Moves.

Section FV.
Context {T : Type}.
Variables (N : Z) (dflt : T).

Definition VRel (s : fvec T) (l : list T) : Prop :=
  zlen (v_data s) = N /\ 0 <= v_n s <= N /\ l = firstn (Z.to_nat (v_n s)) (v_data s).

Lemma vrel_len s l : VRel s l -> zlen l = v_n s.
Proof. intros (H1 & H2 & ->). apply zlen_firstn; lia. Qed.

Lemma vrel_nth s l i : VRel s l -> znth l i = if i <? v_n s then znth (v_data s) i else None.
Proof. intros (H1 & H2 & ->). apply znth_firstn_if. Qed.

Lemma vrel_intro d n l : zlen d = N -> 0 <= n <= N ->
  (forall i, 0 <= i -> znth l i = if i <? n then znth d i else None) -> VRel (FVec d n) l.
Proof.
  intros H1 H2 H3. unfold VRel; cbn [v_data v_n]. splits; try lia.
  apply znth_opt_ext. intros i Hi. rewrite H3, znth_firstn_if by lia. reflexivity.
Qed.

Ltac vr := apply vrel_intro; [rewrite ?zlen_zupd; lia|lia|].

Lemma fv_refines strict s l o : strict = false -> VRel s l -> vop_ok N o ->
  exists s' r l', fv_step strict N dflt s o = Ok (s', r) /\ vec_spec dflt N l o r l' /\ VRel s' l'.
Proof.
  intros Hst HR HO. pose proof (vrel_len _ _ HR) as HL. pose proof (fun i => vrel_nth s l i HR) as HN.
  pose proof HR as (Hd & Hn & Hl).
  destruct o as [x| | | |i x|i|f e|n x|n| | | | | |i|i x]; cbn [fv_step vec_spec vop_ok] in *.
  - unfold fv_push. rewrite HL. destruct (Z.geb_spec (v_n s) N).
    + do 3 eexists; splits; [reflexivity| |exact HR]. replace (v_n s <? N) with false by lia. auto.
    + rewrite wr_ok by lia. cbn [bind]. exists (FVec (zupd (v_data s) (v_n s) x) (v_n s + 1)), (VBool true), (l ++ [x]).
      splits; [reflexivity|replace (v_n s <? N) with true by lia; auto|].
      vr. intros i Hi. znorm. rewrite HN, HL. rewrite znth_zupd.
      repeat (zcase1; try (exfalso; lia)); try reflexivity.
  - unfold fv_push_ow. rewrite HL. destruct (Z.geb_spec (v_n s) N).
    + do 3 eexists; splits; [reflexivity| |exact HR]. replace (v_n s <? N) with false by lia. auto.
    + destruct (znth_some (v_data s) (v_n s)) as [j Hj]; [lia|].
      exists (FVec (v_data s) (v_n s + 1)), (VNum (v_n s)), (l ++ [j]).
      splits; [reflexivity|replace (v_n s <? N) with true by lia; eauto|].
      vr. intros i Hi. znorm. rewrite HN, HL.
      repeat (zcase1; try (exfalso; lia)); try reflexivity. rewrite <- Hj. f_equal; lia.
  - unfold fv_pop. destruct (Z.eqb_spec (v_n s) 0) as [E0|E0].
    + exists s, (VItem dflt), []. assert (El : l = []) by (apply zlen_zero_nil; lia).
      splits; [reflexivity|left; auto|rewrite <- El; exact HR].
    + destruct (znth_some (v_data s) (v_n s - 1)) as [x Hx]; [lia|]. rewrite (rd_ok _ _ _ Hx). cbn [bind].
      exists (FVec (v_data s) (v_n s - 1)), (VItem x), (firstn (Z.to_nat (v_n s - 1)) (v_data s)).
      splits; [reflexivity| |unfold VRel; cbn [v_data v_n]; splits; try lia; reflexivity].
      right. exists x. split; [|reflexivity]. apply znth_opt_ext. intros i Hi. rewrite HN. znorm.
      repeat (zcase1; try (exfalso; lia)); try reflexivity. rewrite <- Hx. f_equal; lia.
  - unfold fv_back. destruct (Z.gtb_spec (v_n s) 0).
    + destruct (znth_some (v_data s) (v_n s - 1)) as [x Hx]; [lia|]. rewrite (rd_ok _ _ _ Hx). cbn [bind].
      exists s, (VItem x), l. splits; [reflexivity|reflexivity| |assumption].
      right. exists (firstn (Z.to_nat (v_n s - 1)) (v_data s)), x. split; [|reflexivity].
      apply znth_opt_ext. intros i Hi. rewrite HN. znorm.
      repeat (zcase1; try (exfalso; lia)); try reflexivity. rewrite <- Hx. f_equal; lia.
    + exists s, (VItem dflt), l. splits; [reflexivity|reflexivity|left; split; [apply zlen_zero_nil; lia|reflexivity]|assumption].
  - unfold fv_insert, addr. subst strict. cbn [andb]. rewrite HL.
    destruct ((v_n s >=? N) || (i >? v_n s)) eqn:Ec.
    { replace ((v_n s <? N) && (i <=? v_n s)) with false by lia. do 3 eexists; splits; [reflexivity|reflexivity|reflexivity|assumption]. }
    replace ((v_n s <? N) && (i <=? v_n s)) with true by lia. unfold take, drop.
    destruct (Z.eqb_spec i (v_n s)) as [->|].
    + unfold fv_push. replace (v_n s >=? N) with false by lia. rewrite wr_ok by lia. cbn [bind].
      do 3 eexists; splits; [reflexivity|reflexivity|reflexivity|].
      vr. intros i Hi. znorm. rewrite !HN, HL. rewrite znth_zupd.
      repeat (zcase1; try (exfalso; lia)); try reflexivity.
    + cbn [bind]. destruct (move_backward_ok (Z.to_nat (v_n s - i)) (v_data s) (v_n s) (v_n s + 1)) as (d & E & Hdl & Hc); try lia.
      rewrite E; cbn [bind]. rewrite wr_ok by lia. cbn [bind].
      do 3 eexists; splits; [reflexivity|reflexivity|reflexivity|].
      vr. intros j Hj. znorm. rewrite !HN, HL. rewrite znth_zupd, Hc.
      repeat (zcase1; try (exfalso; lia)); try reflexivity. f_equal; lia.
  - unfold fv_erase, addr. subst strict. cbn [andb]. rewrite HL.
    destruct ((v_n s =? 0) || (i >=? v_n s)) eqn:Ec.
    { replace (i <? v_n s) with false by lia. do 3 eexists; splits; [reflexivity|reflexivity|reflexivity|assumption]. }
    replace (i <? v_n s) with true by lia. unfold take, drop.
    destruct (Z.eqb_spec i (v_n s - 1)) as [->|].
    + do 3 eexists; splits; [reflexivity|reflexivity|reflexivity|].
      vr. intros i Hi. znorm. rewrite !HN, HL.
      repeat (zcase1; try (exfalso; lia)); try reflexivity.
    + cbn [bind]. destruct (move_forward_ok (Z.to_nat (v_n s - (i + 1))) (v_data s) (i + 1) i) as (d & E & Hdl & Hc); try lia.
      rewrite E; cbn [bind].
      do 3 eexists; splits; [reflexivity|reflexivity|reflexivity|].
      vr. intros j Hj. znorm. rewrite !HN, HL. rewrite Hc.
      repeat (zcase1; try (exfalso; lia)); try reflexivity. f_equal; lia.
  - rewrite HL. destruct HO as [Hf He]. destruct ((f <=? v_n s) && (e <=? v_n s)) eqn:Eg.
    2:{ replace ((f <? e) && (e <=? v_n s)) with false by lia. do 3 eexists; splits; [reflexivity|reflexivity|reflexivity|assumption]. }
    unfold fv_erase_range. destruct ((v_n s =? 0) || (e - f <=? 0)) eqn:Ec.
    { replace ((f <? e) && (e <=? v_n s)) with false by lia. do 3 eexists; splits; [reflexivity|reflexivity|reflexivity|assumption]. }
    replace ((f <? e) && (e <=? v_n s)) with true by lia. unfold take, drop.
    destruct (move_forward_ok (Z.to_nat (v_n s - e)) (v_data s) e f) as (d & E & Hdl & Hc); try lia.
    rewrite E; cbn [bind].
    do 3 eexists; splits; [reflexivity|reflexivity|reflexivity|].
    vr. intros j Hj. znorm. rewrite !HN, HL. rewrite Hc.
    repeat (zcase1; try (exfalso; lia)); try reflexivity. f_equal; lia.
  - unfold fv_resize. rewrite HL. unfold take. destruct (Z.gtb_spec (Z.min n N) (v_n s)).
    + destruct (fill_from_ok x (Z.to_nat (Z.min n N - v_n s)) (v_n s) (v_data s)) as (d & E & Hdl & Hc); try lia.
      rewrite E; cbn [bind].
      do 3 eexists; splits; [reflexivity|f_equal; lia|reflexivity|].
      vr. intros j Hj. znorm. rewrite !HN, HL. rewrite Hc.
      repeat (zcase1; try (exfalso; lia)); try reflexivity.
    + cbn [bind]. do 3 eexists; splits; [reflexivity|f_equal; lia|reflexivity|].
      vr. intros j Hj. znorm. rewrite !HN, HL.
      repeat (zcase1; try (exfalso; lia)); try reflexivity.
  - unfold fv_resize_ow. rewrite HL. unfold take.
    pose (junk := firstn (Z.to_nat (Z.min n N - v_n s)) (skipn (Z.to_nat (v_n s)) (v_data s))).
    do 3 eexists; splits; [reflexivity|f_equal; lia| |].
    + exists junk. split; [reflexivity|]. unfold junk.
      destruct (Z_le_dec (Z.min n N) (v_n s)).
      * replace (Z.to_nat (Z.min n N - v_n s)) with 0%nat by lia. cbn [firstn]. rewrite zlen_nil. lia.
      * rewrite zlen_firstn_min by lia. rewrite zlen_skipn_max by lia. lia.
    + vr. unfold junk. intros j Hj. znorm. rewrite !HN, HL.
      repeat (zcase1; try (exfalso; lia)); try reflexivity. f_equal; lia.
  - do 3 eexists; splits; [reflexivity|rewrite HL; reflexivity|reflexivity|assumption].
  - do 3 eexists; splits; [reflexivity|reflexivity|reflexivity|assumption].
  - do 3 eexists; splits; [reflexivity|rewrite HL; reflexivity|reflexivity|assumption].
  - do 3 eexists; splits; [reflexivity|reflexivity|reflexivity|]. unfold fv_clear. vr.
    intros i Hi. rewrite znth_nil. replace (i <? 0) with false by lia. reflexivity.
  - do 3 eexists; splits; [reflexivity| |reflexivity|assumption]. unfold fv_contents. rewrite Hl. reflexivity.
  - unfold fv_at. destruct (znth_some (v_data s) i) as [x Hx]; [lia|]. rewrite (rd_ok _ _ _ Hx). cbn [bind].
    do 3 eexists; splits; [reflexivity|reflexivity| |exact HR]. exists x. split; [reflexivity|].
    intros Hi. rewrite HN. replace (i <? v_n s) with true by lia. assumption.
  - unfold fv_set. rewrite wr_ok by lia. cbn [bind].
    do 3 eexists; splits; [reflexivity|reflexivity|reflexivity|].
    vr. intros j Hj. rewrite !znth_zupd, HN, HL. rewrite Hd.
    destruct (Z.eqb_spec i j) as [<-|]; cbn [andb].
    + repeat (zcase1; try (exfalso; lia)); try reflexivity.
    + reflexivity.
Qed.

Lemma vrel_init ts : zlen ts <= N -> VRel (fv_init N dflt ts) ts.
Proof.
  intros H. pose proof (zlen_nonneg ts). unfold fv_init.
  apply vrel_intro.
  - rewrite zlen_app, zlen_zrepeat by lia. lia.
  - lia.
  - intros i Hi. znorm. destruct (Z.ltb_spec i (zlen ts)); [reflexivity|apply znth_none; lia].
Qed.

Lemma fv_run ts ops : zlen ts <= N -> Forall (vop_ok N) ops ->
  exists s' outs l', run (fv_step false N dflt) (fv_init N dflt ts) ops = Ok (s', outs) /\
    rel_run (vec_spec dflt N) ts ops outs l' /\ fv_contents s' = l' /\ zlen l' <= N.
Proof.
  intros Hts HF.
  destruct (run_refines_rel (fv_step false N dflt) (vec_spec dflt N) (fun _ o => vop_ok N o) VRel) with (ops := ops) (s := fv_init N dflt ts) (q := ts)
    as (s' & rs & l' & E & HS & HR).
  - intros s q o HR HO. apply fv_refines; auto.
  - apply vrel_init; assumption.
  - intros o Ho q. rewrite Forall_forall in HF. auto.
  - exists s', rs, l'. pose proof (vrel_len _ _ HR). splits; try assumption.
    + destruct HR as (_ & _ & ->). reflexivity.
    + destruct HR as (_ & H1 & _). lia.
Qed.

(** With the strict reading of operator[], exactly these calls are undefined. *)
Lemma erase_strict (s : fvec T) i : v_n s = N -> 0 <= i -> i + 1 < N ->
  fv_erase true N s i = UB OutOfBounds.
Proof using. clear dflt.
  intros E Hi Hi2. unfold fv_erase.
  replace ((v_n s =? 0) || (i >=? v_n s)) with false by lia. replace (i =? v_n s - 1) with false by lia.
  unfold addr. cbn [andb]. replace (N <=? i + 1) with false by lia. cbn [bind].
  replace (N <=? v_n s) with true by lia. reflexivity.
Qed.
Lemma insert_strict (s : fvec T) i x : v_n s = N - 1 -> 0 <= i -> i < N - 1 ->
  fv_insert true N s i x = UB OutOfBounds.
Proof using. clear dflt.
  intros E Hi Hi2. unfold fv_insert.
  replace ((v_n s >=? N) || (i >? v_n s)) with false by lia. replace (i =? v_n s) with false by lia.
  unfold addr. cbn [andb]. replace (N <=? i) with false by lia. replace (N <=? v_n s) with false by lia. cbn [bind].
  replace (N <=? v_n s + 1) with true by lia. reflexivity.
Qed.
End FV.
