From Verif.Common Require Import Base Lemmas Lists.
From Verif.Spec Require Import VectorSpec PoolSpec Queue RingSpec RetainSpec.
From Verif.Model Require Import FixedVector VectorMove Pool Circular Fifo.
From Verif.Proofs Require FixedVector Circular Fifo.

Section Moves.
Context {T : Type}.
Variable moved : T -> T.

Lemma move_one_ok (d : list T) src dst : src <> dst -> 0 <= src < zlen d -> 0 <= dst < zlen d ->
  exists d', move_one moved d src dst = Ok d' /\ zlen d' = zlen d /\
    forall j, znth d' j = if j =? dst then znth d src else if j =? src then option_map moved (znth d j) else znth d j.
Proof.
  intros Hn Hs Hd. unfold move_one. destruct (znth_some d src) as [x Hx]; [lia|]. rewrite (rd_ok _ _ _ Hx). cbn [bind].
  rewrite wr_ok by lia. cbn [bind]. rewrite wr_ok by (rewrite zlen_zupd; lia).
  eexists; splits; [reflexivity|rewrite !zlen_zupd; reflexivity|].
  intros j. rewrite !znth_zupd, zlen_zupd.
  destruct (Z.eqb_spec src j) as [<-|]; cbn [andb].
  - replace (src =? dst) with false by lia. rewrite Z.eqb_refl, Hx.
    replace ((0 <=? src) && (src <? zlen d)) with true by lia. reflexivity.
  - replace (j =? src) with false by lia. rewrite (Z.eqb_sym j dst). destruct (Z.eqb_spec dst j) as [<-|]; cbn [andb]; [|reflexivity].
    replace ((0 <=? dst) && (dst <? zlen d)) with true by lia. symmetry; assumption.
Qed.

Lemma mmove_forward_ok k : forall (d : list T) first dst,
  0 <= dst < first -> first + Z.of_nat k <= zlen d ->
  exists d', mmove_forward moved k d first dst = Ok d' /\ zlen d' = zlen d /\
    forall j, znth d' j = if (dst <=? j) && (j <? dst + Z.of_nat k) then znth d (first + (j - dst))
                          else if (first <=? j) && (j <? first + Z.of_nat k) then option_map moved (znth d j)
                          else znth d j.
Proof.
  induction k as [|k IH]; intros d first dst Hd Hk; cbn [mmove_forward].
  - exists d; splits; try reflexivity. intros j. replace ((dst <=? j) && (j <? dst + Z.of_nat 0)) with false by lia.
    replace ((first <=? j) && (j <? first + Z.of_nat 0)) with false by lia. reflexivity.
  - destruct (move_one_ok d first dst) as (d1 & E1 & Hl1 & Hc1); [lia|lia|lia|]. rewrite E1; cbn [bind].
    destruct (IH d1 (first + 1) (dst + 1)) as (d' & E & Hl & Hc); [lia|lia|].
    exists d'; splits; [assumption|lia|]. intros j. rewrite Hc, !Hc1.
    repeat (zcase1; try (exfalso; lia)); try reflexivity; try (f_equal; lia).
    all: cbn [andb] in *; repeat (zcase1; try (exfalso; lia)); try reflexivity; try (f_equal; lia).
Qed.

Lemma mmove_backward_ok k : forall (d : list T) last dlast,
  last < dlast -> 0 <= last - Z.of_nat k -> dlast <= zlen d ->
  exists d', mmove_backward moved k d last dlast = Ok d' /\ zlen d' = zlen d /\
    forall j, znth d' j = if (dlast - Z.of_nat k <=? j) && (j <? dlast) then znth d (last - (dlast - j))
                          else if (last - Z.of_nat k <=? j) && (j <? last) then option_map moved (znth d j)
                          else znth d j.
Proof.
  induction k as [|k IH]; intros d last dlast Hd Hk Hz; cbn [mmove_backward].
  - exists d; splits; try reflexivity. intros j. replace ((dlast - Z.of_nat 0 <=? j) && (j <? dlast)) with false by lia.
    replace ((last - Z.of_nat 0 <=? j) && (j <? last)) with false by lia. reflexivity.
  - destruct (move_one_ok d (last - 1) (dlast - 1)) as (d1 & E1 & Hl1 & Hc1); [lia|lia|lia|]. rewrite E1; cbn [bind].
    destruct (IH d1 (last - 1) (dlast - 1)) as (d' & E & Hl & Hc); [lia|lia|lia|].
    exists d'; splits; [assumption|lia|]. intros j. rewrite Hc, !Hc1.
    repeat (zcase1; try (exfalso; lia)); try reflexivity; try (f_equal; lia).
    all: cbn [andb] in *; repeat (zcase1; try (exfalso; lia)); try reflexivity; try (f_equal; lia).
Qed.
End Moves.

Section MV.
Context {T : Type}.
Variables (moved : T -> T) (N : Z) (dflt : T).
Notation VRel := (FixedVector.VRel N).

Ltac vr := apply FixedVector.vrel_intro; [rewrite ?zlen_zupd; lia|lia|].

Lemma mv_refines s l o : VRel s l -> vop_ok N o ->
  exists s' r l', mv_step moved N dflt s o = Ok (s', r) /\ vec_spec dflt N l o r l' /\ VRel s' l'.
Proof using.
  intros HR HO. pose proof (FixedVector.vrel_len N _ _ HR) as HL. pose proof (fun i => FixedVector.vrel_nth N s l i HR) as HN.
  pose proof HR as (Hd & Hn & Hl).
  destruct o as [x| | | |i x|i|f e|n x|n| | | | | |i|i x]; try (apply FixedVector.fv_refines; [reflexivity|assumption|assumption]);
    cbn [mv_step vec_spec vop_ok] in *.
  - unfold mv_insert. rewrite HL.
    destruct ((v_n s >=? N) || (i >? v_n s)) eqn:Ec.
    { replace ((v_n s <? N) && (i <=? v_n s)) with false by lia. do 3 eexists; splits; [reflexivity|reflexivity|reflexivity|assumption]. }
    replace ((v_n s <? N) && (i <=? v_n s)) with true by lia. unfold take, drop.
    destruct (Z.eqb_spec i (v_n s)) as [->|].
    + unfold fv_push. replace (v_n s >=? N) with false by lia. rewrite wr_ok by lia. cbn [bind].
      do 3 eexists; splits; [reflexivity|reflexivity|reflexivity|].
      vr. intros i Hi. znorm. rewrite !HN, HL. rewrite znth_zupd.
      repeat (zcase1; try (exfalso; lia)); try reflexivity.
    + cbn [bind]. destruct (mmove_backward_ok moved (Z.to_nat (v_n s - i)) (v_data s) (v_n s) (v_n s + 1)) as (d & E & Hdl & Hc); try lia.
      rewrite E; cbn [bind]. rewrite wr_ok by lia. cbn [bind].
      do 3 eexists; splits; [reflexivity|reflexivity|reflexivity|].
      vr. intros j Hj. znorm. rewrite !HN, HL. rewrite znth_zupd, Hc.
      repeat (zcase1; try (exfalso; lia)); try reflexivity. f_equal; lia.
  - unfold mv_erase. rewrite HL.
    destruct ((v_n s =? 0) || (i >=? v_n s)) eqn:Ec.
    { replace (i <? v_n s) with false by lia. do 3 eexists; splits; [reflexivity|reflexivity|reflexivity|assumption]. }
    replace (i <? v_n s) with true by lia. unfold take, drop.
    destruct (Z.eqb_spec i (v_n s - 1)) as [->|].
    + do 3 eexists; splits; [reflexivity|reflexivity|reflexivity|].
      vr. intros i Hi. znorm. rewrite !HN, HL.
      repeat (zcase1; try (exfalso; lia)); try reflexivity.
    + cbn [bind]. destruct (mmove_forward_ok moved (Z.to_nat (v_n s - (i + 1))) (v_data s) (i + 1) i) as (d & E & Hdl & Hc); try lia.
      rewrite E; cbn [bind].
      do 3 eexists; splits; [reflexivity|reflexivity|reflexivity|].
      vr. intros j Hj. znorm. rewrite !HN, HL. rewrite Hc.
      repeat (zcase1; try (exfalso; lia)); try reflexivity. f_equal; lia.
  - rewrite HL. destruct HO as [Hf He]. destruct ((f <=? v_n s) && (e <=? v_n s)) eqn:Eg.
    2:{ replace ((f <? e) && (e <=? v_n s)) with false by lia. do 3 eexists; splits; [reflexivity|reflexivity|reflexivity|assumption]. }
    unfold mv_erase_range. destruct ((v_n s =? 0) || (e - f <=? 0)) eqn:Ec.
    { replace ((f <? e) && (e <=? v_n s)) with false by lia. do 3 eexists; splits; [reflexivity|reflexivity|reflexivity|assumption]. }
    replace ((f <? e) && (e <=? v_n s)) with true by lia. unfold take, drop.
    destruct (mmove_forward_ok moved (Z.to_nat (v_n s - e)) (v_data s) e f) as (d & E & Hdl & Hc); try lia.
    rewrite E; cbn [bind].
    do 3 eexists; splits; [reflexivity|reflexivity|reflexivity|].
    vr. intros j Hj. znorm. rewrite !HN, HL. rewrite Hc.
    repeat (zcase1; try (exfalso; lia)); try reflexivity. f_equal; lia.
Qed.

Lemma mv_run ts ops : zlen ts <= N -> Forall (vop_ok N) ops ->
  exists s' outs l', run (mv_step moved N dflt) (fv_init N dflt ts) ops = Ok (s', outs) /\
    rel_run (vec_spec dflt N) ts ops outs l' /\ fv_contents s' = l' /\ zlen l' <= N /\ zlen (v_data s') = N.
Proof using.
  intros Hts HF.
  destruct (run_refines_rel (mv_step moved N dflt) (vec_spec dflt N) (fun _ o => vop_ok N o) VRel) with (ops := ops) (s := fv_init N dflt ts) (q := ts)
    as (s' & rs & l' & E & HS & HR).
  - intros s q o HR HO. apply mv_refines; auto.
  - apply FixedVector.vrel_init; assumption.
  - intros o Ho q. rewrite Forall_forall in HF. auto.
  - exists s', rs, l'. pose proof (FixedVector.vrel_len N _ _ HR). splits; try assumption.
    + destruct HR as (_ & _ & ->). reflexivity.
    + destruct HR as (_ & H1 & _). lia.
    + apply HR.
Qed.

End MV.

Section Erased.
Context {T : Type}.
Variable moved : T -> T.

Lemma range_storage (s : fvec T) f e : 0 <= f < e -> e <= v_n s <= zlen (v_data s) ->
  exists d, mv_erase_range moved s f e = Ok (FVec d (v_n s - (e - f))) /\
    (forall j, 0 <= j -> znth d j = erased moved (v_data s) (v_n s) f e j).
Proof using.
  intros Hf He. unfold mv_erase_range. replace ((v_n s =? 0) || (e - f <=? 0)) with false by lia.
  destruct (mmove_forward_ok moved (Z.to_nat (v_n s - e)) (v_data s) e f) as (d & E & Hdl & Hc); try lia.
  rewrite E; cbn [bind]. eexists; split; [reflexivity|]. intros j Hj. rewrite Hc. unfold erased.
  repeat (zcase1; try (exfalso; lia)); try reflexivity; f_equal; lia.
Qed.

Lemma index_storage (s : fvec T) i : 0 <= i < v_n s -> v_n s <= zlen (v_data s) ->
  exists d, mv_erase moved s i = Ok (FVec d (v_n s - 1)) /\
    (forall j, 0 <= j -> znth d j = erased moved (v_data s) (v_n s) i (i + 1) j).
Proof using.
  intros Hi He. unfold mv_erase. replace ((v_n s =? 0) || (i >=? v_n s)) with false by lia.
  destruct (Z.eqb_spec i (v_n s - 1)) as [->|].
  - eexists; split; [reflexivity|]. intros j Hj. unfold erased. repeat (zcase1; try (exfalso; lia)); try reflexivity.
  - destruct (mmove_forward_ok moved (Z.to_nat (v_n s - (i + 1))) (v_data s) (i + 1) i) as (d & E & Hdl & Hc); try lia.
    rewrite E; cbn [bind]. eexists; split; [reflexivity|]. intros j Hj. rewrite Hc. unfold erased.
    repeat (zcase1; try (exfalso; lia)); try reflexivity; f_equal; lia.
Qed.
End Erased.

Section Handles.
Context {R : Type}.
Notation H := (handle R).

Lemma In_znth {A} (l : list A) x : In x l <-> exists i, znth l i = Some x.
Proof using.
  split.
  - induction l as [|y l IH]; intros HI; [destruct HI|]. destruct HI as [->|HI].
    + exists 0. rewrite znth_cons. reflexivity.
    + destruct (IH HI) as [i Hi]. pose proof (znth_some_range _ _ _ Hi). exists (i + 1). rewrite znth_cons.
      replace (i + 1 =? 0) with false by lia. replace (i + 1 <? 0) with false by lia. rewrite <- Hi. f_equal; lia.
  - intros [i Hi]. unfold znth in Hi. destruct (i <? 0); [discriminate|]. apply nth_error_In in Hi. assumption.
Qed.

Lemma keeps_iff (d : list H) r : keeps d r <-> exists j, 0 <= j /\ znth d j = Some (Some r).
Proof using.
  unfold keeps. rewrite In_znth. split; intros (j & Hj).
  - exists j; split; [apply znth_some_range in Hj; lia|assumption].
  - exists j; apply Hj.
Qed.

Lemma erased_keeps (d d' : list H) n f e i r : 0 <= f < e -> e <= n <= zlen d -> f <= i < e ->
  (forall j, znth d j = Some (Some r) <-> j = i) ->
  (forall j, 0 <= j -> znth d' j = erased emptied d n f e j) ->
  keeps d' r <-> f + (n - e) <= i.
Proof using.
  intros Hf He Hi Hu Hd. rewrite keeps_iff. split.
  - intros (j & Hj & E). rewrite Hd in E by assumption. unfold erased in E.
    destruct (Z.ltb_spec j f); [apply Hu in E; lia|].
    destruct (Z.ltb_spec j (f + (n - e))); [apply Hu in E; lia|].
    destruct (Z.ltb_spec j e); [apply Hu in E; lia|].
    destruct (Z.ltb_spec j n); [destruct (znth d j); cbn in E; discriminate|apply Hu in E; lia].
  - intros Hl. exists i. split; [lia|]. rewrite Hd by lia. unfold erased.
    replace (i <? f) with false by lia. replace (i <? f + (n - e)) with false by lia. replace (i <? e) with true by lia.
    apply Hu; reflexivity.
Qed.

Lemma range_keeps (s : fvec H) f e i r : 0 <= f < e -> e <= v_n s <= zlen (v_data s) -> f <= i < e ->
  (forall j, znth (v_data s) j = Some (Some r) <-> j = i) ->
  exists s', mv_erase_range emptied s f e = Ok s' /\ (keeps (v_data s') r <-> f + (v_n s - e) <= i).
Proof using.
  intros Hf He Hi Hu. destruct (range_storage emptied s f e Hf He) as (d & E & Hd).
  eexists; split; [exact E|]. eapply erased_keeps; eauto.
Qed.

Lemma index_keeps (s : fvec H) i r : 0 <= i < v_n s -> v_n s <= zlen (v_data s) ->
  (forall j, znth (v_data s) j = Some (Some r) <-> j = i) ->
  exists s', mv_erase emptied s i = Ok s' /\ (keeps (v_data s') r <-> i = v_n s - 1).
Proof using.
  intros Hi He Hu. destruct (index_storage emptied s i Hi He) as (d & E & Hd).
  eexists; split; [exact E|]. cbn [v_data]. rewrite (erased_keeps (v_data s) d (v_n s) i (i + 1) i r) by (auto; lia). lia.
Qed.
End Handles.

(* ---- queues: what stays in the storage after elements were taken out ---- *)
Ltac Zify.zify_post_hook ::= Z.div_mod_to_equations.

Section RingKeeps.
Context {T : Type}.
Variables (W k : Z) (dflt : T).
Hypothesis Hk : 0 <= k < W.
Notation cap := (2 ^ k).
Notation step := (cb_step W cap dflt).

Lemma ring_len s o s' r : step s o = Ok (s', r) -> zlen (cb_buf s') = zlen (cb_buf s).
Proof using.
  clear Hk. destruct o; cbn [cb_step]; intros E; try (injection E as <- _; reflexivity).
  - unfold cb_put in E. destruct (wr (cb_buf s) (cb_head s) x) as [b| |] eqn:Ew; cbn [bind] in E; try discriminate.
    injection E as <- _. cbn [cb_buf]. unfold wr in Ew. destruct ((0 <=? _) && _); [|discriminate]. injection Ew as <-. apply zlen_zupd.
  - unfold cb_get in E. destruct (cb_empty s); cbn [bind] in E; [injection E as <- _; reflexivity|].
    destruct (rd (cb_buf s) (cb_tail s)); cbn [bind] in E; try discriminate. injection E as <- _. reflexivity.
  - unfold cb_get_opt in E. destruct (cb_empty s); cbn [bind] in E; [injection E as <- _; reflexivity|].
    destruct (rd (cb_buf s) (cb_tail s)); cbn [bind] in E; try discriminate. injection E as <- _. reflexivity.
  - unfold cb_remove_first in E. injection E as <- _. destruct (negb _); reflexivity.
  - destruct (cb_peek W cap s i); cbn [bind] in E; try discriminate. injection E as <- _. reflexivity.
  - injection E as <- _. unfold cb_fill; cbn [cb_buf]. unfold zlen. rewrite map_length. reflexivity.
Qed.

Lemma ring_other s o s' r : ring_plain o -> (forall x, o <> RPut x) -> step s o = Ok (s', r) ->
  cb_buf s' = cb_buf s /\ cb_head s' = cb_head s.
Proof using.
  clear Hk. destruct o; cbn [cb_step ring_plain]; intros Hp Hn E; try (destruct Hp; fail); try (injection E as <- _; auto; fail).
  - exfalso. eapply Hn; reflexivity.
  - unfold cb_get in E. destruct (cb_empty s); cbn [bind] in E; [injection E as <- _; auto|].
    destruct (rd (cb_buf s) (cb_tail s)); cbn [bind] in E; try discriminate. injection E as <- _. auto.
  - unfold cb_get_opt in E. destruct (cb_empty s); cbn [bind] in E; [injection E as <- _; auto|].
    destruct (rd (cb_buf s) (cb_tail s)); cbn [bind] in E; try discriminate. injection E as <- _. auto.
  - unfold cb_remove_first in E. injection E as <- _. destruct (negb _); auto.
  - destruct (cb_peek W cap s i); cbn [bind] in E; try discriminate. injection E as <- _. auto.
Qed.

Lemma ring_put s x s' r : zlen (cb_buf s) = cap -> step s (RPut x) = Ok (s', r) ->
  0 <= cb_head s < cap /\ cb_buf s' = zupd (cb_buf s) (cb_head s) x /\ cb_head s' = (cb_head s + 1) mod cap.
Proof using Hk.
  intros HL E. cbn [cb_step] in E. unfold cb_put in E. unfold wr in E.
  destruct ((0 <=? cb_head s) && (cb_head s <? zlen (cb_buf s))) eqn:Ec; cbn [bind] in E; [|discriminate].
  injection E as <- _. cbn [cb_buf cb_head]. splits; try lia; try reflexivity.
  apply (Circular.inc_ok W k); [assumption|lia].
Qed.

Lemma ring_after : forall post s s' outs h x n,
  zlen (cb_buf s) = cap -> 0 <= h < cap -> 0 <= n -> znth (cb_buf s) h = Some x -> cb_head s = (h + 1 + n) mod cap ->
  Forall ring_plain post -> n + ring_puts post < cap -> run step s post = Ok (s', outs) ->
  znth (cb_buf s') h = Some x.
Proof using Hk.
  induction post as [|o post IH]; intros s s' outs h x n HL Hh Hn Hx Hd HF Hc E; cbn [run] in E.
  - injection E as <- _. assumption.
  - apply bind_inv in E as ((s1 & r) & E1 & E). apply bind_inv in E as ((s2 & rs) & E2 & E). injection E as <- _.
    apply Forall_cons_iff in HF as [Ho HF]. pose proof (ring_len _ _ _ _ E1) as HL1.
    destruct (match o with RPut _ => true | _ => false end) eqn:Ep.
    + destruct o as [y| | | | | | | | | |]; try discriminate. 
      destruct (ring_put _ _ _ _ HL E1) as (Hr & Hb & Hh1).
      assert (Hq : ring_puts (RPut y :: post) = 1 + ring_puts post) by (unfold ring_puts; cbn [filter]; rewrite zlen_cons; lia).
      pose proof (zlen_nonneg (filter (fun o => match o with RPut _ => true | _ => false end) post)) as Hz. fold (ring_puts post) in Hz.
      eapply (IH s1 s2 rs h x (n + 1)); try eassumption; try lia.
      * rewrite Hb, znth_zupd. replace (cb_head s =? h) with false; [assumption|].
        rewrite Hd. symmetry. apply Z.eqb_neq. intros E0.
        assert (D : (n + 1) mod cap = 0).
        { replace (n + 1) with ((h + 1 + n) - h) by lia. rewrite Zminus_mod, E0, (Z.mod_small h) by lia. rewrite Z.sub_diag. apply Zmod_0_l. }
        rewrite Z.mod_small in D by lia. lia.
      * rewrite Hh1, Hd. rewrite Zplus_mod_idemp_l. f_equal; lia.
    + destruct (ring_other _ _ _ _ Ho ltac:(intros y ->; discriminate) E1) as (Hb & Hh1).
      assert (Hq : ring_puts (o :: post) = ring_puts post) by (unfold ring_puts; cbn [filter]; rewrite Ep; reflexivity).
      eapply (IH s1 s2 rs h x n); try eassumption; try lia; congruence.
Qed.

Lemma ring_run_len : forall ops s s' outs, run step s ops = Ok (s', outs) -> zlen (cb_buf s') = zlen (cb_buf s).
Proof using.
  clear Hk. induction ops as [|o ops IH]; intros s s' outs E; cbn [run] in E.
  - injection E as <- _. reflexivity.
  - apply bind_inv in E as ((s1 & r) & E1 & E). apply bind_inv in E as ((s2 & rs) & E2 & E). injection E as <- _.
    apply ring_len in E1. apply IH in E2. lia.
Qed.

Lemma ring_keeps pre x post s' outs : Forall ring_plain post -> ring_puts post < cap ->
  run step (cb_init cap dflt) (pre ++ RPut x :: post) = Ok (s', outs) -> In x (cb_buf s').
Proof using Hk.
  intros HF Hc E. rewrite run_app in E. apply bind_inv in E as ((s1 & r1) & E1 & E).
  apply bind_inv in E as ((s2 & rs) & E2 & E). injection E as <- _.
  cbn [run] in E2. apply bind_inv in E2 as ((s3 & r3) & E3 & E2). apply bind_inv in E2 as ((s4 & r4) & E4 & E2). injection E2 as <- _.
  apply ring_run_len in E1. cbn [cb_init cb_buf] in E1. rewrite zlen_zrepeat in E1 by (apply Z.lt_le_incl, Z.pow_pos_nonneg; lia).
  pose proof (ring_len _ _ _ _ E3) as HL. destruct (ring_put _ _ _ _ E1 E3) as (Hr & Hb & Hh).
  apply In_znth. exists (cb_head s1). eapply (ring_after post s3 s4 r4 (cb_head s1) x 0); try eassumption; try lia.
  - rewrite Hb, znth_zupd, Z.eqb_refl. cbn [andb]. replace ((0 <=? cb_head s1) && (cb_head s1 <? zlen (cb_buf s1))) with true by lia. reflexivity.
  - rewrite Hh. f_equal; lia.
Qed.
End RingKeeps.

Section QueueKeeps.
Context {T : Type}.
Variables (W k : Z) (dflt : T).
Hypothesis Hk : 0 <= k < W.
Notation cap := (2 ^ k).
Notation step := (fifo_step W dflt slot_static).

Definition sized (s : fifo T) : Prop := f_max s = cap /\ zlen (f_buf s) = cap.

Lemma wr_len {A} (l : list A) i x l' : wr l i x = Ok l' -> l' = zupd l i x /\ 0 <= i < zlen l.
Proof using. clear. unfold wr. destruct ((0 <=? i) && (i <? zlen l)) eqn:E; [|discriminate]. intros H; injection H as <-. split; [reflexivity|lia]. Qed.

Lemma queue_put s x s' r : sized s -> step s (Put x) = Ok (s', r) ->
  sized s' /\ ((r = RBool false /\ s' = s) \/
    (r = RBool true /\ f_buf s' = zupd (f_buf s) (f_head s mod cap) x /\ f_head s' = word W (f_head s + 1))).
Proof using Hk.
  intros [Hm HL] E. cbn [fifo_step] in E. unfold put in E.
  destruct (word W (f_head s - f_tail s) =? f_max s); cbn [bind] in E.
  - injection E as <- <-. split; [split; assumption|left; auto].
  - unfold slot_static in E. cbn [bind] in E. rewrite Hm, land_ones_mod in E by lia.
    destruct (wr (f_buf s) (f_head s mod cap) x) as [b| |] eqn:Ew; cbn [bind] in E; try discriminate.
    apply wr_len in Ew as [-> _]. injection E as <- <-. cbn [f_buf f_head]. split; [split; cbn [f_max f_buf]; [reflexivity|rewrite zlen_zupd; assumption]|right; auto].
Qed.

Lemma queue_get (s : fifo T) s' r : get W slot_static s = Ok (s', r) -> f_max s' = f_max s /\ f_buf s' = f_buf s /\ f_head s' = f_head s.
Proof using.
  clear. unfold get. destruct (f_tail s =? f_head s); [intros E; injection E as <- _; auto|].
  unfold slot_static; cbn [bind]. destruct (rd _ _); cbn [bind]; try discriminate. intros E; injection E as <- _. auto.
Qed.

Lemma queue_other s o s' r : queue_plain o -> (forall x, o <> Put x) -> step s o = Ok (s', r) ->
  f_max s' = f_max s /\ f_buf s' = f_buf s /\ f_head s' = f_head s.
Proof using.
  clear Hk. destruct o; cbn [fifo_step queue_plain]; intros Hp Hn E; try (destruct Hp; fail); try (injection E as <- _; auto; fail).
  - exfalso. eapply Hn; reflexivity.
  - destruct (get W slot_static s) as [[s1 o]| |] eqn:Eg; cbn [bind] in E; try discriminate. injection E as <- _. eapply queue_get; eassumption.
  - unfold get_or_default in E. destruct (get W slot_static s) as [[s1 o]| |] eqn:Eg; cbn [bind] in E; try discriminate. injection E as <- _. eapply queue_get; eassumption.
  - injection E as <- _. unfold remove_first. destruct (negb _); auto.
Qed.

Lemma queue_sized s o s' r : queue_static o -> sized s -> step s o = Ok (s', r) -> sized s'.
Proof using Hk.
  intros Ho HS E. destruct o.
  - eapply queue_put; eassumption.
  - apply queue_other in E; [|exact I|congruence]. destruct HS; unfold sized. destruct E as (-> & -> & _); auto.
  - cbn [fifo_step] in E. unfold get_move in E. destruct (f_tail s =? f_head s); [injection E as <- _; assumption|].
    unfold slot_static in E; cbn [bind] in E. destruct (rd _ _) in E; cbn [bind] in E; try discriminate.
    destruct (wr _ _ _) eqn:Ew in E; cbn [bind] in E; try discriminate. apply wr_len in Ew as [-> _]. injection E as <- _.
    destruct HS; split; cbn [f_max f_buf]; [assumption|rewrite zlen_zupd; assumption].
  - apply queue_other in E; [|exact I|congruence]. destruct HS; unfold sized. destruct E as (-> & -> & _); auto.
  - apply queue_other in E; [|exact I|congruence]. destruct HS; unfold sized. destruct E as (-> & -> & _); auto.
  - apply queue_other in E; [|exact I|congruence]. destruct HS; unfold sized. destruct E as (-> & -> & _); auto.
  - apply queue_other in E; [|exact I|congruence]. destruct HS; unfold sized. destruct E as (-> & -> & _); auto.
  - apply queue_other in E; [|exact I|congruence]. destruct HS; unfold sized. destruct E as (-> & -> & _); auto.
  - apply queue_other in E; [|exact I|congruence]. destruct HS; unfold sized. destruct E as (-> & -> & _); auto.
  - apply queue_other in E; [|exact I|congruence]. destruct HS; unfold sized. destruct E as (-> & -> & _); auto.
  - apply queue_other in E; [|exact I|congruence]. destruct HS; unfold sized. destruct E as (-> & -> & _); auto.
  - destruct Ho.
Qed.

Lemma word_next p : word W (p + 1) mod cap = (p mod cap + 1) mod cap.
Proof using Hk. rewrite word_mod_pow2 by lia. rewrite Zplus_mod_idemp_l. reflexivity. Qed.

Lemma queue_after : forall post s s' outs h x n,
  sized s -> 0 <= h < cap -> 0 <= n -> znth (f_buf s) h = Some x -> f_head s mod cap = (h + 1 + n) mod cap ->
  Forall queue_plain post -> n + queue_puts post < cap -> run step s post = Ok (s', outs) ->
  znth (f_buf s') h = Some x.
Proof using Hk.
  induction post as [|o post IH]; intros s s' outs h x n HL Hh Hn Hx Hd HF Hc E; cbn [run] in E.
  - injection E as <- _. assumption.
  - apply bind_inv in E as ((s1 & r) & E1 & E). apply bind_inv in E as ((s2 & rs) & E2 & E). injection E as <- _.
    apply Forall_cons_iff in HF as [Ho HF].
    assert (HL1 : sized s1) by (eapply queue_sized; [|exact HL|exact E1]; destruct o; cbn in *; auto).
    destruct (match o with Put _ => true | _ => false end) eqn:Ep.
    + destruct o as [y| | | | | | | | | | |]; try discriminate.
      destruct (queue_put _ _ _ _ HL E1) as (_ & [(_ & ->)|(_ & Hb & Hh1)]).
      all: assert (Hq : queue_puts (Put y :: post) = 1 + queue_puts post) by (unfold queue_puts; cbn [filter]; rewrite zlen_cons; lia).
      all: pose proof (zlen_nonneg (filter (fun o => match o with Put _ => true | _ => false end) post)) as Hz; fold (queue_puts post) in Hz.
      * eapply (IH s s2 rs h x n); try eassumption; lia.
      * eapply (IH s1 s2 rs h x (n + 1)); try eassumption; try lia.
        -- rewrite Hb, znth_zupd. replace (f_head s mod cap =? h) with false; [assumption|].
           rewrite Hd. symmetry. apply Z.eqb_neq. intros E0.
           assert (D : (n + 1) mod cap = 0).
           { replace (n + 1) with ((h + 1 + n) - h) by lia. rewrite Zminus_mod, E0, (Z.mod_small h) by lia. rewrite Z.sub_diag. apply Zmod_0_l. }
           rewrite Z.mod_small in D by lia. lia.
        -- rewrite Hh1, word_next, Hd. rewrite Zplus_mod_idemp_l. f_equal; lia.
    + destruct (queue_other _ _ _ _ Ho ltac:(intros y ->; discriminate) E1) as (_ & Hb & Hh1).
      assert (Hq : queue_puts (o :: post) = queue_puts post) by (unfold queue_puts; cbn [filter]; rewrite Ep; reflexivity).
      eapply (IH s1 s2 rs h x n); try eassumption; try lia; congruence.
Qed.

Lemma queue_run_sized : forall ops s s' outs, Forall queue_static ops -> sized s -> run step s ops = Ok (s', outs) -> sized s'.
Proof using Hk.
  induction ops as [|o ops IH]; intros s s' outs HF HS E; cbn [run] in E.
  - injection E as <- _. assumption.
  - apply bind_inv in E as ((s1 & r) & E1 & E). apply bind_inv in E as ((s2 & rs) & E2 & E). injection E as <- _.
    apply Forall_cons_iff in HF as [Ho HF]. eapply IH; [exact HF| |exact E2]. eapply queue_sized; eassumption.
Qed.

Lemma queue_keeps pre x post s1 o1 s2 s3 o3 : Forall queue_static pre -> Forall queue_plain post -> queue_puts post < cap ->
  run step (fifo_init dflt cap) pre = Ok (s1, o1) -> step s1 (Put x) = Ok (s2, RBool true) -> run step s2 post = Ok (s3, o3) ->
  In x (f_buf s3).
Proof using Hk.
  intros HP HF Hc E1 E2 E3.
  assert (H0 : 0 < cap) by (apply Z.pow_pos_nonneg; lia).
  assert (HS : sized s1).
  { eapply queue_run_sized; [exact HP| |exact E1]. split; cbn [fifo_init f_max f_buf]; [reflexivity|apply zlen_zrepeat; lia]. }
  destruct (queue_put _ _ _ _ HS E2) as (HS2 & [(Hf & _)|(_ & Hb & Hh)]); [discriminate|].
  pose proof (Z.mod_pos_bound (f_head s1) cap H0).
  apply In_znth. exists (f_head s1 mod cap). eapply (queue_after post s2 s3 o3 (f_head s1 mod cap) x 0); try eassumption; try lia.
  - rewrite Hb, znth_zupd, Z.eqb_refl. cbn [andb]. destruct HS as [_ HL].
    replace ((0 <=? f_head s1 mod cap) && (f_head s1 mod cap <? zlen (f_buf s1))) with true by lia. reflexivity.
  - rewrite Hh, word_next. f_equal; lia.
Qed.
End QueueKeeps.

Lemma pool_keeps {T} (l : list (entry T)) p : forall i, pool_storage (fst (release p i l)) = pool_storage l.
Proof.
  induction l as [|e l IH]; intros i; [reflexivity|]. cbn [release].
  destruct (e_used e && _); [reflexivity|]. specialize (IH (i + 1)). destruct (release p (i + 1) l) as [l' b]. unfold pool_storage in *. cbn [fst map e_data] in *. rewrite IH. reflexivity.
Qed.

(* the calls of FixedVector that only change the size *)
Lemma shrink_keeps {T} N (dflt : T) moved s o s' r :
  o = VPop \/ o = VClear \/ (exists n, o = VResizeOverwrite n) \/ (exists n x, n <= v_n s /\ o = VResize n x) ->
  mv_step moved N dflt s o = Ok (s', r) -> v_data s' = v_data s.
Proof.
  intros [->|[->|[(n & ->)|(n & x & Hn & ->)]]] E; cbn [mv_step fv_step] in E.
  - unfold fv_pop in E. destruct (v_n s =? 0); cbn [bind] in E; [injection E as <- _; reflexivity|].
    destruct (rd _ _) in E; cbn [bind] in E; try discriminate. injection E as <- _. reflexivity.
  - injection E as <- _. reflexivity.
  - injection E as <- _. reflexivity.
  - unfold fv_resize in E. destruct (Z.gtb_spec (Z.min n N) (v_n s)); [lia|]. cbn [bind] in E. injection E as <- _. reflexivity.
Qed.
