From Verif.Common Require Import Base Lemmas Lists.
From Verif.Spec Require Import StaticStringSpec.
From Verif.Model Require Import StaticString.

Lemma cstring_some mem : forall t, cstring mem = Some t -> exists r, mem = t ++ 0 :: r /\ Forall (fun c => c <> 0) t.
Proof.
  induction mem as [|c mem IH]; intros t E; cbn in E; [discriminate|].
  destruct (Z.eqb_spec c 0).
  - injection E as <-. exists mem. subst c. split; [reflexivity|constructor].
  - destruct (cstring mem) as [t'|] eqn:Em; cbn in E; [|discriminate]. injection E as <-.
    destruct (IH t' eq_refl) as (r & -> & HF). exists r. split; [reflexivity|constructor; assumption].
Qed.
Lemma cstring_intro t r : Forall (fun c => c <> 0) t -> cstring (t ++ 0 :: r) = Some t.
Proof.
  induction 1 as [|c t Hc HF IH]; cbn; [reflexivity|]. destruct (Z.eqb_spec c 0); [contradiction|]. rewrite IH; reflexivity.
Qed.
Lemma cstring_until l r : cstring (l ++ 0 :: r) = Some (until_nul l).
Proof. induction l as [|c l IH]; cbn; [reflexivity|]. destruct (c =? 0); [reflexivity|]. rewrite IH; reflexivity. Qed.

Lemma firstn_zcons n (c : Z) l : 0 < n -> firstn (Z.to_nat n) (c :: l) = c :: firstn (Z.to_nat (n - 1)) l.
Proof. intros H. replace (Z.to_nat n) with (S (Z.to_nat (n - 1))) by lia. reflexivity. Qed.

Section SS.
Variable cap : Z.
Hypothesis Hcap : 0 <= cap.

(** what a copying loop leaves behind: [pre ++ w ++ 0 :: _] *)
Lemma copy_c_ok t : forall i r d, zlen d = cap + 1 -> 0 <= i <= cap -> Forall (fun c => c <> 0) t ->
  exists tail, copy_c cap i (t ++ 0 :: r) d = Ok (firstn (Z.to_nat i) d ++ firstn (Z.to_nat (cap - i)) t ++ 0 :: tail) /\
               zlen (firstn (Z.to_nat i) d ++ firstn (Z.to_nat (cap - i)) t ++ 0 :: tail) = cap + 1.
Proof.
  assert (Hend : forall i d, zlen d = cap + 1 -> 0 <= i <= cap -> exists tail, zupd d i 0 = firstn (Z.to_nat i) d ++ 0 :: tail /\ zlen (firstn (Z.to_nat i) d ++ 0 :: tail) = cap + 1).
  { intros i d Hd Hi. exists (skipn (Z.to_nat (i + 1)) d).
    assert (E : zupd d i 0 = firstn (Z.to_nat i) d ++ 0 :: skipn (Z.to_nat (i + 1)) d).
    { apply znth_opt_ext. intros j Hj. rewrite znth_zupd. znorm. repeat (zcase1; try (exfalso; lia)); try reflexivity. f_equal; lia. }
    split; [exact E|]. rewrite <- E, zlen_zupd. assumption. }
  induction t as [|c t IH]; intros i r d Hd Hi HF; cbn [app copy_c].
  - cbn [Z.eqb negb andb]. rewrite wr_ok by lia. rewrite firstn_nil. cbn [app].
    destruct (Hend i d Hd Hi) as (tail & E & HL). exists tail. rewrite E. auto.
  - inversion HF as [|? ? Hc HF']; subst. destruct (Z.eqb_spec c 0); [contradiction|]. cbn [negb andb].
    destruct (Z.ltb_spec i cap).
    + rewrite wr_ok by lia. cbn [bind]. destruct (IH (i + 1) r (zupd d i c)) as (tail & E & HL); [rewrite zlen_zupd; lia|lia|assumption|].
      assert (Ef : firstn (Z.to_nat (i + 1)) (zupd d i c) = firstn (Z.to_nat i) d ++ [c]).
      { apply znth_opt_ext. intros j Hj. znorm. rewrite znth_zupd. repeat (zcase1; try (exfalso; lia)); try reflexivity. }
      rewrite Ef in E, HL. rewrite (firstn_zcons (cap - i)) by lia. replace (cap - i - 1) with (cap - (i + 1)) by lia.
      exists tail. rewrite E, <- !app_assoc in *. cbn [app] in *. auto.
    + replace (Z.to_nat (cap - i)) with O by lia. cbn [firstn app]. rewrite wr_ok by lia.
      destruct (Hend i d Hd Hi) as (tail & E & HL). exists tail. rewrite E. auto.
Qed.

Lemma copy_sv_ok l : 0 < cap -> forall i d, zlen d = cap + 1 -> 0 <= i < cap ->
  exists tail, copy_sv cap i l d = Ok (firstn (Z.to_nat i) d ++ firstn (Z.to_nat (cap - i)) l ++ 0 :: tail) /\
               zlen (firstn (Z.to_nat i) d ++ firstn (Z.to_nat (cap - i)) l ++ 0 :: tail) = cap + 1.
Proof.
  intros Hc. assert (Hend : forall i d, zlen d = cap + 1 -> 0 <= i <= cap -> exists tail, zupd d i 0 = firstn (Z.to_nat i) d ++ 0 :: tail /\ zlen (firstn (Z.to_nat i) d ++ 0 :: tail) = cap + 1).
  { intros i d Hd Hi. exists (skipn (Z.to_nat (i + 1)) d).
    assert (E : zupd d i 0 = firstn (Z.to_nat i) d ++ 0 :: skipn (Z.to_nat (i + 1)) d).
    { apply znth_opt_ext. intros j Hj. rewrite znth_zupd. znorm. repeat (zcase1; try (exfalso; lia)); try reflexivity. f_equal; lia. }
    split; [exact E|]. rewrite <- E, zlen_zupd. assumption. }
  induction l as [|c l IH]; intros i d Hd Hi; cbn [copy_sv].
  - rewrite wr_ok by lia. rewrite firstn_nil. cbn [app]. destruct (Hend i d Hd) as (tail & E & HL); [lia|]. exists tail. rewrite E; auto.
  - rewrite wr_ok by lia. cbn [bind].
    assert (Ef : firstn (Z.to_nat (i + 1)) (zupd d i c) = firstn (Z.to_nat i) d ++ [c]).
    { apply znth_opt_ext. intros j Hj. znorm. rewrite znth_zupd. repeat (zcase1; try (exfalso; lia)); try reflexivity. }
    rewrite (firstn_zcons (cap - i)) by lia. replace (cap - i - 1) with (cap - (i + 1)) by lia.
    destruct (Z.geb_spec (i + 1) cap).
    + rewrite wr_ok by (rewrite zlen_zupd; lia). destruct (Hend (i + 1) (zupd d i c)) as (tail & E & HL); [rewrite zlen_zupd; lia|lia|].
      rewrite Ef in *. replace (Z.to_nat (cap - (i + 1))) with O by lia. cbn [firstn app] in *.
      exists tail. rewrite E, <- !app_assoc in *. cbn [app] in *. auto.
    + destruct (IH (i + 1) (zupd d i c)) as (tail & E & HL); [rewrite zlen_zupd; lia|lia|].
      rewrite Ef in *. exists tail. rewrite E, <- !app_assoc in *. cbn [app] in *. auto.
Qed.

(** self copy: after i steps the first i characters are the text from off on, the rest untouched *)
Lemma copy_self_ok fuel : forall i off t d r d0,
  zlen d = cap + 1 -> d0 = t ++ 0 :: r -> Forall (fun c => c <> 0) t -> zlen d0 = cap + 1 ->
  0 <= i -> 0 <= off -> off + i <= zlen t -> zlen t - off - i < Z.of_nat fuel ->
  (forall j, 0 <= j -> znth d j = if j <? i then znth d0 (off + j) else znth d0 j) ->
  exists d', copy_self cap fuel i off d = Ok d' /\ zlen d' = cap + 1 /\ cstring d' = Some (skipn (Z.to_nat off) t).
Proof.
  induction fuel as [|fuel IH]; intros i off t d r d0 Hd E0 HF Hd0 Hi Ho Hoi Hfu Hj; [lia|]. cbn [copy_self].
  assert (Hzt : zlen d0 = zlen t + 1 + zlen r) by (subst d0; rewrite zlen_app, zlen_cons; lia). pose proof (zlen_nonneg r).
  assert (Hrd : znth d (off + i) = znth d0 (off + i)).
  { rewrite Hj by lia. destruct (Z.ltb_spec (off + i) i); [lia|reflexivity]. }
  destruct (Z.eq_dec (off + i) (zlen t)) as [Eend|Nend].
  - assert (H0 : znth d (off + i) = Some 0).
    { rewrite Hrd, E0, znth_app. replace (off + i <? zlen t) with false by lia. rewrite znth_cons. replace (off + i - zlen t =? 0) with true by lia. reflexivity. }
    rewrite (rd_ok _ _ _ H0). cbn [bind Z.eqb negb andb]. rewrite wr_ok by lia. eexists; split; [reflexivity|].
    rewrite zlen_zupd. split; [assumption|].
    assert (Eq : zupd d i 0 = skipn (Z.to_nat off) t ++ 0 :: skipn (Z.to_nat (i + 1)) d).
    { apply znth_opt_ext. intros j Hj0. rewrite znth_zupd. znorm. rewrite Hj by lia.
      rewrite E0, !znth_app. pose proof (zlen_nonneg t).
      repeat (zcase1; try (exfalso; lia)); try reflexivity; try (f_equal; lia).
      - rewrite Hj by lia. replace (i + 1 + (j - Z.max 0 (zlen t - off) - 1)) with j by lia. replace (j <? i) with false by lia.
        rewrite E0, znth_app. replace (j <? zlen t) with true by lia. reflexivity.
      - rewrite Hj by lia. replace (i + 1 + (j - Z.max 0 (zlen t - off) - 1)) with j by lia. replace (j <? i) with false by lia.
        rewrite E0, znth_app. replace (j <? zlen t) with false by lia. reflexivity. }
    rewrite Eq. apply cstring_intro. clear - HF. revert HF. generalize (Z.to_nat off). intros n. revert n.
    induction t as [|c t IHt]; intros n HF; destruct n; cbn; auto. inversion HF; subst. apply IHt; assumption.
  - destruct (znth_some t (off + i)) as [c Hc]; [lia|].
    assert (Hc0 : c <> 0).
    { rewrite Forall_forall in HF. apply HF. unfold znth in Hc. destruct (off + i <? 0); [discriminate|]. eapply nth_error_In; exact Hc. }
    assert (Hrc : znth d (off + i) = Some c). { rewrite Hrd, E0, znth_app. replace (off + i <? zlen t) with true by lia. assumption. }
    rewrite (rd_ok _ _ _ Hrc). cbn [bind]. destruct (Z.eqb_spec c 0); [contradiction|]. replace (i <? cap) with true by lia. cbn [negb andb].
    rewrite wr_ok by lia. cbn [bind]. apply (IH (i + 1) off t (zupd d i c) r d0); auto; try lia; try (rewrite zlen_zupd; assumption).
    intros j Hj0. rewrite znth_zupd, Hj by lia. destruct (Z.eqb_spec i j); cbn [andb].
    + subst j. replace ((0 <=? i) && (i <? zlen d)) with true by lia. replace (i <? i + 1) with true by lia. rewrite <- Hrd. auto.
    + repeat (zcase1; try (exfalso; lia)); reflexivity.
Qed.

Definition SRel (d t : list Z) : Prop := zlen d = cap + 1 /\ cstring d = Some t.

Lemma sv_equal_ok a : forall b, sv_equal a b = same_text a b.
Proof.
  unfold same_text. induction a as [|x a IH]; intros [|y b]; cbn [sv_equal]; try (destruct (list_eq_dec _ _ _); congruence).
  rewrite IH. destruct (Z.eqb_spec x y); cbn [andb].
  - subst y. destruct (list_eq_dec Z.eq_dec a b) as [E1|E1]; destruct (list_eq_dec Z.eq_dec (x :: a) (x :: b)) as [E2|E2]; congruence.
  - destruct (list_eq_dec Z.eq_dec (x :: a) (y :: b)); [congruence|reflexivity].
Qed.

Lemma srel_len d t : SRel d t -> 0 <= zlen t <= cap.
Proof.
  intros (Hd & Hc). apply cstring_some in Hc. destruct Hc as (r & -> & _). rewrite zlen_app, zlen_cons in Hd.
  pose proof (zlen_nonneg r). pose proof (zlen_nonneg t). lia.
Qed.

Lemma ss_refines d t o : 0 < cap -> SRel d t -> sop_ok t o ->
  exists d', ss_step cap d o = Ok (d', snd (ss_spec cap t o)) /\ SRel d' (fst (ss_spec cap t o)).
Proof.
  intros Hc1 HR Ho. pose proof HR as (Hd & Hc). pose proof (srel_len _ _ HR) as HL.
  destruct o as [mem|l|off| | | | |mem]; cbn [ss_step ss_spec sop_ok fst snd] in *.
  - destruct (cstring mem) as [w|] eqn:Em; [|congruence]. destruct (cstring_some _ _ Em) as (r & -> & HF).
    destruct (copy_c_ok w 0 r d Hd) as (tail & E & HLn); [lia|assumption|]. rewrite E. cbn [bind].
    eexists; split; [reflexivity|]. replace (cap - 0) with cap by lia. change (Z.to_nat 0) with O in *. cbn [firstn app] in *.
    replace (cap - 0) with cap in HLn by lia. split; [assumption|]. unfold prefix_of. apply cstring_intro.
    clear - HF. revert HF. generalize (Z.to_nat cap). induction w as [|c w IH]; intros [|n] HF; cbn; auto. inversion HF; subst; constructor; auto.
  - destruct (copy_sv_ok l Hc1 0 d Hd) as (tail & E & HLn); [lia|]. rewrite E. cbn [bind].
    eexists; split; [reflexivity|]. replace (cap - 0) with cap in * by lia. change (Z.to_nat 0) with O in *. cbn [firstn app] in *.
    split; [assumption|]. unfold prefix_of. apply cstring_until.
  - destruct (cstring_some _ _ Hc) as (r & Ed & HF).
    destruct (copy_self_ok (S (Z.to_nat (cap + 1))) 0 off t d r d) as (d' & E & HL' & Hc'); auto; try lia.
    { intros j Hj. destruct (Z.ltb_spec j 0); [lia|reflexivity]. }
    rewrite E. cbn [bind]. eexists; split; [reflexivity|]. split; assumption.
  - unfold ss_clear. rewrite wr_ok by lia. cbn [bind]. eexists; split; [reflexivity|]. split; [rewrite zlen_zupd; assumption|].
    destruct d; [cbn in Hd; unfold zlen in Hd; cbn in Hd; lia|]. reflexivity.
  - unfold view. rewrite Hc. cbn [bind]. eexists; split; [reflexivity|assumption].
  - unfold view. rewrite Hc. cbn [bind]. eexists; split; [reflexivity|assumption].
  - unfold view. rewrite Hc. cbn [bind]. eexists; split; [reflexivity|assumption].
  - unfold view. rewrite Hc. destruct (cstring mem) as [w|] eqn:Em; [|congruence]. cbn [bind]. rewrite sv_equal_ok.
    eexists; split; [reflexivity|assumption].
Qed.

(** A constructor works on uninitialised memory. *)
Lemma ss_construct raw c : 0 < cap -> zlen raw = cap + 1 -> is_ctor c -> sop_ok [] c ->
  exists d', ss_step cap raw c = Ok (d', snd (ss_spec cap [] c)) /\ SRel d' (fst (ss_spec cap [] c)).
Proof.
  intros Hc1 Hd Hi Ho. destruct c as [mem|l|off| | | | |mem]; cbn [is_ctor] in Hi; try contradiction; cbn [ss_step ss_spec sop_ok fst snd] in *.
  - destruct (cstring mem) as [w|] eqn:Em; [|congruence]. destruct (cstring_some _ _ Em) as (r & -> & HF).
    destruct (copy_c_ok w 0 r raw Hd) as (tail & E & HLn); [lia|assumption|]. rewrite E. cbn [bind].
    eexists; split; [reflexivity|]. replace (cap - 0) with cap by lia. change (Z.to_nat 0) with O in *. cbn [firstn app] in *.
    replace (cap - 0) with cap in HLn by lia. split; [assumption|]. unfold prefix_of. apply cstring_intro.
    clear - HF. revert HF. generalize (Z.to_nat cap). induction w as [|c w IH]; intros [|n] HF; cbn; auto. inversion HF; subst; constructor; auto.
  - destruct (copy_sv_ok l Hc1 0 raw Hd) as (tail & E & HLn); [lia|]. rewrite E. cbn [bind].
    eexists; split; [reflexivity|]. replace (cap - 0) with cap in * by lia. change (Z.to_nat 0) with O in *. cbn [firstn app] in *.
    split; [assumption|]. unfold prefix_of. apply cstring_until.
  - unfold ss_clear. rewrite wr_ok by lia. cbn [bind]. eexists; split; [reflexivity|]. split; [rewrite zlen_zupd; assumption|].
    destruct raw; [unfold zlen in Hd; cbn in Hd; lia|]. reflexivity.
Qed.

Lemma ss_run raw c ops : 0 < cap -> zlen raw = cap + 1 -> is_ctor c ->
  guarded (ss_spec cap) sop_ok [] (c :: ops) ->
  exists d' t junk, run (ss_step cap) raw (c :: ops) = Ok (d', snd (srun (ss_spec cap) [] (c :: ops))) /\
    t = fst (srun (ss_spec cap) [] (c :: ops)) /\ d' = t ++ 0 :: junk /\ zlen d' = cap + 1 /\ zlen t <= cap.
Proof.
  intros Hc1 Hr Hi [Ho HG]. destruct (ss_construct raw c Hc1 Hr Hi Ho) as (d0 & E0 & R0). cbn [run srun]. rewrite E0. cbn [bind].
  destruct (ss_spec cap [] c) as [t0 r0] eqn:Es. cbn [fst snd] in *.
  destruct (run_refines_guarded (ss_step cap) (ss_spec cap) sop_ok SRel) with (ops := ops) (s := d0) (q := t0) as (d' & E & HR); auto.
  { intros; apply ss_refines; assumption. }
  rewrite E. cbn [bind]. destruct (srun (ss_spec cap) t0 ops) as [t1 rs]. cbn [fst snd] in *.
  pose proof (srel_len _ _ HR). pose proof HR as (HL & Hc).
  destruct (cstring_some _ _ Hc) as (r & Ed & _). exists d', t1, r. splits; auto; lia.
Qed.
End SS.

(** capacity 0: the string_view overload *)
Lemma zero_cap_sv c l : copy_sv 0 0 (c :: l) [0] = UB OutOfBounds.
Proof. reflexivity. Qed.
Lemma zero_cap_c mem : cstring mem <> None -> copy_c 0 0 mem [0] = Ok [0].
Proof. destruct mem as [|c m]; [intros H; exfalso; apply H; reflexivity|]. intros _. cbn. rewrite andb_false_r. reflexivity. Qed.
