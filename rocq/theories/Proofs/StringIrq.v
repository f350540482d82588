From Verif.Common Require Import Base Lemmas Lists.
From Verif.Spec Require Import StaticStringSpec StringIrqSpec.
From Verif.Model Require Import StaticString Irq StringIrq.
From Verif.Proofs Require Import StaticString Irq Readers CircularMix.

Lemma until_nonul t : Forall (fun c => c <> 0) t -> until_nul t = t.
Proof. induction 1 as [|c t H _ IH]; [reflexivity|]. cbn. destruct (Z.eqb_spec c 0); [contradiction|]. rewrite IH. reflexivity. Qed.
Lemma Forall_firstn' {A} (Q : A -> Prop) n l : Forall Q l -> Forall Q (firstn n l).
Proof. intros H. rewrite <- (firstn_skipn n l) in H. apply Forall_app in H. apply H. Qed.
Lemma Forall_skipn' {A} (Q : A -> Prop) n l : Forall Q l -> Forall Q (skipn n l).
Proof. intros H. rewrite <- (firstn_skipn n l) in H. apply Forall_app in H. apply H. Qed.
Section SI.
Variable cap : Z.
Hypothesis Hcap : 0 < cap.
Notation step := (ss_step cap).
Definition sspec (t : option (list Z)) (o : sop) (r : sout) (t' : option (list Z)) : Prop := exists x, t = Some x /\ t' = Some x /\ r = snd (ss_spec cap x o).
(* the last character is NUL *)
Definition closed (d : list Z) : Prop := zlen d = cap + 1 /\ znth d cap = Some 0.
Lemma has_nul d i : 0 <= i -> znth d i = Some 0 -> exists t, cstring d = Some t /\ zlen t <= i.
Proof using.
  revert i. induction d as [|c d IH]; intros i Hi H; [rewrite znth_nil in H; discriminate|]. cbn. destruct (Z.eqb_spec c 0); [exists []; split; [reflexivity|unfold zlen; cbn; lia]|].
  rewrite znth_cons in H. destruct (Z.eqb_spec i 0); [congruence|]. replace (i <? 0) with false in H by lia. destruct (IH (i - 1) ltac:(lia) H) as (t & -> & Ht). exists (c :: t). split; [reflexivity|]. rewrite zlen_cons. lia.
Qed.
Lemma reads_one d t o : zlen d = cap + 1 -> cstring d = Some t -> s_reads o -> step d o = Ok (d, snd (ss_spec cap t o)).
Proof using Hcap.
  intros Hd Ht Ho. destruct (ss_refines cap (Z.lt_le_incl _ _ Hcap) d t o Hcap (conj Hd Ht)) as (d' & E & _); [destruct o; cbn in *; try contradiction; auto|]. rewrite E. do 2 f_equal.
  destruct o; cbn in Ho; try contradiction; cbn [ss_step] in E; unfold view in E; rewrite Ht in E; cbn [bind] in E; try (injection E as <-; reflexivity).
  destruct (cstring mem); cbn [bind] in E; [injection E as <- _; reflexivity|discriminate E].
Qed.
Lemma slooks d o : closed d -> s_reads o -> exists r, step d o = Ok (d, r) /\ sspec (cstring d) o r (cstring d).
Proof using Hcap.
  intros [H1 H2] Ho. destruct (has_nul d cap ltac:(lia) H2) as (t & Ht & _). exists (snd (ss_spec cap t o)). split; [apply reads_one; auto|]. exists t. auto.
Qed.

Section Copy.
Variables (d0 w : list Z).
Hypotheses (Hd0 : closed d0) (Hw : zlen w <= cap).
Definition part (j : Z) : list Z := firstn (Z.to_nat j) w ++ skipn (Z.to_nat j) d0.
Definition sj (d : list Z) : Prop := closed d /\ exists t, cstring d = Some t /\ shows d0 w t.
Notation thr Post := (through step s_reads sj Post).
Lemma part_nth j i : 0 <= j <= zlen w -> 0 <= i -> znth (part j) i = if i <? j then znth w i else znth d0 i.
Proof using.
  intros Hj Hi. unfold part. rewrite znth_app, zlen_firstn by lia. destruct (Z.ltb_spec i j).
  - rewrite znth_firstn_if. replace (i <? j) with true by lia. reflexivity.
  - rewrite znth_skipn by lia. f_equal. lia.
Qed.
Lemma part_len j : 0 <= j <= zlen w -> zlen (part j) = cap + 1.
Proof using Hd0 Hw. intros Hj. destruct Hd0 as [H1 _]. unfold part. rewrite zlen_app, zlen_firstn, zlen_skipn_max by lia. lia. Qed.
Lemma part_closed j : 0 <= j <= zlen w -> closed (part j).
Proof using Hcap Hd0 Hw. intros Hj. split; [apply part_len; exact Hj|]. rewrite part_nth by lia. destruct Hd0 as [_ H2]. destruct (Z.ltb_spec cap j); [lia|exact H2]. Qed.
Lemma part_sj j : 0 <= j <= zlen w -> sj (part j).
Proof using Hcap Hd0 Hw.
  intros Hj. pose proof (part_closed j Hj) as Hc. split; [exact Hc|]. destruct (has_nul (part j) cap ltac:(lia) (proj2 Hc)) as (t & Ht & _). exists t. split; [exact Ht|]. right. exists j. auto.
Qed.
Lemma part_store j c : 0 <= j < zlen w -> znth w j = Some c -> zupd (part j) j c = part (j + 1).
Proof using Hd0 Hw.
  intros Hj Hc. apply znth_opt_ext. intros i Hi. rewrite znth_zupd, !part_nth, part_len by lia. destruct (Z.eqb_spec j i) as [->|].
  - replace (true && (0 <=? i) && (i <? cap + 1)) with true by lia. replace (i <? i + 1) with true by lia. auto.
  - cbn [andb]. destruct (Z.ltb_spec i j), (Z.ltb_spec i (j + 1)); try lia; reflexivity.
Qed.
Definition final : list Z := zupd (part (zlen w)) (zlen w) 0.
Lemma final_nth i : 0 <= i -> znth final i = if i <? zlen w then znth w i else if i =? zlen w then Some 0 else znth d0 i.
Proof using Hd0 Hw.
  intros Hi. pose proof (zlen_nonneg w). unfold final. rewrite znth_zupd, part_nth, part_len by lia. destruct (Z.eqb_spec (zlen w) i) as [<-|].
  - replace (true && (0 <=? zlen w) && (zlen w <? cap + 1)) with true by lia. replace (zlen w <? zlen w) with false by lia. rewrite Z.eqb_refl. reflexivity.
  - cbn [andb]. destruct (Z.ltb_spec i (zlen w)); [reflexivity|]. replace (i =? zlen w) with false by lia. reflexivity.
Qed.
Lemma final_form : exists r, final = w ++ 0 :: r.
Proof using Hd0 Hw.
  exists (skipn (Z.to_nat (zlen w + 1)) d0). pose proof (zlen_nonneg w). apply znth_opt_ext. intros i Hi. rewrite final_nth, znth_app, znth_cons by lia. destruct (Z.ltb_spec i (zlen w)); [reflexivity|].
  destruct (Z.eqb_spec i (zlen w)), (Z.eqb_spec (i - zlen w) 0); try lia; [reflexivity|]. replace (i - zlen w <? 0) with false by lia. rewrite znth_skipn by lia. f_equal. lia.
Qed.
Lemma final_sj : sj final /\ cstring final = Some (until_nul w).
Proof using Hcap Hd0 Hw.
  destruct final_form as (r & E). assert (X : cstring final = Some (until_nul w)) by (rewrite E; apply cstring_until). split; [|exact X]. split; [split|].
  - unfold final. rewrite zlen_zupd. apply part_len. pose proof (zlen_nonneg w). lia.
  - rewrite final_nth by lia. destruct Hd0 as [_ H2]. destruct (Z.ltb_spec cap (zlen w)); [lia|]. destruct (cap =? zlen w); auto.
  - exists (until_nul w). split; [exact X|]. left. reflexivity.
Qed.
Definition done (d : list Z) (r : sout) : Prop := d = final /\ r = SoUnit.
Lemma thr_store (Post : list Z -> sout -> Prop) i c k d : sj d -> 0 <= i <= cap -> thr Post k (zupd d i c) -> thr Post (store_c i c k) d.
Proof using Hcap.
  intros Hj Hi Hk. eapply through_acc; [exact slooks|apply Hj|exact Hj|cbn; rewrite wr_ok by (destruct Hj as [[? ?] _]; lia); reflexivity|exact Hk].
Qed.
Lemma thr_load (Post : list Z -> sout -> Prop) i c k d : sj d -> znth d i = Some c -> thr Post (k c) d -> thr Post (load_c i k) d.
Proof using Hcap. intros Hj Hi Hk. eapply through_acc; [exact slooks|apply Hj|exact Hj|cbn; rewrite (rd_ok _ _ _ Hi); reflexivity|exact Hk]. Qed.
Lemma thr_end : thr done (store_c (zlen w) 0 (Ret SoUnit)) (part (zlen w)).
Proof using Hcap Hd0 Hw.
  pose proof (zlen_nonneg w). apply thr_store; [apply part_sj; lia|lia|]. fold final. eapply through_ret; [exact slooks|apply final_sj|apply final_sj|split; reflexivity].
Qed.
Lemma thr_c t r : w = prefix_of cap t -> Forall (fun c => c <> 0) t -> forall n j, 0 <= j <= zlen w -> (n = length (skipn (Z.to_nat j) t))%nat -> thr done (copy_c_prog cap j (skipn (Z.to_nat j) t ++ 0 :: r)) (part j).
Proof using Hcap Hd0 Hw.
  intros Ew HF. induction n as [|n IH]; intros j Hj Hn.
  - assert (Hl : zlen t <= j). { rewrite skipn_length in Hn. unfold zlen. lia. }
    destruct (skipn (Z.to_nat j) t) eqn:Es; [|discriminate Hn]. cbn. assert (j = zlen w); [|subst j; apply thr_end].
    unfold prefix_of in Ew. pose proof (f_equal zlen Ew) as El. rewrite zlen_firstn_min in El by lia. lia.
  - assert (Hl : j < zlen t). { rewrite skipn_length in Hn. unfold zlen. lia. } destruct (znth_some t j) as [c Hc]; [lia|].
    assert (Es : skipn (Z.to_nat j) t = c :: skipn (Z.to_nat (j + 1)) t).
    { apply znth_opt_ext. intros i Hi. rewrite znth_cons, !znth_skipn by lia. destruct (Z.eqb_spec i 0) as [->|]; [rewrite Z.add_0_r; exact Hc|]. replace (i <? 0) with false by lia. rewrite znth_skipn by lia. f_equal. lia. }
    rewrite Es. cbn [copy_c_prog app]. assert (Hc0 : c <> 0) by (rewrite Forall_forall in HF; apply HF; eapply znth_In; exact Hc). replace (c =? 0) with false by lia. cbn [negb andb].
    pose proof (f_equal zlen Ew) as El. unfold prefix_of in El. rewrite zlen_firstn_min in El by lia. destruct (Z.ltb_spec j cap) as [Hj1|Hj1].
    + assert (Hw1 : znth w j = Some c) by (rewrite Ew; unfold prefix_of; rewrite znth_firstn_if; replace (j <? cap) with true by lia; exact Hc).
      apply thr_store; [apply part_sj; lia|lia|]. rewrite (part_store j c) by (auto; lia). apply IH; [lia|]. rewrite Es in Hn. cbn in Hn. lia.
    + assert (j = zlen w) by lia. subst j. apply thr_end.
Qed.
Lemma thr_sv l : w = prefix_of cap l -> forall n j, 0 <= j <= zlen w -> j < cap -> (n = length (skipn (Z.to_nat j) l))%nat -> thr done (copy_sv_prog cap j (skipn (Z.to_nat j) l)) (part j).
Proof using Hcap Hd0 Hw.
  intros Ew. induction n as [|n IH]; intros j Hj Hj1 Hn.
  - assert (Hl : zlen l <= j). { rewrite skipn_length in Hn. unfold zlen. lia. }
    destruct (skipn (Z.to_nat j) l) eqn:Es; [|discriminate Hn]. cbn. assert (j = zlen w); [|subst j; apply thr_end].
    unfold prefix_of in Ew. pose proof (f_equal zlen Ew) as El. rewrite zlen_firstn_min in El by lia. lia.
  - assert (Hl : j < zlen l). { rewrite skipn_length in Hn. unfold zlen. lia. } destruct (znth_some l j) as [c Hc]; [lia|].
    assert (Es : skipn (Z.to_nat j) l = c :: skipn (Z.to_nat (j + 1)) l).
    { apply znth_opt_ext. intros i Hi. rewrite znth_cons, !znth_skipn by lia. destruct (Z.eqb_spec i 0) as [->|]; [rewrite Z.add_0_r; exact Hc|]. replace (i <? 0) with false by lia. rewrite znth_skipn by lia. f_equal. lia. }
    rewrite Es. cbn [copy_sv_prog]. cbn zeta. pose proof (f_equal zlen Ew) as El. unfold prefix_of in El. rewrite zlen_firstn_min in El by lia.
    assert (Hw1 : znth w j = Some c) by (rewrite Ew; unfold prefix_of; rewrite znth_firstn_if; replace (j <? cap) with true by lia; exact Hc).
    apply thr_store; [apply part_sj; lia|lia|]. rewrite (part_store j c) by (auto; lia). destruct (Z.geb_spec (j + 1) cap).
    + assert (j + 1 = zlen w) as -> by lia. apply thr_end.
    + apply IH; [lia|lia|]. rewrite Es in Hn. cbn in Hn. lia.
Qed.
Lemma thr_self t off r : d0 = t ++ 0 :: r -> Forall (fun c => c <> 0) t -> 0 <= off <= zlen t -> w = skipn (Z.to_nat off) t ->
  forall fuel j, 0 <= j <= zlen w -> zlen w - j < Z.of_nat fuel -> thr done (copy_self_prog cap fuel j off) (part j).
Proof using Hcap Hd0 Hw.
  intros Ed HF Ho Ew. assert (El : zlen w = zlen t - off) by (rewrite Ew, zlen_skipn_max by lia; lia).
  assert (Hd : forall i, znth d0 i = if i <? zlen t then znth t i else znth (0 :: r) (i - zlen t)) by (intros i; rewrite Ed, znth_app; reflexivity).
  induction fuel as [|fuel IH]; intros j Hj Hf; [lia|]. cbn [copy_self_prog].
  assert (L : znth (part j) (off + j) = znth d0 (off + j)).
  { rewrite part_nth by lia. destruct (Z.ltb_spec (off + j) j); [lia|reflexivity]. }
  destruct (Z.eq_dec j (zlen w)) as [->|Hn].
  - apply (thr_load _ _ 0); [apply part_sj; lia|rewrite L, Hd; replace (off + zlen w <? zlen t) with false by lia; replace (off + zlen w - zlen t) with 0 by lia; reflexivity|].
    cbn [Z.eqb negb andb]. apply thr_end.
  - destruct (znth_some t (off + j)) as [c Hc]; [lia|]. assert (Lc : znth (part j) (off + j) = Some c) by (rewrite L, Hd; replace (off + j <? zlen t) with true by lia; exact Hc).
    assert (Hc0 : c <> 0) by (rewrite Forall_forall in HF; apply HF; eapply znth_In; exact Hc).
    apply (thr_load _ _ c); [apply part_sj; lia|exact Lc|]. replace (c =? 0) with false by lia. cbn [negb andb]. replace (j <? cap) with true by lia.
    apply (thr_load _ _ c); [apply part_sj; lia|exact Lc|]. apply thr_store; [apply part_sj; lia|lia|].
    rewrite (part_store j c); [apply IH; lia|lia|]. rewrite Ew, znth_skipn by lia. exact Hc.
Qed.
End Copy.

Theorem copy_interrupted d t m gaps : zlen d = cap + 1 -> znth d cap = Some 0 -> cstring d = Some t -> ~ s_reads m -> sop_ok t m -> Forall s_reads (concat gaps) ->
  exists d' q, iexec step (s_main cap m) d gaps = Ok (d', SoUnit, q) /\ zlen d' = cap + 1 /\ znth d' cap = Some 0 /\ cstring d' = Some (fst (ss_spec cap t m)) /\
    Forall2 (fun o r => exists x, shows d (s_stores cap t m) x /\ r = snd (ss_spec cap x o)) (concat gaps) q.
Proof using Hcap.
  intros H1 H2 Ht Hm Ho HG. assert (Hd : closed d) by (split; auto). set (w := s_stores cap t m).
  assert (Hl : zlen t <= cap). { destruct (cstring_some _ _ Ht) as (r & E & _). rewrite E, zlen_app, zlen_cons in H1. pose proof (zlen_nonneg r). lia. }
  assert (Hw : zlen w <= cap).
  { unfold w, s_stores, prefix_of. destruct m; try (unfold zlen; cbn; lia); [destruct (cstring mem); [rewrite zlen_firstn_min by lia; lia|unfold zlen; cbn; lia]|rewrite zlen_firstn_min by lia; lia|].
    cbn in Ho. rewrite zlen_skipn_max by lia. lia. }
  assert (P0 : part d w 0 = d) by (unfold part; cbn; reflexivity).
  assert (X : through step s_reads (sj d w) (done d w) (s_main cap m) d).
  { rewrite <- P0 at 3. pose proof (zlen_nonneg w). destruct m as [mem|l|off| | | | |mem]; cbn [s_main]; try (exfalso; apply Hm; exact I); cbn [sop_ok] in Ho.
    - destruct (cstring mem) as [x|] eqn:Ex; [|contradiction]. destruct (cstring_some _ _ Ex) as (r & -> & HF). apply (thr_c d w Hd Hw x r) with (j := 0) (n := length x); [unfold w, s_stores; rewrite Ex; reflexivity|exact HF|lia|reflexivity].
    - apply (thr_sv d w Hd Hw l) with (j := 0) (n := length l); [reflexivity|lia|lia|reflexivity].
    - destruct (cstring_some _ _ Ht) as (r & E & HF). apply (thr_self d w Hd Hw t off r); auto; lia.
    - change 0 with (zlen w) at 1. change 0 with (zlen w) at 2. apply thr_end; auto.
    - exfalso. exact (Hm Ho). }
  destruct (X gaps HG) as (d' & r & q & E & [-> ->] & Hq). destruct (final_sj d w Hd Hw) as [[Hc _] Ft]. exists (final d w), q. split; [exact E|]. split; [apply Hc|]. split; [apply Hc|]. split.
  - rewrite Ft. f_equal. unfold w, s_stores. destruct m as [mem|l|off| | | | |mem]; cbn [ss_spec fst]; try reflexivity; try (exfalso; apply Hm; exact I); cbn [sop_ok] in Ho.
    + destruct (cstring mem) as [x|] eqn:Ex; [|contradiction]. destruct (cstring_some _ _ Ex) as (r & _ & HF). apply until_nonul. unfold prefix_of. apply Forall_firstn'. exact HF.
    + destruct (cstring_some _ _ Ht) as (r & _ & HF). apply until_nonul. apply Forall_skipn'. exact HF.
    + exfalso. exact (Hm Ho).
  - clear - Hcap Hq HG. induction Hq as [|o r os q Ho Hq IH]; constructor.
    + destruct Ho as (d1 & ([Hc _] & x & Hx & Hs) & E). exists x. split; [exact Hs|]. rewrite (reads_one d1 x o Hc Hx) in E by (inversion HG; assumption). congruence.
    + apply IH. inversion HG; assumption.
Qed.

(* ---- the main program reads, the handler writes ---- *)
Definition ends_at (i : Z) (d : list Z) : Prop := zlen d = cap + 1 /\ exists p, i <= p /\ znth d p = Some 0.
Lemma upd_after (d : list Z) p j c : j > p -> znth (zupd d p c) j = znth d j.
Proof using. intros. rewrite znth_zupd. replace (p =? j) with false by lia. reflexivity. Qed.
Lemma upd_at (d : list Z) p c : 0 <= p < zlen d -> znth (zupd d p c) p = Some c.
Proof using. intros. rewrite znth_zupd. replace ((p =? p) && (0 <=? p) && (p <? zlen d)) with true by lia. reflexivity. Qed.
Lemma copy_c_shape t r : Forall (fun c => c <> 0) t -> forall i d, zlen d = cap + 1 -> 0 <= i <= cap ->
  exists d' p, copy_c cap i (t ++ 0 :: r) d = Ok d' /\ zlen d' = cap + 1 /\ i <= p /\ znth d' p = Some 0 /\ forall j, p < j -> znth d' j = znth d j.
Proof using.
  induction 1 as [|c t Hc _ IH]; intros i d Hd Hi; cbn [app copy_c].
  - cbn [Z.eqb negb andb]. rewrite wr_ok by lia. exists (zupd d i 0), i. rewrite zlen_zupd. splits; auto; try lia; [apply upd_at; lia|intros; apply upd_after; lia].
  - replace (c =? 0) with false by lia. cbn [negb andb]. destruct (Z.ltb_spec i cap); rewrite wr_ok by lia; cbn [bind].
    + destruct (IH (i + 1) (zupd d i c)) as (d' & p & E & H1 & H2 & H3 & H4); [rewrite zlen_zupd; lia|lia|]. exists d', p. splits; auto; try lia. intros j Hj. rewrite H4 by lia. apply upd_after. lia.
    + exists (zupd d i 0), i. rewrite zlen_zupd. splits; auto; try lia; [apply upd_at; lia|intros; apply upd_after; lia].
Qed.
Lemma copy_sv_shape l : forall i d, zlen d = cap + 1 -> 0 <= i < cap ->
  exists d' p, copy_sv cap i l d = Ok d' /\ zlen d' = cap + 1 /\ i <= p /\ znth d' p = Some 0 /\ forall j, p < j -> znth d' j = znth d j.
Proof using.
  induction l as [|c l IH]; intros i d Hd Hi; cbn [copy_sv].
  - rewrite wr_ok by lia. exists (zupd d i 0), i. rewrite zlen_zupd. splits; auto; try lia; [apply upd_at; lia|intros; apply upd_after; lia].
  - rewrite wr_ok by lia. cbn [bind]. destruct (Z.geb_spec (i + 1) cap).
    + rewrite wr_ok by (rewrite zlen_zupd; lia). exists (zupd (zupd d i c) (i + 1) 0), (i + 1). rewrite !zlen_zupd. splits; auto; try lia; [apply upd_at; rewrite zlen_zupd; lia|intros; rewrite !upd_after by lia; reflexivity].
    + destruct (IH (i + 1) (zupd d i c)) as (d' & p & E & H1 & H2 & H3 & H4); [rewrite zlen_zupd; lia|lia|]. exists d', p. splits; auto; try lia. intros j Hj. rewrite H4 by lia. apply upd_after. lia.
Qed.
Lemma write_keeps i d o : s_writes o -> ends_at i d -> exists d' q, step d o = Ok (d', q) /\ ends_at i d'.
Proof using Hcap.
  intros Ho [Hd (p & Hp & Hz)].
  assert (K : forall d' p', zlen d' = cap + 1 -> znth d' p' = Some 0 -> (forall j, p' < j -> znth d' j = znth d j) -> ends_at i d').
  { intros d' p' H1 H2 H3. split; [exact H1|]. destruct (Z.le_gt_cases i p'); [exists p'; auto|]. exists p. split; [exact Hp|]. rewrite H3 by lia. exact Hz. }
  destruct o as [mem|l|off| | | | |mem]; cbn in Ho; try contradiction; cbn [ss_step].
  - destruct (cstring mem) as [x|] eqn:Ex; [|contradiction]. destruct (cstring_some _ _ Ex) as (r & -> & HF). destruct (copy_c_shape x r HF 0 d Hd ltac:(lia)) as (d' & p' & -> & H1 & _ & H2 & H3). cbn [bind]. eauto.
  - destruct (copy_sv_shape l 0 d Hd ltac:(lia)) as (d' & p' & -> & H1 & _ & H2 & H3). cbn [bind]. eauto.
  - unfold ss_clear. rewrite wr_ok by lia. cbn [bind]. do 2 eexists. split; [reflexivity|]. apply (K _ 0); [rewrite zlen_zupd; exact Hd|apply upd_at; lia|intros; apply upd_after; lia].
Qed.
Lemma writes_keep i os : Forall s_writes os -> forall d, ends_at i d -> exists d' q, run step d os = Ok (d', q) /\ ends_at i d'.
Proof using Hcap.
  induction 1 as [|o os Ho _ IH]; intros d Hd; cbn; [eauto|]. destruct (write_keeps i d o Ho Hd) as (d1 & q & -> & H1). destruct (IH d1 H1) as (d2 & qs & E & H2). cbn [bind]. rewrite E. cbn [bind]. eauto.
Qed.

Section Read.
Variables (dini : list Z) (ops : list sop).
Hypothesis Hops : Forall s_writes ops.
Definition moment (n : nat) (d : list Z) : Prop := exists q, run step dini (firstn n ops) = Ok (d, q).
Definition at_mom (n : nat) (d : list Z) : Prop := (n <= length ops)%nat /\ moment n d.
Fixpoint sofar (m0 : nat) (i : Z) (x : list Z) (m1 : nat) : Prop :=
  match x with [] => (m0 <= m1)%nat | c :: x' => exists m d, (m0 <= m)%nat /\ moment m d /\ znth d i = Some c /\ sofar m (i + 1) x' m1 end.
Lemma sofar_snoc x : forall m0 i m1 m2 c d, sofar m0 i x m1 -> (m1 <= m2)%nat -> moment m2 d -> znth d (i + zlen x) = Some c -> sofar m0 i (x ++ [c]) m2.
Proof using.
  induction x as [|y x IH]; intros m0 i m1 m2 c d H Hm M Hc; cbn [sofar app] in *.
  - exists m2, d. change (zlen []) with 0 in Hc. rewrite Z.add_0_r in Hc. splits; auto; lia.
  - destruct H as (m & d1 & H1 & H2 & H3 & H4). exists m, d1. splits; auto. eapply IH; eauto. rewrite zlen_cons in Hc. rewrite <- Hc. f_equal. lia.
Qed.
Lemma sofar_list x : forall m0 i m1, sofar m0 i x m1 -> exists ns, length ns = length x /\ (forall a b m n, (a <= b)%nat -> nth_error ns a = Some m -> nth_error ns b = Some n -> (m <= n)%nat) /\
  forall k n, nth_error ns k = Some n -> (m0 <= n)%nat /\ exists d, moment n d /\ znth d (i + Z.of_nat k) = Some (nth k x 0).
Proof using.
  induction x as [|c x IH]; intros m0 i m1 H; cbn in H.
  - exists []. splits; [reflexivity|intros [|a] b m n Hab Ha; discriminate Ha|intros [|k] n Ha; discriminate Ha].
  - destruct H as (m & d & H1 & H2 & H3 & H4). destruct (IH _ _ _ H4) as (ns & L & HS & HN). exists (m :: ns). splits; [cbn; lia| |].
    + intros [|a] [|b] p n Hab Hp Hn; cbn in *; [injection Hp as <-; injection Hn as <-; lia| |lia|apply (HS a b p n); auto; lia]. injection Hp as <-. apply (HN b n Hn).
    + intros [|k] n Hn; cbn in Hn.
      * injection Hn as <-. split; [exact H1|]. exists d. rewrite Z.add_0_r. auto.
      * destruct (HN k n Hn) as (Hm & d1 & M1 & Z1). split; [lia|]. exists d1. split; [exact M1|]. cbn [nth]. rewrite <- Z1. f_equal. lia.
Qed.
(* handler calls advance the moment *)
Lemma advance n d g rest : moment n d -> skipn n ops = g ++ rest -> (n <= length ops)%nat -> forall i, ends_at i d -> exists d' q, run step d g = Ok (d', q) /\ moment (n + length g) d' /\ ends_at i d' /\ skipn (n + length g) ops = rest /\ (n + length g <= length ops)%nat.
Proof using Hcap Hops.
  intros [q M] Es Hn i Hi. assert (HG : Forall s_writes g) by (pose proof (Forall_skipn' _ n _ Hops) as X; rewrite Es in X; apply Forall_app in X; apply X).
  destruct (writes_keep i g HG d Hi) as (d' & q' & E & H'). exists d', q'. assert (Lg : (n + length g <= length ops)%nat) by (pose proof (f_equal (@length _) Es) as L; rewrite skipn_length, app_length in L; lia). splits; auto.
  - exists (q ++ q'). assert (firstn (n + length g) ops = firstn n ops ++ g) as ->; [|eapply run_cat_ok; eassumption].
    rewrite <- (firstn_skipn n ops) at 1. rewrite firstn_app, firstn_length, Nat.min_l by lia. replace (n + length g - n)%nat with (length g) by lia. rewrite Es, firstn_app, Nat.sub_diag, firstn_all, firstn_O, app_nil_r. f_equal. rewrite firstn_firstn. f_equal. lia.
  - rewrite <- (firstn_skipn n ops) at 1. rewrite skipn_app, firstn_length, Nat.min_l by lia. replace (n + length g - n)%nat with (length g) by lia. rewrite Es, skipn_app, Nat.sub_diag, skipn_all, skipn_O, skipn_all2; [reflexivity|]. rewrite firstn_length. lia.
Qed.
(* a program that, whatever it meets, ends well *)
Definition goes (i : Z) (p : prog (list Z) sout) (n : nat) (Q : sout -> Prop) : Prop :=
  forall gaps d, (n <= length ops)%nat -> skipn n ops = concat gaps -> moment n d -> ends_at i d ->
    exists d' r q, iexec step p d gaps = Ok (d', r, q) /\ run step d (concat gaps) = Ok (d', q) /\ Q r.
Lemma goes_ret i r n (Q : sout -> Prop) : Q r -> goes i (Ret r) n Q.
Proof using Hcap Hops.
  intros HQ gaps d Hn Es M He. destruct (advance n d (concat gaps) [] M ltac:(rewrite app_nil_r; exact Es) Hn i He) as (d' & q & E & _). exists d', r, q. cbn. rewrite E. cbn. auto.
Qed.
Lemma goes_load i j k n Q : (forall m d c, (n <= m <= length ops)%nat -> moment m d -> ends_at i d -> znth d j = Some c -> exists i', ends_at i' d /\ goes i' (k c) m Q) -> 0 <= j <= cap -> goes i (load_c j k) n Q.
Proof using Hcap Hops.
  intros H Hj gaps d Hn Es M He. rewrite concat_hd in Es. destruct (advance n d _ _ M Es Hn i He) as (d1 & q1 & E1 & M1 & He1 & Es1 & Hn1).
  destruct (znth_some d1 j) as [c Hc]; [destruct He1; lia|]. destruct (H _ d1 c (conj (Nat.le_add_r _ _) Hn1) M1 He1 Hc) as (i' & He' & G). destruct (G (tl gaps) d1 Hn1 Es1 M1 He') as (d' & r & q2 & E2 & R2 & HQ).
  exists d', r, (q1 ++ q2). unfold load_c. cbn [iexec]. rewrite E1. cbn [bind]. rewrite (rd_ok _ _ _ Hc). cbn [bind]. rewrite E2. cbn [bind]. splits; auto. rewrite concat_hd. eapply run_cat_ok; eassumption.
Qed.
Lemma goes_scan (k : list Z -> prog (list Z) sout) Q : (forall x m, Forall (fun c => c <> 0) x -> sofar 0 0 (x ++ [0]) m -> zlen x <= cap -> (m <= length ops)%nat -> goes 0 (k x) m Q) ->
  forall fuel n seen, 0 <= zlen seen <= cap -> cap - zlen seen < Z.of_nat fuel -> sofar 0 0 (rev seen) n -> Forall (fun c => c <> 0) seen -> goes (zlen seen) (scan_prog fuel (zlen seen) seen k) n Q.
Proof using Hcap Hops.
  intros Hk. induction fuel as [|fuel IH]; intros n seen Hl Hf Hs HF; [lia|]. cbn [scan_prog]. apply goes_load; [|exact Hl].
  intros m d c Hm M [Hd (p & Hp & Hz)] Hc. assert (Lr : zlen (rev seen) = zlen seen) by (unfold zlen; rewrite rev_length; reflexivity). destruct (Z.eqb_spec c 0) as [->|Hc0].
  - exists 0. split; [split; [exact Hd|exists p; split; [lia|exact Hz]]|]. apply Hk; [apply Forall_rev; exact HF| |lia|lia]. eapply sofar_snoc; [exact Hs|lia|exact M|]. rewrite Lr. exact Hc.
  - assert (p <> zlen seen) by (intros ->; congruence). assert (p < cap + 1) by (destruct (znth_some_range _ _ _ Hz); lia). exists (zlen seen + 1). split; [split; [exact Hd|exists p; split; [lia|exact Hz]]|].
    replace (zlen seen + 1) with (zlen (c :: seen)) by (rewrite zlen_cons; lia). apply IH; [rewrite zlen_cons; lia|rewrite zlen_cons; lia| |constructor; auto].
    cbn [rev]. eapply sofar_snoc; [exact Hs|lia|exact M|]. rewrite Lr. exact Hc.
Qed.
Lemma sofar_reads x m : sofar 0 0 (x ++ [0]) m -> read_in_passing moment x.
Proof using.
  intros H. destruct (sofar_list _ _ _ _ H) as (ns & L & HS & HN). exists ns. rewrite app_length in L. cbn in L. splits; [lia|exact HS|]. intros i n Hi. destruct (HN i n Hi) as (_ & d & M & Z1). exists d. split; [exact M|]. cbn in Z1. rewrite Z1. f_equal.
  assert (i < length x + 1)%nat by (rewrite <- L; apply nth_error_Some; congruence). destruct (Nat.eq_dec i (length x)) as [->|]; [rewrite app_nth2 by lia; rewrite Nat.sub_diag, (nth_overflow x) by lia; reflexivity|apply app_nth1; lia].
Qed.
Lemma goes_equal (x u0 : list Z) : forall u pre n, u0 = pre ++ u -> zlen x = zlen u0 -> zlen u0 <= cap -> (forall i c, znth pre i = Some c -> stood moment i c) ->
  goes 0 (equal_prog u (zlen pre)) n (fun r => (r = SoBool true /\ zlen x = zlen u0 /\ forall i c, znth u0 i = Some c -> stood moment i c) \/
       (r = SoBool false /\ (zlen x <> zlen u0 \/ exists i c c', znth u0 i = Some c /\ stood moment i c' /\ c' <> c))).
Proof using Hcap Hops.
  induction u as [|y u IH]; intros pre n E Hx Hu Hp; cbn [equal_prog].
  - apply goes_ret. left. rewrite E, app_nil_r in *. auto.
  - pose proof (zlen_nonneg pre). pose proof (zlen_nonneg u). assert (Lu : zlen u0 = zlen pre + (zlen u + 1)) by (rewrite E, zlen_app, zlen_cons; lia). apply goes_load; [|lia]. intros m d c Hm M He Hc. exists 0. split; [exact He|]. destruct (Z.eqb_spec c y) as [->|Hn].
    + replace (zlen pre + 1) with (zlen (pre ++ [y])) by (rewrite zlen_app; reflexivity). apply IH; auto; [rewrite E, <- app_assoc; reflexivity|]. intros i c' Hi. rewrite znth_app in Hi. destruct (Z.ltb_spec i (zlen pre)); [apply Hp; exact Hi|].
      rewrite znth_cons in Hi. destruct (Z.eqb_spec (i - zlen pre) 0); [|destruct (i - zlen pre <? 0); [discriminate|rewrite znth_nil in Hi; discriminate]]. injection Hi as <-. replace i with (zlen pre) by lia. exists m, d. auto.
    + apply goes_ret. right. split; [reflexivity|]. right. exists (zlen pre), y, c. splits; [rewrite E, znth_app; replace (zlen pre <? zlen pre) with false by lia; rewrite Z.sub_diag; reflexivity|exists m, d; auto|exact Hn].
Qed.
Lemma goes_main m : s_reads m -> goes 0 (s_main cap m) 0 (fun r => exists x, Forall (fun c => c <> 0) x /\ zlen x <= cap /\ read_in_passing moment x /\ answers cap moment m x r).
Proof using Hcap Hops.
  intros Hm. destruct m as [mem|l|off| | | | |mem]; cbn in Hm; try contradiction; cbn [s_main]; unfold all_prog; apply (goes_scan _ _) with (seen := []); try (unfold zlen; cbn; lia); try (cbn; lia); try constructor; intros x m HF Hs Hl Hn.
  - apply goes_ret. exists x. splits; auto; [eapply sofar_reads; exact Hs|reflexivity].
  - apply goes_ret. exists x. splits; auto; [eapply sofar_reads; exact Hs|reflexivity].
  - apply goes_ret. exists x. splits; auto; [eapply sofar_reads; exact Hs|reflexivity].
  - destruct (cstring mem) as [u|] eqn:Eu; [|contradiction]. destruct (Z.eqb_spec (zlen x) (zlen u)) as [El|El].
    + intros gaps d Hn1 Es M He. destruct (goes_equal x u u [] m eq_refl El ltac:(lia) ltac:(intros i c Hi; rewrite znth_nil in Hi; discriminate) gaps d Hn1 Es M He) as (d' & r & q & E1 & E2 & H). exists d', r, q. splits; auto. exists x. splits; auto; [eapply sofar_reads; exact Hs|]. exists u. auto.
    + apply goes_ret. exists x. splits; auto; [eapply sofar_reads; exact Hs|]. exists u. auto.
Qed.
End Read.
Theorem read_interrupted d t m gaps : zlen d = cap + 1 -> cstring d = Some t -> s_reads m -> Forall s_writes (concat gaps) ->
  exists d' r q x, iexec step (s_main cap m) d gaps = Ok (d', r, q) /\ run step d (concat gaps) = Ok (d', q) /\
    Forall (fun c => c <> 0) x /\ zlen x <= cap /\ (let at_moment n e := exists q, run step d (firstn n (concat gaps)) = Ok (e, q) in read_in_passing at_moment x /\ answers cap at_moment m x r).
Proof using Hcap.
  intros Hd Ht Hm HG. destruct (cstring_some _ _ Ht) as (r0 & E0 & _).
  destruct (goes_main d (concat gaps) HG m Hm gaps d) as (d' & r & q & E1 & E2 & x & H1 & H2 & H3 & H4); [lia|reflexivity|exists []; reflexivity| |].
  - split; [exact Hd|]. exists (zlen t). split; [apply zlen_nonneg|]. rewrite E0, znth_app. replace (zlen t <? zlen t) with false by lia. rewrite Z.sub_diag. reflexivity.
  - exists d', r, q, x. splits; auto.
Qed.
End SI.

(* ---- what goes wrong ---- *)
Section Bad.
Variable cap : Z.
Hypothesis Hcap : 0 < cap.
Notation step := (ss_step cap).
Definition fill (d : list Z) (i : Z) (w : list Z) : list Z := firstn (Z.to_nat i) d ++ w ++ skipn (Z.to_nat (i + zlen w)) d.
Lemma fill_nil d i : 0 <= i -> fill d i [] = d.
Proof using. intros. unfold fill. change (zlen []) with 0. rewrite Z.add_0_r. apply firstn_skipn. Qed.
Lemma fill_nth d i w j : 0 <= i -> i + zlen w <= zlen d -> 0 <= j -> znth (fill d i w) j = if j <? i then znth d j else if j <? i + zlen w then znth w (j - i) else znth d j.
Proof using.
  intros Hi Hl Hj. pose proof (zlen_nonneg w). unfold fill. rewrite znth_app, zlen_firstn by lia. destruct (Z.ltb_spec j i).
  - rewrite znth_firstn_if. replace (j <? i) with true by lia. reflexivity.
  - rewrite znth_app. destruct (Z.ltb_spec (j - i) (zlen w)), (Z.ltb_spec j (i + zlen w)); try lia; [reflexivity|]. rewrite znth_skipn by lia. f_equal. lia.
Qed.
Lemma fill_cons d i c w : 0 <= i -> i + zlen w < zlen d -> fill (zupd d i c) (i + 1) w = fill d i (c :: w).
Proof using.
  intros Hi Hl. pose proof (zlen_nonneg w). apply znth_opt_ext. intros j Hj. rewrite !fill_nth, znth_zupd, znth_cons by (rewrite ?zlen_zupd, ?zlen_cons; lia). rewrite zlen_cons.
  destruct (Z.eqb_spec i j) as [->|].
  - replace (true && (0 <=? j) && (j <? zlen d)) with true by lia. replace (j <? j + 1) with true by lia. replace (j <? j) with false by lia. replace (j <? j + (zlen w + 1)) with true by lia. replace (j - j =? 0) with true by lia. reflexivity.
  - cbn [andb]. destruct (Z.ltb_spec j (i + 1)), (Z.ltb_spec j i); try lia; [reflexivity|]. destruct (Z.ltb_spec j (i + 1 + zlen w)), (Z.ltb_spec j (i + (zlen w + 1))); try lia; [|reflexivity].
    replace (j - i =? 0) with false by lia. replace (j - i <? 0) with false by lia. f_equal. lia.
Qed.
Lemma fill_len d i w : 0 <= i -> i + zlen w <= zlen d -> zlen (fill d i w) = zlen d.
Proof using. intros. pose proof (zlen_nonneg w). unfold fill. rewrite !zlen_app, zlen_firstn, zlen_skipn_max by lia. lia. Qed.
Lemma copy_exact r w : Forall (fun c => c <> 0) w -> forall i d, zlen d = cap + 1 -> 0 <= i -> i + zlen w <= cap ->
  copy_c cap i (w ++ 0 :: r) d = Ok (zupd (fill d i w) (i + zlen w) 0).
Proof using.
  induction 1 as [|c w Hc _ IH]; intros i d Hd Hi Hl; cbn [app copy_c].
  - cbn [Z.eqb negb andb]. rewrite fill_nil by lia. change (zlen []) with 0 in *. rewrite Z.add_0_r. apply wr_ok. lia.
  - rewrite zlen_cons in *. pose proof (zlen_nonneg w). replace (c =? 0) with false by lia. cbn [negb andb]. replace (i <? cap) with true by lia. rewrite wr_ok by lia. cbn [bind].
    rewrite IH by (rewrite ?zlen_zupd; lia). rewrite fill_cons by lia. do 2 f_equal. lia.
Qed.
Lemma copy_look r w : Forall (fun c => c <> 0) w -> forall i d, zlen d = cap + 1 -> 0 <= i -> i + zlen w <= cap ->
  iexec step (copy_c_prog cap i (w ++ 0 :: r)) d (repeat [] (length w) ++ [[SText]]) =
  (let* t := view (fill d i w) in Ok (zupd (fill d i w) (i + zlen w) 0, SoUnit, [SoText t])).
Proof using.
  induction 1 as [|c w Hc _ IH]; intros i d Hd Hi Hl; cbn [app copy_c_prog length repeat].
  - cbn [Z.eqb negb andb]. rewrite fill_nil by lia. change (zlen []) with 0 in *. rewrite Z.add_0_r. unfold store_c. cbn. destruct (view d) as [t|k|]; cbn [bind]; try reflexivity. rewrite wr_ok by lia. reflexivity.
  - rewrite zlen_cons in *. pose proof (zlen_nonneg w). replace (c =? 0) with false by lia. cbn [negb andb]. replace (i <? cap) with true by lia. unfold store_c. cbn [iexec hd tl run bind]. rewrite wr_ok by lia. cbn [bind].
    rewrite IH by (rewrite ?zlen_zupd; lia). rewrite fill_cons by lia. replace (i + 1 + zlen w) with (i + (zlen w + 1)) by lia. destruct (view _) as [t|k|]; reflexivity.
Qed.
Lemma concat_quiet {A} n (l : list (list A)) : concat (repeat [] n ++ l) = concat l.
Proof using. induction n; auto. Qed.
(* old text shows through *)
Theorem stale raw a b c : zlen raw = cap + 1 -> Forall (fun x => x <> 0) a -> Forall (fun x => x <> 0) b -> Forall (fun x => x <> 0) c -> zlen b < zlen c -> zlen c <= zlen a -> zlen a <= cap ->
  exists d q gaps d', run step raw [SCopyC (a ++ [0]); SCopyC (b ++ [0])] = Ok (d, q) /\ cstring d = Some b /\ concat gaps = [SText] /\
    iexec step (s_main cap (SCopyC (c ++ [0]))) d gaps = Ok (d', SoUnit, [SoText (c ++ skipn (Z.to_nat (zlen c)) a)]) /\ cstring d' = Some c.
Proof using Hcap.
  intros Hr Ha Hb Hc L1 L2 L3. pose proof (zlen_nonneg b). cbn [run ss_step]. rewrite (copy_exact [] a Ha) by lia. cbn [bind]. set (d1 := zupd (fill raw 0 a) (0 + zlen a) 0).
  assert (D1 : zlen d1 = cap + 1) by (unfold d1; rewrite zlen_zupd, fill_len by lia; lia).
  rewrite (copy_exact [] b Hb) by lia. cbn [bind]. set (d2 := zupd (fill d1 0 b) (0 + zlen b) 0). assert (D2 : zlen d2 = cap + 1) by (unfold d2; rewrite zlen_zupd, fill_len by lia; lia).
  assert (N1 : forall i, 0 <= i -> znth d1 i = if i <? zlen a then znth a i else if i =? zlen a then Some 0 else znth raw i).
  { intros i Hi. unfold d1. rewrite znth_zupd, fill_len by lia. destruct (Z.eqb_spec (0 + zlen a) i) as [E|].
    - replace (true && (0 <=? 0 + zlen a) && (0 + zlen a <? zlen raw)) with true by lia. replace (i <? zlen a) with false by lia. replace (i =? zlen a) with true by lia. reflexivity.
    - cbn [andb]. unfold fill. cbn [Z.to_nat firstn app]. rewrite znth_app. destruct (Z.ltb_spec i (zlen a)); [reflexivity|]. rewrite znth_skipn by lia. replace (i =? zlen a) with false by lia. f_equal. lia. }
  assert (N2 : forall i, zlen b < i -> znth d2 i = znth d1 i).
  { intros i Hi. unfold d2. rewrite znth_zupd. replace (0 + zlen b =? i) with false by lia. cbn [andb]. unfold fill. cbn [Z.to_nat firstn app]. rewrite znth_app. replace (i <? zlen b) with false by lia. rewrite znth_skipn by lia. f_equal. lia. }
  assert (E2 : d2 = b ++ 0 :: skipn (Z.to_nat (zlen b + 1)) d1).
  { apply znth_opt_ext. intros i Hi. unfold d2. rewrite znth_zupd, fill_len by lia. unfold fill. cbn [Z.to_nat firstn app]. rewrite !znth_app, znth_cons. destruct (Z.eqb_spec (0 + zlen b) i), (Z.ltb_spec i (zlen b)), (Z.eqb_spec (i - zlen b) 0); try lia; cbn [andb]; try reflexivity.
    - replace ((0 <=? 0 + zlen b) && (0 + zlen b <? zlen d1)) with true by lia. reflexivity.
    - replace (i - zlen b <? 0) with false by lia. rewrite !znth_skipn by lia. f_equal. lia. }
  assert (E3 : fill d2 0 c = (c ++ skipn (Z.to_nat (zlen c)) a) ++ 0 :: skipn (Z.to_nat (zlen a + 1)) raw).
  { apply znth_opt_ext. intros i Hi. unfold fill. cbn [Z.to_nat firstn app]. rewrite znth_app. destruct (Z.ltb_spec i (zlen c)) as [Hic|Hic].
    - rewrite <- app_assoc, znth_app. replace (i <? zlen c) with true by lia. reflexivity.
    - rewrite znth_skipn by lia. replace (0 + zlen c + (i - zlen c)) with i by lia. rewrite N2, N1 by lia. rewrite znth_app, zlen_app, zlen_skipn_max by lia. replace (zlen c + Z.max 0 (zlen a - zlen c)) with (zlen a) by lia.
      destruct (Z.ltb_spec i (zlen a)).
      + rewrite znth_app. replace (i <? zlen c) with false by lia. rewrite znth_skipn by lia. f_equal. lia.
      + rewrite znth_cons. destruct (Z.eqb_spec i (zlen a)), (Z.eqb_spec (i - zlen a) 0); try lia; [reflexivity|]. replace (i - zlen a <? 0) with false by lia. rewrite znth_skipn by lia. f_equal. lia. }
  exists d2, [SoUnit; SoUnit], (repeat [] (length c) ++ [[SText]]), (zupd (fill d2 0 c) (0 + zlen c) 0). splits.
  - reflexivity.
  - rewrite E2. apply cstring_intro. exact Hb.
  - rewrite concat_quiet. reflexivity.
  - cbn [s_main]. rewrite (copy_look [] c Hc) by lia. rewrite E3. unfold view. rewrite cstring_intro; [reflexivity|]. apply Forall_app. split; [exact Hc|apply Forall_skipn'; exact Ha].
  - assert (zupd (fill d2 0 c) (0 + zlen c) 0 = c ++ 0 :: skipn (Z.to_nat (zlen c + 1)) d2) as ->; [|apply cstring_intro; exact Hc].
    apply znth_opt_ext. intros i Hi. rewrite znth_zupd, fill_len by lia. unfold fill. cbn [Z.to_nat firstn app]. rewrite !znth_app, znth_cons. destruct (Z.eqb_spec (0 + zlen c) i), (Z.ltb_spec i (zlen c)), (Z.eqb_spec (i - zlen c) 0); try lia; cbn [andb]; try reflexivity.
    + replace ((0 <=? 0 + zlen c) && (0 + zlen c <? zlen d2)) with true by lia. reflexivity.
    + replace (i - zlen c <? 0) with false by lia. rewrite !znth_skipn by lia. f_equal. lia.
Qed.
Lemma cstring_none l : Forall (fun x => x <> 0) l -> cstring l = None.
Proof using. induction 1 as [|c l Hc _ IH]; [reflexivity|]. cbn. replace (c =? 0) with false by lia. rewrite IH. reflexivity. Qed.
(* the terminator is lost on memory that was not zeroed *)
Theorem unterminated raw w : zlen raw = cap + 1 -> Forall (fun x => x <> 0) raw -> Forall (fun x => x <> 0) w -> 0 < zlen w <= cap ->
  exists d q gaps, run step raw [SClear] = Ok (d, q) /\ cstring d = Some [] /\ concat gaps = [SText] /\
    iexec step (s_main cap (SCopyC (w ++ [0]))) d gaps = UB OutOfBounds.
Proof using Hcap.
  intros Hr Hz Hw Hl. destruct raw as [|x raw]; [change (zlen []) with 0 in Hr; lia|]. exists (0 :: raw), [SoUnit], (repeat [] (length w) ++ [[SText]]). splits; try reflexivity.
  - rewrite concat_quiet. reflexivity.
  - cbn [s_main]. rewrite (copy_look [] w Hw) by (rewrite ?zlen_cons in *; lia). unfold view. rewrite cstring_none; [reflexivity|]. unfold fill. cbn [Z.to_nat firstn app]. apply Forall_app. split; [exact Hw|].
    replace (Z.to_nat (0 + zlen w)) with (S (Z.to_nat (zlen w - 1))) by lia. cbn [skipn]. apply Forall_skipn'. inversion Hz; assumption.
Qed.
(* a text read while the handler replaces it *)
Lemma rewrap {A B} (X : outcome (A * list B)) : (let* (a, q) := X in Ok (a, [] ++ q)) = X.
Proof using. destruct X as [[a q]|k|]; reflexivity. Qed.
Lemma scan_quiet x : Forall (fun c => c <> 0) x -> forall fuel i seen k d gaps, (forall j, 0 <= j < zlen x -> znth d (i + j) = znth x j) ->
  iexec step (scan_prog (length x + fuel) i seen k) d (repeat [] (length x) ++ gaps) = iexec step (scan_prog fuel (i + zlen x) (rev x ++ seen) k) d gaps.
Proof using.
  induction 1 as [|c x Hc _ IH]; intros fuel i seen k d gaps Hx.
  - change (zlen []) with 0. rewrite Z.add_0_r. reflexivity.
  - pose proof (zlen_nonneg x). cbn [length plus scan_prog repeat app]. unfold load_c at 1. cbn [iexec hd tl run bind]. pose proof (Hx 0 ltac:(rewrite zlen_cons; lia)) as H0. rewrite Z.add_0_r in H0. cbn in H0. rewrite (rd_ok _ _ _ H0). cbn [bind]. replace (c =? 0) with false by lia. rewrite rewrap, IH.
    + rewrite zlen_cons. cbn [rev]. rewrite <- app_assoc. cbn [app]. f_equal. f_equal. lia.
    + intros j Hj. specialize (Hx (j + 1)). rewrite zlen_cons in Hx. rewrite znth_cons in Hx. replace (j + 1 =? 0) with false in Hx by lia. replace (j + 1 <? 0) with false in Hx by lia. replace (j + 1 - 1) with j in Hx by lia. rewrite <- Hx by lia. f_equal. lia.
Qed.
Theorem torn d t u j : zlen d = cap + 1 -> cstring d = Some t -> Forall (fun x => x <> 0) u -> zlen u = zlen t -> 0 <= j <= zlen t ->
  exists gaps d', concat gaps = [SCopyC (u ++ [0])] /\ iexec step (s_main cap SText) d gaps = Ok (d', SoText (firstn (Z.to_nat j) t ++ skipn (Z.to_nat j) u), [SoUnit]) /\ cstring d' = Some u.
Proof using Hcap.
  intros Hd Ht Hu L Hj. destruct (cstring_some _ _ Ht) as (r & E & HF). assert (Ll : zlen t <= cap) by (rewrite E, zlen_app, zlen_cons in Hd; pose proof (zlen_nonneg r); lia).
  assert (E1 : copy_c cap 0 (u ++ [0]) d = Ok (u ++ 0 :: r)).
  { rewrite (copy_exact [] u Hu) by lia. f_equal. apply znth_opt_ext. intros i Hi. rewrite znth_zupd, fill_len by lia. unfold fill. cbn [Z.to_nat firstn app]. rewrite !znth_app, znth_cons. destruct (Z.eqb_spec (0 + zlen u) i), (Z.ltb_spec i (zlen u)), (Z.eqb_spec (i - zlen u) 0); try lia; cbn [andb]; try reflexivity.
    + replace ((0 <=? 0 + zlen u) && (0 + zlen u <? zlen d)) with true by lia. reflexivity.
    + replace (i - zlen u <? 0) with false by lia. rewrite !znth_skipn by lia. rewrite E, znth_app. replace (0 + zlen u + (i - zlen u) <? zlen t) with false by lia. rewrite znth_cons. replace (0 + zlen u + (i - zlen u) - zlen t =? 0) with false by lia. replace (0 + zlen u + (i - zlen u) - zlen t <? 0) with false by lia. f_equal. lia. }
  set (x := firstn (Z.to_nat j) t). set (y := skipn (Z.to_nat j) u). assert (Lx : zlen x = j) by (unfold x; rewrite zlen_firstn by lia; lia). assert (Ly : zlen y = zlen t - j) by (unfold y; rewrite zlen_skipn_max by lia; lia).
  exists (repeat [] (length x) ++ [SCopyC (u ++ [0])] :: repeat [] (length y)), (u ++ 0 :: r). splits.
  - rewrite concat_quiet. cbn [concat app]. rewrite <- (app_nil_r (repeat _ _)), concat_quiet. reflexivity.
  - cbn [s_main]. unfold all_prog. assert (F : exists f, S (S (Z.to_nat cap)) = (length x + (length y + S f))%nat). { exists (S (Z.to_nat cap) - length x - length y)%nat. unfold zlen in *. lia. } destruct F as (f & ->).
    rewrite scan_quiet.
    + rewrite Lx. set (sn := rev x ++ []). assert (G : forall p g, iexec step (scan_prog (length y + S f) (0 + j) sn p) d ([SCopyC (u ++ [0])] :: g) =
        let* (a, q) := iexec step (scan_prog (length y + S f) (0 + j) sn p) (u ++ 0 :: r) ([] :: g) in Ok (a, SoUnit :: q)).
      { intros p g. replace (length y + S f)%nat with (S (length y + f)) by lia. cbn [scan_prog]. unfold load_c. cbn [iexec hd tl run ss_step bind]. rewrite E1. cbn [bind]. destruct (rd (u ++ 0 :: r) (0 + j)) as [c|k|]; cbn [bind]; try reflexivity. destruct (iexec _ _ _ g) as [[a q]|k|]; reflexivity. }
      rewrite G. clear G. replace ([] :: repeat [] (length y)) with (repeat (@nil sop) (length y) ++ [[]]); [|change ([] :: repeat [] (length y)) with (repeat (@nil sop) (S (length y))); rewrite <- repeat_cons; reflexivity].
      rewrite scan_quiet.
      * cbn [scan_prog]. unfold load_c. cbn [iexec hd tl run bind]. rewrite (rd_ok _ _ 0); [|rewrite znth_app; replace (0 + j + zlen y <? zlen u) with false by lia; replace (0 + j + zlen y - zlen u) with 0 by lia; reflexivity].
        cbn [bind Z.eqb iexec concat run app]. do 2 f_equal. unfold sn. rewrite app_nil_r, rev_app_distr, !rev_involutive. reflexivity.
      * apply Forall_skipn'. exact Hu.
      * intros i Hi. rewrite znth_app. replace (0 + j + i <? zlen u) with true by lia. unfold y. rewrite znth_skipn by lia. reflexivity.
    + apply Forall_firstn'. exact HF.
    + intros i Hi. rewrite E, znth_app. replace (0 + i <? zlen t) with true by lia. unfold x. rewrite znth_firstn_if. replace (i <? j) with true by lia. f_equal.
  - apply cstring_intro. exact Hu.
Qed.
End Bad.
