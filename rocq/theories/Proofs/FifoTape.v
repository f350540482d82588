From Verif.Common Require Import Base Lemmas.
From Verif.Spec Require Import Tape Queue.
From Verif.Model Require Import Fifo FifoTape.
From Verif.Proofs Require Import Fifo.
Ltac Zify.zify_post_hook ::= Z.div_mod_to_equations.

Lemma removelast_length {A} (l : list A) : length (removelast l) = (length l - 1)%nat.
Proof.
  induction l as [|a [|b l] IH]; [reflexivity|reflexivity|].
  change (length (removelast (a :: b :: l))) with (S (length (removelast (b :: l)))).
  rewrite IH; cbn [length]; lia.
Qed.

Lemma znth_removelast {A} (l : list A) i : i < zlen l - 1 -> znth (removelast l) i = znth l i.
Proof.
  intros Hi. destruct l as [|a0 l0]; [cbn [removelast]; reflexivity|].
  pose proof (@app_removelast_last A (a0 :: l0) a0 ltac:(discriminate)) as E.
  set (l := a0 :: l0) in *. rewrite E at 2. rewrite znth_app_l; [reflexivity|].
  unfold zlen in *; rewrite removelast_length; lia.
Qed.

Section Proof.
Context {T : Type}.
Variables (W : Z) (slot : Z -> Z -> outcome Z) (cap : Z).
Hypothesis HW : 0 <= W.
Hypothesis Hcap : 0 < cap < 2 ^ W.
Hypothesis Hslot : forall p, okpos W cap p -> slot cap (word W p) = Ok (p mod cap).
(* either the capacity divides 2^W or positions stay in [0, 2^W) *)
Variable nowrap : Prop.
Hypothesis Hlim : (cap | 2 ^ W) \/ nowrap.

Definition TRel (s : fifo T) (t : tape T) : Prop :=
  f_max s = cap /\ zlen (f_buf s) = cap /\ zlen (recent t) = cap /\
  0 <= unread t <= cap /\
  (nowrap -> 0 <= written t <= 2 ^ W /\ (unread t <= written t)) /\
  f_head s = word W (written t) /\ f_tail s = word W (written t - unread t) /\
  (forall i, 0 <= i < cap -> znth (f_buf s) ((written t - 1 - i) mod cap) = znth (recent t) i).

Lemma tstep_refines s t o :
  TRel s t -> move_ok W t o ->
  (nowrap -> (exists x, o = TPut x) -> written t < 2 ^ W) ->
  (nowrap -> is_set_read_pos o = false) ->
  exists s', tape_fifo_step W slot s o = Ok (s', snd (tape_step W t o)) /\
             TRel s' (fst (tape_step W t o)) /\
             (written (fst (tape_step W t o)) = written t \/
              (exists x, o = TPut x) /\ written (fst (tape_step W t o)) = written t + 1).
Proof.
  intros (Em & Hb & Hr & Hu & Hnw & Eh & Et & Hc) Hok HP HQ.
  destruct s as [m h tl b], t as [rec un wn]; cbn [f_max f_head f_tail f_buf recent unread written] in *; subst m h tl.
  assert (Hlt : 0 <= un < 2 ^ W) by lia.
  pose proof (word_diff W wn (wn - un) un ltac:(lia) Hlt) as Hdiff.
  pose proof (word_eq_iff W wn (wn - un) un ltac:(lia) Hlt) as Heq.
  assert (HSame : TRel (Fifo cap (word W wn) (word W (wn - un)) b) (Tape rec un wn)).
  { unfold TRel; cbn; splits; auto; try lia; apply Hnw; assumption. }
  assert (Hrd : un <> 0 -> slot cap (word W (wn - un)) = Ok ((wn - un) mod cap) /\
                exists x, znth b ((wn - un) mod cap) = Some x /\ znth rec (un - 1) = Some x).
  { intros Hun. split.
    - apply Hslot. destruct Hlim as [Hd|Hn]; [left; assumption|right]. specialize (Hnw Hn). lia.
    - destruct (znth_some rec (un - 1) ltac:(lia)) as [x Hx]. exists x; split; [|assumption].
      rewrite <- Hx, <- Hc by lia. f_equal; f_equal; lia. }
  destruct o as [x| |r| | | |k|p]; cbn [tape_fifo_step tape_step recent unread written fst snd].
  - (* put *)
    unfold put; cbn [f_max f_head f_tail f_buf]; rewrite Hdiff, Hr.
    destruct (Z.eqb_spec un cap) as [E|E]; cbn [bind fst snd].
    + eexists; split; [reflexivity|]; split; [exact HSame|left; reflexivity].
    + rewrite Hslot. 2:{ destruct Hlim as [Hd|Hn]; [left; assumption|right].
        specialize (Hnw Hn). assert (wn < 2 ^ W) by (apply HP; eauto). lia. }
      cbn [bind]. rewrite wr_ok by (rewrite Hb; apply Z.mod_pos_bound; lia). cbn [bind].
      eexists; split; [reflexivity|]; split; [|right; cbn [written]; split; [eauto|reflexivity]].
      assert (Hlr : zlen (removelast rec) = cap - 1) by (unfold zlen in *; rewrite removelast_length; lia).
      unfold TRel; cbn [f_max f_head f_tail f_buf recent unread written].
      rewrite zlen_zupd, word_add_l, zlen_cons. splits; try assumption; try lia.
      * intros Hn; specialize (Hnw Hn); assert (wn < 2 ^ W) by (apply HP; eauto); lia.
      * f_equal; lia.
      * intros i Hi. destruct (Z.eq_dec i 0) as [->|Hne].
        -- replace (wn + 1 - 1 - 0) with wn by lia.
           rewrite znth_zupd_eq by (rewrite Hb; apply Z.mod_pos_bound; lia). reflexivity.
        -- rewrite znth_cons_pos by lia. rewrite znth_removelast by lia.
           rewrite <- Hc by lia. rewrite znth_zupd_ne; [f_equal; f_equal; lia|].
           intros E2; symmetry in E2; revert E2; apply mod_neq; lia.
  - (* get *)
    unfold get; cbn [f_max f_head f_tail f_buf]; rewrite Heq.
    destruct (Z.eqb_spec un 0) as [E|E]; cbn [bind fst snd].
    + eexists; split; [reflexivity|]; split; [exact HSame|left; reflexivity].
    + destruct (Hrd E) as (Hs & x & Hx & Hx2). rewrite Hs; cbn [bind]; rewrite (rd_ok _ _ _ Hx); cbn [bind].
      rewrite Hx2. eexists; split; [reflexivity|]; split; [|left; reflexivity].
      unfold TRel; cbn [f_max f_head f_tail f_buf recent unread written]. rewrite word_add_l.
      splits; try assumption; try lia; try (intros Hn; specialize (Hnw Hn); lia). f_equal; lia.
  - (* get_move *)
    unfold get_move; cbn [f_max f_head f_tail f_buf]; rewrite Heq.
    destruct (Z.eqb_spec un 0) as [E|E]; cbn [bind fst snd].
    + eexists; split; [reflexivity|]; split; [exact HSame|left; reflexivity].
    + destruct (Hrd E) as (Hs & x & Hx & Hx2). rewrite Hs; cbn [bind]; rewrite (rd_ok _ _ _ Hx); cbn [bind].
      rewrite wr_ok by (rewrite Hb; apply Z.mod_pos_bound; lia). cbn [bind].
      rewrite Hx2. eexists; split; [reflexivity|]; split; [|left; reflexivity].
      unfold TRel; cbn [f_max f_head f_tail f_buf recent unread written]. rewrite word_add_l, !zlen_zupd.
      splits; try assumption; try lia; try (intros Hn; specialize (Hnw Hn); lia); [f_equal; lia|].
      intros i Hi. destruct (Z.eq_dec i (un - 1)) as [->|Hne].
      * replace (wn - 1 - (un - 1)) with (wn - un) by lia.
        rewrite !znth_zupd_eq by (try lia; rewrite Hb; apply Z.mod_pos_bound; lia). reflexivity.
      * rewrite !znth_zupd_ne; [apply Hc; lia|lia|].
        destruct (Z.lt_ge_cases i (un - 1)).
        -- apply mod_neq; lia.
        -- intros E2; symmetry in E2; revert E2; apply mod_neq; lia.
  - (* remove_first *)
    unfold remove_first; cbn [f_max f_head f_tail f_buf]; rewrite Heq.
    destruct (Z.eqb_spec un 0) as [E|E]; cbn [negb fst snd].
    + eexists; split; [reflexivity|]; split; [exact HSame|left; reflexivity].
    + eexists; split; [reflexivity|]; split; [|left; reflexivity].
      unfold TRel; cbn [f_max f_head f_tail f_buf recent unread written]. rewrite word_add_l.
      splits; try assumption; try lia; try (intros Hn; specialize (Hnw Hn); lia). f_equal; lia.
  - (* reset *)
    eexists; split; [reflexivity|]; split; [|left; reflexivity].
    unfold TRel, reset; cbn [f_max f_head f_tail f_buf recent unread written].
    splits; try assumption; try lia; try (intros Hn; specialize (Hnw Hn); lia). f_equal; lia.
  - unfold num_filled; cbn [f_head f_tail]; rewrite Hdiff.
    eexists; split; [reflexivity|]; split; [exact HSame|left; reflexivity].
  - (* set_read_offset *)
    cbn [move_ok recent] in Hok. unfold set_read_offset; cbn [f_max f_head f_tail f_buf].
    fold (word W wn).
    destruct (Z.leb_spec k (word W wn)) as [E|E]; cbn [fst snd];
      (eexists; split; [reflexivity|]; split; [|left; reflexivity]).
    + unfold TRel; cbn [f_max f_head f_tail f_buf recent unread written]. rewrite word_sub_l.
      assert (Hwn : 0 <= word W wn < 2 ^ W) by (apply word_range; lia).
      splits; try assumption; try lia; try (intros Hn; specialize (Hnw Hn); lia).
      intros Hn; specialize (Hnw Hn). destruct (Z.eq_dec wn (2 ^ W)) as [->|].
      * lia.
      * rewrite word_small in E by lia; lia.
    + exact HSame.
  - (* set_read_pos *)
    cbn [move_ok recent written] in Hok. unfold set_read_pos; cbn [f_max f_head f_tail f_buf].
    pose proof (Z.mod_pos_bound (wn - p) (2 ^ W) ltac:(lia)) as Hmb.
    eexists; split; [reflexivity|]; split; [|left; reflexivity].
    unfold TRel; cbn [f_max f_head f_tail f_buf recent unread written].
    splits; try assumption; try lia; try (intros Hn; specialize (Hnw Hn); lia).
    + intros Hn; specialize (HQ Hn); discriminate.
    + fold (word W (wn - p)). rewrite word_sub_r. f_equal; lia.
Qed.

Lemma trun_ok : forall ops s t,
  TRel s t -> guarded (tape_step W) (move_ok W) t ops ->
  (nowrap -> written t + tcount_puts ops <= 2 ^ W /\ forallb (fun o => negb (is_set_read_pos o)) ops = true) ->
  exists s', run (tape_fifo_step W slot) s ops = Ok (s', snd (srun (tape_step W) t ops)).
Proof.
  induction ops as [|o ops IH]; intros s t HR HG HN; cbn [run srun].
  - eauto.
  - cbn [guarded] in HG; destruct HG as [Hg HG].
    assert (Hcp : 0 <= tcount_puts ops).
    { clear. induction ops as [|[] ops]; cbn [tcount_puts]; lia. }
    destruct (tstep_refines s t o HR Hg) as (s1 & E1 & R1 & Hgrow).
    { intros Hn [x ->]. specialize (HN Hn); cbn [tcount_puts] in HN. lia. }
    { intros Hn. specialize (HN Hn); cbn [forallb] in HN.
      destruct HN as [_ HN]; apply andb_prop in HN; destruct HN as [HN _]; destruct (is_set_read_pos o); [discriminate|reflexivity]. }
    rewrite E1; cbn [bind].
    destruct (tape_step W t o) as [t1 r] eqn:Eq; cbn [fst snd] in *.
    destruct (IH s1 t1 R1 HG) as (s2 & E2).
    { intros Hn. specialize (HN Hn); cbn [forallb] in HN. destruct HN as [HN1 HN2].
      apply andb_prop in HN2. split; [|apply HN2].
      destruct Hgrow as [->|[[x ->] ->]].
      - destruct o; cbn [tcount_puts] in HN1; lia.
      - cbn [tcount_puts] in HN1; lia. }
    rewrite E2; cbn [bind].
    destruct (srun (tape_step W) t1 ops) as [t2 rs]; cbn [fst snd]. eauto.
Qed.
End Proof.

Section Final.
Context {T : Type}.
Variable dflt : T.

Lemma TRel_start W cap n nowrap : 0 <= W -> 0 < cap < 2 ^ W -> 0 <= n <= cap ->
  TRel W cap nowrap (fifo_init_head dflt cap n) (tape_start dflt cap n).
Proof.
  intros HW Hc Hn. unfold TRel, tape_start, fifo_init_head; cbn [f_max f_head f_tail f_buf recent unread written].
  rewrite !zlen_zrepeat by lia. splits; try lia; try reflexivity.
  - rewrite word_small; lia.
  - rewrite Z.sub_diag. reflexivity.
  - intros i Hi. rewrite !znth_zrepeat; [reflexivity|lia|]. apply Z.mod_pos_bound; lia.
Qed.

Lemma static_tape_run W k n ops :
  0 <= k < W -> 0 <= n <= 2 ^ k ->
  guarded (tape_step W) (move_ok W) (tape_start dflt (2 ^ k) n) ops ->
  exists s', run (tape_fifo_step W slot_static) (fifo_init_head dflt (2 ^ k) n) ops
             = Ok (s', snd (srun (tape_step W) (tape_start dflt (2 ^ k) n) ops)).
Proof.
  intros Hk Hn HG.
  pose proof (ex_intro _ k (conj Hk eq_refl) : static_valid W (2 ^ k)) as Hv.
  pose proof (static_valid_range _ _ Hv). pose proof (pow2_pos k ltac:(lia)).
  apply (trun_ok W slot_static (2 ^ k)) with (nowrap := False).
  - lia.
  - lia.
  - intros p Hp; apply static_slot; auto; lia.
  - left; apply static_valid_div; assumption.
  - apply TRel_start; lia.
  - exact HG.
  - intros [].
Qed.

Lemma dyn_tape_run W cap n ops :
  0 <= W -> 0 < cap < 2 ^ W -> 0 <= n <= cap ->
  guarded (tape_step W) (move_ok W) (tape_start dflt cap n) ops ->
  n + tcount_puts ops <= 2 ^ W -> forallb (fun o => negb (is_set_read_pos o)) ops = true ->
  exists s', run (tape_fifo_step W slot_dyn) (fifo_init_head dflt cap n) ops
             = Ok (s', snd (srun (tape_step W) (tape_start dflt cap n) ops)).
Proof.
  intros HW Hc Hn HG Hl Hs.
  apply (trun_ok W slot_dyn cap) with (nowrap := True).
  - lia.
  - lia.
  - intros p Hp; apply dyn_slot; auto; unfold dyn_valid; lia.
  - right; exact I.
  - apply TRel_start; lia.
  - exact HG.
  - intros _. unfold tape_start; cbn [written]. split; [lia|exact Hs].
Qed.

End Final.

Lemma puts_done_nonneg {T} (l : list (tout T)) : 0 <= puts_done l.
Proof. induction l as [|[| [] | |] l IH]; cbn [puts_done]; lia. Qed.

Lemma head_counts {T} W (HW : 0 <= W) slot (s : fifo T) o s' r :
  tape_fifo_step W slot s o = Ok (s', r) ->
  f_max s' = f_max s /\ zlen (f_buf s') = zlen (f_buf s) /\ word W (f_head s') = word W (f_head s + puts_done [r]) /\
  (0 <= f_head s < 2 ^ W -> 0 <= f_head s' < 2 ^ W).
Proof.
  assert (B : forall x, 0 <= word W x < 2 ^ W) by (intros; apply word_range; lia).
  destruct o; cbn [tape_fifo_step]; unfold put, get, get_move, remove_first, reset, num_filled, set_read_offset, set_read_pos.
  - destruct (_ =? _); cbn [bind].
    { intros E; injection E as <- <-. cbn. rewrite Z.add_0_r; auto. }
    destruct (slot (f_max s) (f_head s)) as [i| |]; cbn [bind]; try discriminate.
    destruct (wr (f_buf s) i x) as [b| |] eqn:E; cbn [bind]; try discriminate. intros E'; injection E' as <- <-. cbn [f_max f_buf f_head puts_done].
    rewrite word_word. split; [reflexivity|]. split; [|split; [f_equal; lia|auto]].
    unfold wr in E. destruct (_ && _); [injection E as <-; apply zlen_zupd|discriminate].
  - destruct (_ =? _); cbn [bind].
    { intros E; injection E as <- <-. cbn. rewrite Z.add_0_r; auto. }
    destruct (slot (f_max s) (f_tail s)) as [i| |]; cbn [bind]; try discriminate.
    destruct (rd (f_buf s) i) as [b| |] eqn:E; cbn [bind]; try discriminate. intros E'; injection E' as <- <-. cbn. rewrite Z.add_0_r; auto.
  - destruct (_ =? _); cbn [bind].
    { intros E; injection E as <- <-. cbn. rewrite Z.add_0_r; auto. }
    destruct (slot (f_max s) (f_tail s)) as [i| |]; cbn [bind]; try discriminate.
    destruct (rd (f_buf s) i) as [b| |] eqn:E; cbn [bind]; try discriminate.
    destruct (wr (f_buf s) i residue) as [b'| |] eqn:E2; cbn [bind]; try discriminate. intros E'; injection E' as <- <-. cbn. rewrite Z.add_0_r; split; [auto|]. split; auto.
    unfold wr in E2. destruct (_ && _); [injection E2 as <-; apply zlen_zupd|discriminate].
  - intros E; injection E as <- <-. destruct (negb _); cbn; rewrite Z.add_0_r; auto.
  - intros E; injection E as <- <-. cbn; rewrite Z.add_0_r; auto.
  - intros E; injection E as <- <-. cbn; rewrite Z.add_0_r; auto.
  - intros E; injection E as <- <-. destruct (_ <=? _); cbn; rewrite Z.add_0_r; auto.
  - intros E; injection E as <- <-. cbn; rewrite Z.add_0_r; auto.
Qed.

Lemma head_counts_run {T} W (HW : 0 <= W) slot : forall ops (s : fifo T) s' outs,
  run (tape_fifo_step W slot) s ops = Ok (s', outs) -> 0 <= f_head s < 2 ^ W ->
  f_max s' = f_max s /\ zlen (f_buf s') = zlen (f_buf s) /\ word W (f_head s') = word W (f_head s + puts_done outs) /\ 0 <= f_head s' < 2 ^ W.
Proof.
  induction ops as [|o ops IH]; intros s s' outs E H0.
  - cbn in E. injection E as <- <-. cbn. rewrite Z.add_0_r; auto.
  - cbn [run] in E. destruct (tape_fifo_step W slot s o) as [[s1 r]| |] eqn:E1; cbn [bind] in E; try discriminate.
    destruct (run (tape_fifo_step W slot) s1 ops) as [[s2 l]| |] eqn:E2; cbn [bind] in E; try discriminate. injection E as <- <-.
    destruct (head_counts W HW slot s o s1 r E1) as (A1 & A2 & A3 & A4). destruct (IH _ _ _ E2 (A4 H0)) as (B1 & B2 & B3 & B4).
    splits; try congruence; try lia. rewrite B3. rewrite <- word_add_l, A3, word_add_l. f_equal. cbn [puts_done]. destruct r as [|[]| |]; lia.
Qed.

Lemma offset_beyond {T} W k (dflt x : T) ops s outs n :
  0 <= k < W -> run (tape_fifo_step W slot_static) (fifo_init dflt (2 ^ k)) ops = Ok (s, outs) ->
  2 ^ k < n <= puts_done outs -> puts_done outs < 2 ^ W ->
  exists s', run (tape_fifo_step W slot_static) s [TSetReadOffset n; TNumFilled; TPut x] = Ok (s', [TUnit; TNum n; TBool true]) /\ max_size s' = 2 ^ k.
Proof.
  intros Hk E Hn Hp. assert (0 < 2 ^ k) by (apply Z.pow_pos_nonneg; lia).
  destruct (head_counts_run W ltac:(lia) slot_static ops _ _ _ E ltac:(cbn; lia)) as (A1 & A2 & A3 & A4).
  cbn [fifo_init f_max f_buf f_head] in A1, A2, A3. rewrite zlen_zrepeat in A2 by lia.
  rewrite Z.add_0_l, !word_small in A3 by lia.
  cbn [run tape_fifo_step bind]. unfold set_read_offset. destruct (Z.leb_spec n (f_head s)); [|lia].
  unfold num_filled, put. cbn [f_max f_head f_tail f_buf].
  rewrite (word_small W (f_head s - n)) by lia. replace (f_head s - (f_head s - n)) with n by lia. rewrite word_small by lia.
  rewrite A1. rewrite (proj2 (Z.eqb_neq n (2 ^ k))) by lia. unfold slot_static. cbn [bind].
  rewrite wr_ok. 2:{ replace (2 ^ k - 1) with (Z.ones k) by (rewrite Z.ones_equiv; lia). rewrite Z.land_ones by lia. rewrite A2. apply Z.mod_pos_bound. lia. }
  cbn [bind]. eexists; split; [reflexivity|]. reflexivity.
Qed.
