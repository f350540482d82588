From Verif.Common Require Import Base Lemmas Lists.
From Verif.Spec Require Import Queue.
From Verif.Model Require Import Fifo Circular FifoSpan.
From Verif.Proofs Require Fifo.
Import Fifo.

Lemma concat_len {A} (e : nat) (src : list (list A)) : Forall (fun x => length x = e) src -> length (concat src) = (length src * e)%nat.
Proof. induction 1 as [|x l Hx Hl IH]; cbn; [reflexivity|]. rewrite app_length. lia. Qed.
Lemma concat_chunk {A} (e : nat) (src : list (list A)) i x : Forall (fun x => length x = e) src -> nth_error src i = Some x ->
  firstn e (skipn (i * e) (concat src)) = x.
Proof.
  intros H. revert i. induction H as [|y l Hy Hl IH]; intros i E; [destruct i; discriminate E|].
  destruct i as [|i]; cbn in E.
  - injection E as ->. cbn. rewrite <- Hy, firstn_app, firstn_all, Nat.sub_diag. apply app_nil_r.
  - cbn [concat]. replace (S i * e)%nat with (length y + i * e)%nat by lia. rewrite skipn_app. rewrite skipn_all2 by lia. cbn. replace (length y + i * e - length y)%nat with (i * e)%nat by lia. apply IH. exact E.
Qed.
Lemma skipn_skipn_add {A} (a b : nat) (l : list A) : skipn a (skipn b l) = skipn (a + b) l.
Proof.
  revert l. induction b as [|b IH]; intros l; [rewrite Nat.add_0_r; reflexivity|]. destruct l; [rewrite !skipn_nil; reflexivity|]. rewrite Nat.add_succ_r. cbn [skipn]. apply IH.
Qed.
Lemma firstn_skipn_app_l {A} (a n c : nat) (l m : list A) : (a + n <= c)%nat -> (c <= length l)%nat -> firstn n (skipn a (firstn c l ++ m)) = firstn n (skipn a l).
Proof.
  intros H HL. rewrite <- (firstn_skipn c l) at 2. rewrite !skipn_app, !firstn_app, !skipn_length, !firstn_length.
  replace (n - (Nat.min c (length l) - a))%nat with 0%nat by lia. reflexivity.
Qed.
Lemma znth_ztab {A} n (f : Z -> A) i : 0 <= i < n -> znth (ztab n f) i = Some (f i).
Proof.
  intros H. unfold znth, ztab. destruct (Z.ltb_spec i 0); [lia|]. rewrite nth_error_map. rewrite (nth_error_nth' _ 0%nat) by (rewrite seq_length; lia).
  rewrite seq_nth by lia. cbn. f_equal. f_equal. lia.
Qed.
Lemma zlen_ztab {A} n (f : Z -> A) : 0 <= n -> zlen (ztab n f) = n.
Proof. intros H. unfold zlen, ztab. rewrite map_length, seq_length. lia. Qed.

Section Run.
Context {T : Type}.
Variables (W k : Z) (dflt : T) (b : list T).
Hypothesis Hk : 0 <= k < W.
Hypothesis Hb : zlen b = 2 ^ k.
Lemma valid_k : static_valid W (2 ^ k). Proof using Hk. exists k. auto. Qed.
Lemma Rel_full : Rel W (static_valid W) (Fifo (2 ^ k) (word W (2 ^ k)) 0 b) (Queue (2 ^ k) b) (2 ^ k).
Proof using Hk Hb.
  pose proof (static_valid_range _ _ valid_k) as Hr. exists 0. cbn [f_max f_head f_tail f_buf qcap qitems]. splits; try assumption; try lia.
  - apply valid_k.
  - reflexivity.
  - intros p _. left. apply static_valid_div, valid_k.
  - intros i Hi. rewrite Z.add_0_l, Z.mod_small by lia. reflexivity.
Qed.
Lemma full_run ops : resizes ops = [] ->
  exists s', run (fifo_step W dflt slot_static) (Fifo (2 ^ k) (word W (2 ^ k)) 0 b) ops = Ok (s', queue_outputs dflt (2 ^ k) b ops).
Proof using Hk Hb.
  intros HR. assert (D : (2 ^ k | 2 ^ W)) by apply static_valid_div, valid_k.
  apply (run_ok W dflt slot_static (static_valid W) ltac:(lia) (fun m => static_valid_range W m) (fun m p => static_slot W m p) ops _ _ _ Rel_full).
  - rewrite HR. intros n [].
  - left. cbn. split; [exact D|]. rewrite HR. intros n [].
Qed.
Lemma empty_run ops : resizes ops = [] ->
  exists s', run (fifo_step W dflt slot_static) (Fifo (2 ^ k) 0 0 b) ops = Ok (s', queue_outputs dflt (2 ^ k) [] ops).
Proof using Hk Hb.
  intros HR. apply (run_ok W dflt slot_static (static_valid W) ltac:(lia) (fun m => static_valid_range W m) (fun m p => static_slot W m p) ops _ _ 0).
  - apply (Rel_start W (static_valid W) (fun m => static_valid_range W m) b 0); [apply valid_k|exact Hb].
  - rewrite HR. intros n [].
  - left. cbn. split; [apply static_valid_div, valid_k|]. rewrite HR. intros n [].
Qed.
End Run.

Lemma init_from (W k esz : Z) (src : list (list Z)) :
  0 <= k < W -> 1 <= esz -> zlen src = 2 ^ k -> Forall (fun e => zlen e = esz) src ->
  exists b, fifo_init_from esz (2 ^ k) src = Ok (Fifo (2 ^ k) 0 0 b) /\ zlen b = 2 ^ k /\
    (forall i, 0 <= i -> (i + 1) * esz <= 2 ^ k -> znth b i = znth src i) /\
    (forall i, i < 2 ^ k <= i * esz -> znth b i = Some (zrepeat 0 esz)).
Proof.
  intros Hk He Hs Hf. pose proof (Lemmas.pow2_pos k ltac:(lia)) as HP. set (cap := 2 ^ k) in *.
  assert (Hf' : Forall (fun x => length x = Z.to_nat esz) src). { eapply Forall_impl; [|exact Hf]. intros a Ha. unfold zlen in Ha. lia. }
  pose proof (concat_len _ _ Hf') as HL. assert (HC : zlen (concat src) = cap * esz) by (unfold zlen in *; nia).
  unfold fifo_init_from, cbo_copy_bytes. rewrite zlen_zrepeat by nia. rewrite HC.
  replace ((cap <=? esz * cap) && (cap <=? cap * esz)) with true by (symmetry; apply andb_true_intro; split; apply Z.leb_le; nia).
  cbn [bind]. eexists. split; [reflexivity|]. split; [apply zlen_ztab; lia|]. split.
  - intros i Hi Hle. assert (i < cap) by nia. unfold elements. rewrite znth_ztab by lia.
    rewrite firstn_skipn_app_l by (unfold zlen in HC; nia).
    destruct (znth_some src i) as [x Hx]; [lia|]. rewrite Hx. f_equal. unfold znth in Hx. destruct (Z.ltb_spec i 0); [lia|].
    replace (Z.to_nat (i * esz)) with (Z.to_nat i * Z.to_nat esz)%nat by nia. apply concat_chunk; assumption.
  - intros i Hi. unfold elements. rewrite znth_ztab by nia. f_equal.
    rewrite skipn_app. rewrite skipn_all2 by (rewrite firstn_length; lia). rewrite firstn_length. cbn [app].
    replace (Nat.min (Z.to_nat cap) (length (concat src))) with (Z.to_nat cap) by (unfold zlen in HC; nia).
    rewrite skipn_skipn_add. unfold zrepeat.
    replace (Z.to_nat (i * esz) - Z.to_nat cap + Z.to_nat cap)%nat with (Z.to_nat (i * esz)) by nia.
    assert (HN : Z.to_nat (esz * cap) = (Z.to_nat (i * esz) + (Z.to_nat esz + Z.to_nat ((cap - i - 1) * esz)))%nat) by nia.
    rewrite HN, !repeat_app, skipn_app, repeat_length, Nat.sub_diag, skipn_all2 by (rewrite repeat_length; lia). cbn [app skipn].
    rewrite firstn_app, repeat_length, Nat.sub_diag, firstn_O, app_nil_r. apply firstn_all2. rewrite repeat_length. lia.
Qed.

Section Final.
Variables (W k esz : Z) (src : list (list Z)) (ops : list (qop (list Z))).
Hypothesis Hk : 0 <= k < W.
Hypothesis He : 1 <= esz.
Hypothesis Hs : zlen src = 2 ^ k.
Hypothesis Hf : Forall (fun e => zlen e = esz) src.
Hypothesis HR : resizes ops = [].
Lemma from_empty : exists s0 s', fifo_init_from esz (2 ^ k) src = Ok s0 /\
  run (fifo_step W (zrepeat 0 esz) slot_static) s0 ops = Ok (s', queue_outputs (zrepeat 0 esz) (2 ^ k) [] ops).
Proof using All.
  destruct (init_from W k esz src Hk He Hs Hf) as (b & E & Hb & _ & _). destruct (empty_run W k (zrepeat 0 esz) b Hk Hb ops HR) as (s' & E2). eauto.
Qed.
Lemma from_prefilled : exists s0 b s', fifo_init_from esz (2 ^ k) src = Ok s0 /\
  run (fifo_step W (zrepeat 0 esz) slot_static) (set_write_pos W s0 (2 ^ k)) ops = Ok (s', queue_outputs (zrepeat 0 esz) (2 ^ k) b ops) /\
  zlen b = 2 ^ k /\ (forall i, 0 <= i -> (i + 1) * esz <= 2 ^ k -> znth b i = znth src i) /\
  (forall i, i < 2 ^ k <= i * esz -> znth b i = Some (zrepeat 0 esz)).
Proof using All.
  destruct (init_from W k esz src Hk He Hs Hf) as (b & E & Hb & H1 & H2). destruct (full_run W k (zrepeat 0 esz) b Hk Hb ops HR) as (s' & E2).
  eexists _, b, s'. split; [exact E|]. split; [exact E2|]. auto.
Qed.
End Final.
Lemma from_bytes (W k : Z) (src : list (list Z)) ops : 0 <= k < W -> zlen src = 2 ^ k -> Forall (fun e => zlen e = 1) src -> resizes ops = [] ->
  exists s0 s', fifo_init_from 1 (2 ^ k) src = Ok s0 /\
    run (fifo_step W [0] slot_static) (set_write_pos W s0 (2 ^ k)) ops = Ok (s', queue_outputs [0] (2 ^ k) src ops).
Proof.
  intros Hk Hs Hf HR. destruct (from_prefilled W k 1 src ops Hk ltac:(lia) Hs Hf HR) as (s0 & b & s' & E & E2 & Hb & H1 & _).
  assert (b = src). { apply znth_ext; [lia|]. intros i Hi. apply H1; lia. }
  subst b. eauto.
Qed.
