From Verif.Common Require Import Base Lemmas.
From Verif.Spec Require Import Queue.
From Verif.Model Require Import Fifo.
Ltac Zify.zify_post_hook ::= Z.div_mod_to_equations.

(** A capacity is safe for position [p] if counters may be reduced mod 2^W first. *)
Definition okpos (W m p : Z) : Prop := (m | 2 ^ W) \/ 0 <= p < 2 ^ W.

Section Proof.
Context {T : Type}.
Variables (W : Z) (dflt : T) (slot : Z -> Z -> outcome Z) (validm : Z -> Prop).
Hypothesis HW : 0 <= W.
Hypothesis Hvalid : forall m, validm m -> 0 <= m < 2 ^ W.
Hypothesis Hslot : forall m p, validm m -> m <> 0 -> okpos W m p -> slot m (word W p) = Ok (p mod m).

Definition Rel (s : fifo T) (q : queue T) (H : Z) : Prop :=
  exists Tl : Z,
    f_max s = qcap q /\ validm (qcap q) /\
    zlen (f_buf s) = qcap q /\
    f_head s = word W H /\ f_tail s = word W Tl /\
    H - Tl = zlen (qitems q) /\ zlen (qitems q) <= qcap q /\
    (forall p, Tl <= p < H -> okpos W (qcap q) p) /\
    (forall i, 0 <= i < zlen (qitems q) -> znth (f_buf s) ((Tl + i) mod qcap q) = znth (qitems q) i).

Lemma step_refines s q H o :
  Rel s q H ->
  (forall x, o = Put x -> okpos W (qcap q) H) ->
  (forall n, o = Resize n -> validm n) ->
  exists s' H', fifo_step W dflt slot s o = Ok (s', snd (queue_step dflt q o)) /\
             Rel s' (fst (queue_step dflt q o)) H' /\
             (H' = H \/ (exists x, o = Put x) /\ H' = H + 1).
Proof.
  intros (Tl & Em & Hv & Hb & Eh & Et & Hn & Hcap & Hok & Hcont) HP HR.
  pose proof (Hvalid _ Hv) as Hvm.
  destruct s as [m h t b], q as [cap items]; cbn [f_max f_head f_tail f_buf qcap qitems] in *; subst m h t.
  pose proof (zlen_nonneg items) as Hnn.
  assert (Hlt : 0 <= zlen items < 2 ^ W) by lia.
  pose proof (word_diff _ _ _ _ Hn Hlt) as Hdiff.
  pose proof (word_eq_iff _ _ _ _ Hn Hlt) as Heq.
  assert (Hget : forall x rest, items = x :: rest ->
            slot cap (word W Tl) = Ok (Tl mod cap) /\ znth b (Tl mod cap) = Some x /\ 0 < cap /\
            (forall b' , zlen b' = cap -> (forall i, i <> Tl mod cap -> znth b' i = znth b i) ->
               Rel (Fifo cap (word W H) (word W (word W Tl + 1)) b') (Queue cap rest) H)).
  { intros x rest ->. rewrite zlen_cons in *. pose proof (zlen_nonneg rest).
    split; [|split; [|split]].
    - apply Hslot; [assumption|lia|]. apply Hok; lia.
    - rewrite <- (znth_cons_0 x rest), <- Hcont by lia. f_equal; f_equal; lia.
    - lia.
    - intros b' Hl' Hb'. exists (Tl + 1); cbn [f_max f_head f_tail f_buf qcap qitems].
      rewrite word_add_l.
      splits; try assumption; try lia.
      + intros p Hp; apply Hok; lia.
      + intros i Hi. specialize (Hcont (i + 1) ltac:(lia)).
        rewrite znth_cons_pos in Hcont by lia.
        replace (i + 1 - 1) with i in Hcont by lia. rewrite <- Hcont.
        rewrite Hb'; [f_equal; f_equal; lia|].
        intros E; symmetry in E. revert E. apply mod_neq; lia. }
  assert (HRelSame : Rel (Fifo cap (word W H) (word W Tl) b) (Queue cap items) H).
  { exists Tl; cbn; splits; auto. }
  destruct o as [x| |r| | | | | | | | |n]; cbn [fifo_step queue_step qcap qitems fst snd].
  - (* put *)
    unfold put; cbn [f_max f_head f_tail f_buf]; rewrite Hdiff.
    destruct (Z.eqb_spec (zlen items) cap) as [E|E]; cbn [bind fst snd].
    + do 2 eexists; split; [reflexivity|]; split; [exact HRelSame|]; left; reflexivity.
    + rewrite Hslot by (try assumption; try lia; eapply HP; reflexivity). cbn [bind].
      rewrite wr_ok by (rewrite Hb; apply mod_in_range; lia). cbn [bind].
      do 2 eexists; split; [reflexivity|]; split; [|right; split; [eauto|reflexivity]].
      exists Tl; cbn [f_max f_head f_tail f_buf qcap qitems].
      rewrite word_add_l, zlen_zupd, zlen_app, zlen_cons, zlen_nil.
      splits; try assumption; try lia.
      * intros p Hp. destruct (Z.eq_dec p H) as [->|]; [eapply HP; reflexivity|apply Hok; lia].
      * intros i Hi. destruct (Z.eq_dec i (zlen items)) as [->|Hne].
        -- rewrite znth_app_r by lia. rewrite Z.sub_diag.
           replace (Tl + zlen items) with H by lia.
           rewrite znth_zupd_eq by (rewrite Hb; apply mod_in_range; lia). reflexivity.
        -- rewrite znth_app_l by lia. rewrite znth_zupd_ne; [apply Hcont; lia|].
           intros E2; symmetry in E2; revert E2; apply mod_neq; lia.
  - (* get *)
    unfold get; cbn [f_max f_head f_tail f_buf]; rewrite Heq.
    destruct items as [|x rest].
    + cbn [zlen length Z.of_nat Z.eqb bind]. do 2 eexists; split; [reflexivity|]; split; [exact HRelSame|left; reflexivity].
    + destruct (Hget x rest eq_refl) as (Hs & Hz & Hc & HRl).
      replace (zlen (x :: rest) =? 0) with false by (rewrite zlen_cons; pose proof (zlen_nonneg rest); lia).
      rewrite Hs; cbn [bind]; rewrite (rd_ok _ _ _ Hz); cbn [bind].
      do 2 eexists; split; [reflexivity|]; split; [apply HRl; auto|left; reflexivity].
  - (* get_move *)
    unfold get_move; cbn [f_max f_head f_tail f_buf]; rewrite Heq.
    destruct items as [|x rest].
    + cbn [zlen length Z.of_nat Z.eqb bind]. do 2 eexists; split; [reflexivity|]; split; [exact HRelSame|left; reflexivity].
    + destruct (Hget x rest eq_refl) as (Hs & Hz & Hc & HRl).
      replace (zlen (x :: rest) =? 0) with false by (rewrite zlen_cons; pose proof (zlen_nonneg rest); lia).
      rewrite Hs; cbn [bind]; rewrite (rd_ok _ _ _ Hz); cbn [bind].
      rewrite wr_ok by (rewrite Hb; apply mod_in_range; lia). cbn [bind].
      do 2 eexists; split; [reflexivity|]; split; [apply HRl|left; reflexivity].
      * rewrite zlen_zupd; assumption.
      * intros i Hi; apply znth_zupd_ne; congruence.
  - (* get_or_default *)
    unfold get_or_default, get; cbn [f_max f_head f_tail f_buf]; rewrite Heq.
    destruct items as [|x rest].
    + cbn [zlen length Z.of_nat Z.eqb bind]. do 2 eexists; split; [reflexivity|]; split; [exact HRelSame|left; reflexivity].
    + destruct (Hget x rest eq_refl) as (Hs & Hz & Hc & HRl).
      replace (zlen (x :: rest) =? 0) with false by (rewrite zlen_cons; pose proof (zlen_nonneg rest); lia).
      rewrite Hs; cbn [bind]; rewrite (rd_ok _ _ _ Hz); cbn [bind].
      do 2 eexists; split; [reflexivity|]; split; [apply HRl; auto|left; reflexivity].
  - (* remove_first *)
    unfold remove_first; cbn [f_max f_head f_tail f_buf]; rewrite Heq.
    destruct items as [|x rest].
    + cbn [zlen length Z.of_nat Z.eqb negb tl]. do 2 eexists; split; [reflexivity|]; split; [exact HRelSame|left; reflexivity].
    + destruct (Hget x rest eq_refl) as (Hs & Hz & Hc & HRl).
      replace (zlen (x :: rest) =? 0) with false by (rewrite zlen_cons; pose proof (zlen_nonneg rest); lia).
      cbn [negb tl]. do 2 eexists; split; [reflexivity|]; split; [apply HRl; auto|left; reflexivity].
  - (* reset *)
    do 2 eexists; split; [reflexivity|]; split; [|left; reflexivity].
    exists H; cbn [reset f_max f_head f_tail f_buf qcap qitems]; rewrite zlen_nil; splits; try assumption; try lia.
  - unfold num_free; cbn [f_max f_head f_tail]. rewrite Hdiff, (word_small W (cap - zlen items)) by lia.
    do 2 eexists; split; [reflexivity|]; split; [exact HRelSame|left; reflexivity].
  - unfold num_filled; cbn [f_head f_tail]. rewrite Hdiff.
    do 2 eexists; split; [reflexivity|]; split; [exact HRelSame|left; reflexivity].
  - unfold full, num_free; cbn [f_max f_head f_tail]. rewrite Hdiff, (word_small W (cap - zlen items)) by lia.
    replace (cap - zlen items =? 0) with (zlen items =? cap) by lia.
    do 2 eexists; split; [reflexivity|]; split; [exact HRelSame|left; reflexivity].
  - unfold empty, num_filled; cbn [f_head f_tail]. rewrite Hdiff.
    do 2 eexists; split; [reflexivity|]; split; [exact HRelSame|left; reflexivity].
  - do 2 eexists; split; [reflexivity|]; split; [exact HRelSame|left; reflexivity].
  - (* resize *)
    unfold resize; cbn [f_max f_head f_tail f_buf reset].
    destruct (Z.eqb_spec n cap) as [->|Hne]; cbn [negb fst snd].
    + do 2 eexists; split; [reflexivity|]; split; [exact HRelSame|left; reflexivity].
    + do 2 eexists; split; [reflexivity|]; split; [|left; reflexivity].
      specialize (HR n eq_refl). pose proof (Hvalid _ HR).
      exists H; cbn [f_max f_head f_tail f_buf qcap qitems].
      rewrite zlen_nil. splits; try assumption; try lia.
      unfold vector_resize. rewrite zlen_app, zlen_zrepeat_max.
      destruct (Z.ltb_spec n cap).
      * rewrite firstn_nil, zlen_nil. lia.
      * rewrite firstn_all2 by (unfold zlen in *; lia). lia.
Qed.

Lemma run_ok : forall ops s q H,
  Rel s q H ->
  (forall n, In n (resizes ops) -> validm n) ->
  ((qcap q | 2 ^ W) /\ (forall n, In n (resizes ops) -> (n | 2 ^ W)) \/ 0 <= H /\ H + count_puts ops <= 2 ^ W) ->
  exists s', run (fifo_step W dflt slot) s ops = Ok (s', snd (srun (queue_step dflt) q ops)).
Proof.
  induction ops as [|o ops IH]; intros s q H HRel HRes Hlim; cbn [run srun].
  - eauto.
  - assert (Hcp : 0 <= count_puts ops).
    { clear. induction ops as [|[] ops]; cbn [count_puts]; lia. }
    destruct (step_refines _ _ _ o HRel) as (s1 & H1 & E1 & R1 & Hgrow).
    { intros x ->. destruct Hlim as [[Hd _]|Hl]; [left; assumption|right].
      cbn [count_puts] in Hl; lia. }
    { intros n ->. apply HRes; cbn [resizes]; left; reflexivity. }
    rewrite E1; cbn [bind].
    destruct (queue_step dflt q o) as [q1 r] eqn:Eq; cbn [fst snd] in *.
    destruct (IH s1 q1 H1 R1) as (s2 & E2).
    { intros n Hin; apply HRes. destruct o; cbn [resizes]; auto. right; assumption. }
    { destruct Hlim as [[Hd Hr]|Hl].
      - left; split.
        + assert (Hc : qcap q1 = qcap q \/ exists n, o = Resize n /\ qcap q1 = n).
          { clear - Eq. destruct q as [c it].
            destruct o; cbn in Eq; repeat match type of Eq with
              | context [match ?d with _ => _ end] => destruct d end;
              inversion Eq; subst; cbn; eauto. }
          destruct Hc as [->|(n & -> & ->)]; [assumption|]. apply Hr; cbn [resizes]; left; reflexivity.
        + intros n Hin; apply Hr. destruct o; cbn [resizes]; auto. right; assumption.
      - right. destruct Hgrow as [->|[[x ->] ->]].
        + destruct o; cbn [count_puts] in Hl; lia.
        + cbn [count_puts] in Hl; lia. }
    rewrite E2; cbn [bind].
    destruct (srun (queue_step dflt) q1 ops) as [q2 rs]; cbn [fst snd]. eauto.
Qed.

(** Any buffer whose counters are both at [h] is an empty queue. *)
Lemma Rel_start b h cap : validm cap -> zlen b = cap ->
  Rel (Fifo cap (word W h) (word W h) b) (Queue cap []) h.
Proof.
  clear slot Hslot; intros Hv Hb; pose proof (Hvalid _ Hv). exists h; cbn [f_max f_head f_tail f_buf qcap qitems].
  rewrite zlen_nil; splits; try assumption; lia.
Qed.

Lemma Rel_init_head cap n : validm cap -> 0 <= n <= cap ->
  (n = 0 \/ (forall p, 0 <= p < n -> okpos W cap p)) ->
  Rel (fifo_init_head dflt cap n) (Queue cap (zrepeat dflt n)) n.
Proof.
  clear slot Hslot; intros Hv Hn Hok; pose proof (Hvalid _ Hv). exists 0; unfold fifo_init_head; cbn [f_max f_head f_tail f_buf qcap qitems].
  rewrite !zlen_zrepeat by lia. splits; try assumption; try lia; try reflexivity.
  - rewrite word_small; lia.
  - destruct Hok; [intros; lia|assumption].
  - intros i Hi. rewrite !znth_zrepeat; [reflexivity|lia|]. apply Z.mod_pos_bound; lia.
Qed.

End Proof.

(* ------------------------------------------------------------------ *)
Definition static_valid (W m : Z) : Prop := exists k, 0 <= k < W /\ m = 2 ^ k.
Definition dyn_valid (W m : Z) : Prop := 0 <= m < 2 ^ W.

Lemma static_slot W m p : static_valid W m -> m <> 0 -> okpos W m p ->
  slot_static m (word W p) = Ok (p mod m).
Proof.
  intros (k & Hk & ->) _ _. unfold slot_static. rewrite land_ones_mod by lia.
  rewrite word_mod_pow2 by lia. reflexivity.
Qed.

Lemma dyn_slot W m p : 0 <= W -> dyn_valid W m -> m <> 0 -> okpos W m p ->
  slot_dyn m (word W p) = Ok (p mod m).
Proof.
  intros HW Hv Hm0 Hok. unfold slot_dyn, dyn_valid in *.
  replace (m =? 0) with false by lia. f_equal.
  destruct Hok as [[c Hc]|Hp].
  - unfold word. rewrite Hc. pose proof (pow2_pos _ HW).
    assert (0 < c) by nia.
    rewrite (Z.mul_comm c m), Z.rem_mul_r by lia.
    rewrite (Z.mul_comm m), Z_mod_plus_full. apply Zmod_mod.
  - rewrite word_small by lia; reflexivity.
Qed.

Lemma static_valid_range W m : static_valid W m -> 0 <= m < 2 ^ W.
Proof.
  intros (k & Hk & ->). pose proof (pow2_pos k ltac:(lia)).
  split; [lia|apply Z.pow_lt_mono_r; lia].
Qed.

Lemma static_valid_div W m : static_valid W m -> (m | 2 ^ W).
Proof.
  intros (k & Hk & ->). exists (2 ^ (W - k)). rewrite <- Z.pow_add_r by lia. f_equal; lia.
Qed.

Section Final.
Context {T : Type}.
Variable dflt : T.

Lemma static_run W k b h ops :
  0 <= k < W -> zlen b = 2 ^ k -> 0 <= h < 2 ^ W -> resizes (T := T) ops = [] ->
  exists s', run (fifo_step W dflt slot_static) (Fifo (2 ^ k) h h b) ops
             = Ok (s', queue_outputs dflt (2 ^ k) [] ops).
Proof.
  intros Hk Hb Hh Hr. rewrite <- (word_small W h Hh).
  pose proof (ex_intro _ k (conj Hk eq_refl) : static_valid W (2 ^ k)) as Hv.
  eapply (@run_ok T W dflt slot_static (static_valid W)); try lia.
  - apply static_valid_range.
  - intros; apply static_slot; auto.
  - apply (Rel_start W (static_valid W)); [apply static_valid_range|assumption|assumption].
  - rewrite Hr; intros n [].
  - left; split; [apply static_valid_div; assumption|]. rewrite Hr; intros n [].
Qed.

Lemma static_run_from W k h s0 ops :
  0 <= k < W -> 0 <= h < 2 ^ W -> f_max s0 = 2 ^ k -> zlen (f_buf s0) = 2 ^ k -> resizes (T := T) ops = [] ->
  exists s', run (fifo_step W dflt slot_static) (set_read_pos W (set_write_pos W s0 h) h) ops
             = Ok (s', queue_outputs dflt (2 ^ k) [] ops).
Proof.
  intros Hk Hh Hm Hb Hr. unfold set_read_pos, set_write_pos; cbn [f_max f_head f_tail f_buf].
  rewrite Hm, (word_small W h) by lia. apply static_run; assumption.
Qed.

Lemma static_run_head W k n ops :
  0 <= k < W -> 0 <= n <= 2 ^ k -> resizes (T := T) ops = [] ->
  exists s', run (fifo_step W dflt slot_static) (fifo_init_head dflt (2 ^ k) n) ops
             = Ok (s', queue_outputs dflt (2 ^ k) (zrepeat dflt n) ops).
Proof.
  intros Hk Hn Hr.
  pose proof (ex_intro _ k (conj Hk eq_refl) : static_valid W (2 ^ k)) as Hv.
  pose proof (static_valid_div _ _ Hv).
  eapply (@run_ok T W dflt slot_static (static_valid W)); try lia.
  - apply static_valid_range.
  - intros; apply static_slot; auto.
  - apply (Rel_init_head W dflt (static_valid W)); [lia|apply static_valid_range|assumption|lia|right; intros; left; assumption].
  - rewrite Hr; intros m [].
  - left; split; [assumption|]. rewrite Hr; intros m [].
Qed.

Lemma dyn_run W cap n ops :
  0 <= W -> 0 <= cap < 2 ^ W -> 0 <= n <= cap ->
  Forall (fun m => 0 <= m < 2 ^ W) (resizes (T := T) ops) ->
  ((cap | 2 ^ W) /\ Forall (fun m => (m | 2 ^ W)) (resizes ops) \/ n + count_puts ops <= 2 ^ W) ->
  exists s', run (fifo_step W dflt slot_dyn) (fifo_init_head dflt cap n) ops
             = Ok (s', queue_outputs dflt cap (zrepeat dflt n) ops).
Proof.
  intros HW Hc Hn Hr Hl. rewrite Forall_forall in Hr.
  eapply (@run_ok T W dflt slot_dyn (dyn_valid W)); try lia.
  - unfold dyn_valid; auto.
  - intros; apply dyn_slot; auto.
  - apply (Rel_init_head W dflt (dyn_valid W)); [lia|unfold dyn_valid; auto|assumption|lia|].
    right. intros p Hp; right; lia.
  - exact Hr.
  - destruct Hl as [[H1 H2]|H2]; [left; split; [assumption|]; rewrite Forall_forall in H2; assumption|right; lia].
Qed.

End Final.
