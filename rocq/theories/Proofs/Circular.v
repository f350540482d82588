From Verif.Common Require Import Base Lemmas.
From Verif.Spec Require Import RingSpec.
From Verif.Model Require Import Circular.
Ltac Zify.zify_post_hook ::= Z.div_mod_to_equations.

Section CB.
Context {T : Type}.
Variables (W k : Z) (dflt : T).
Hypothesis Hk : 0 <= k < W.
Notation cap := (2 ^ k).

Definition Rel (s : cbuf T) (q : list T) : Prop :=
  zlen (cb_buf s) = cap /\ 0 <= cb_tail s < cap /\ zlen q <= cap /\
  cb_head s = (cb_tail s + zlen q) mod cap /\ cb_full s = (zlen q =? cap) /\
  forall i, 0 <= i < zlen q -> znth (cb_buf s) ((cb_tail s + i) mod cap) = znth q i.

Lemma cap_bounds : 0 < cap /\ 2 * cap <= 2 ^ W.
Proof.
  clear dflt. split; [apply pow2_pos; lia|].
  rewrite <- Z.pow_succ_r by lia. apply Z.pow_le_mono_r; lia.
Qed.

Lemma inc_ok p : 0 <= p < cap -> inc W cap p = (p + 1) mod cap.
Proof.
  intros Hp. pose proof cap_bounds. unfold inc.
  rewrite land_ones_mod by lia. rewrite word_small by lia. reflexivity.
Qed.

Lemma head_eq_tail t n : 0 <= t < cap -> 0 <= n <= cap ->
  ((t + n) mod cap =? t) = (n =? 0) || (n =? cap).
Proof.
  intros Ht Hn. pose proof cap_bounds as [Hc _]. clear Hk.
  generalize dependent cap; intros c Hc0 Hn0 Hc1.
  destruct (Z.ltb_spec (t + n) c).
  - rewrite Z.mod_small by lia. lia.
  - replace (t + n) with (t + n - c + 1 * c) by lia. rewrite Z_mod_plus_full.
    destruct (Z.eq_dec n c) as [->|].
    + rewrite Z.mod_small by lia. lia.
    + rewrite Z.mod_small by lia. lia.
Qed.

Lemma empty_ok s q : Rel s q -> cb_empty s = (zlen q =? 0).
Proof.
  intros (Hb & Ht & Hq & Hh & Hf & Hc). pose proof cap_bounds. pose proof (zlen_nonneg q).
  unfold cb_empty. rewrite Hh, Hf, head_eq_tail by lia.
  destruct (zlen q =? cap) eqn:E1, (zlen q =? 0) eqn:E2; cbn; lia.
Qed.

Lemma take_ok s x q : Rel s (x :: q) ->
  rd (cb_buf s) (cb_tail s) = Ok x /\
  Rel (CBuf (cb_buf s) (cb_head s) (inc W cap (cb_tail s)) false) q.
Proof.
  intros (Hb & Ht & Hq & Hh & Hf & Hc). pose proof cap_bounds. pose proof (zlen_nonneg q).
  rewrite zlen_cons in *. rewrite inc_ok by lia. split.
  - apply rd_ok. rewrite <- (znth_cons_0 x q), <- Hc by lia. f_equal. rewrite Z.mod_small; lia.
  - unfold Rel; cbn [cb_buf cb_head cb_tail cb_full]. splits; try lia; try (apply Z.mod_pos_bound; lia).
    + rewrite Zplus_mod_idemp_l, Hh. f_equal; lia.
    + intros i Hi. rewrite Zplus_mod_idemp_l. specialize (Hc (i + 1) ltac:(lia)).
      rewrite znth_cons_pos in Hc by lia. replace (i + 1 - 1) with i in Hc by lia.
      rewrite <- Hc. f_equal; f_equal; lia.
Qed.

Lemma count_ok s q : Rel s q -> cb_count W cap s = zlen q.
Proof.
  intros (Hb & Ht & Hq & Hh & Hf & Hc). pose proof cap_bounds as [Hcap HW]. pose proof (zlen_nonneg q).
  unfold cb_count. rewrite Hf, Hh.
  destruct (Z.eqb_spec (zlen q) cap) as [E|E]; cbn [negb]; [lia|].
  destruct (Z.ltb_spec (cb_tail s + zlen q) cap).
  - rewrite Z.mod_small by lia.
    replace (cb_tail s + zlen q >=? cb_tail s) with true by lia.
    rewrite word_small; lia.
  - assert (Em : (cb_tail s + zlen q) mod cap = cb_tail s + zlen q - cap).
    { replace (cb_tail s + zlen q) with (cb_tail s + zlen q - cap + 1 * cap) at 1 by lia.
      rewrite Z_mod_plus_full, Z.mod_small; lia. }
    rewrite Em.
    replace (cb_tail s + zlen q - cap >=? cb_tail s) with false by lia.
    rewrite word_small; lia.
Qed.

Lemma step_refines s q o : Rel s q -> peek_in_range q o ->
  exists s', cb_step W cap dflt s o = Ok (s', snd (ring_step dflt cap q o)) /\ Rel s' (fst (ring_step dflt cap q o)).
Proof.
  intros HR HP. pose proof HR as (Hb & Ht & Hq & Hh & Hf & Hc). pose proof cap_bounds as [Hcap HW].
  pose proof (zlen_nonneg q) as Hqn.
  destruct o as [x| | | | | | | | |i|x]; cbn [cb_step ring_step fst snd].
  - (* put *)
    unfold cb_put. rewrite wr_ok by (rewrite Hb, Hh; apply Z.mod_pos_bound; lia). cbn [bind].
    eexists; split; [reflexivity|].
    assert (Hhr : 0 <= cb_head s < cap) by (rewrite Hh; apply Z.mod_pos_bound; lia).
    rewrite !inc_ok by lia. rewrite Hf.
    destruct (Z.eqb_spec (zlen q) cap) as [E|E].
    + destruct q as [|x0 q]; [rewrite zlen_nil in E; lia|]. cbn [tl]. rewrite zlen_cons in *.
      unfold Rel; cbn [cb_buf cb_head cb_tail cb_full]. zl. rewrite zlen_zupd.
      assert (Ehd : cb_head s = cb_tail s).
      { rewrite Hh. replace (cb_tail s + (zlen q + 1)) with (cb_tail s + 1 * cap) by lia.
        rewrite Z_mod_plus_full, Z.mod_small; lia. }
      splits; try lia; try (apply Z.mod_pos_bound; lia).
      * rewrite Ehd, Zplus_mod_idemp_l. replace (cb_tail s + 1 + (zlen q + 1)) with (cb_tail s + 1 + 1 * cap) by lia.
        rewrite Z_mod_plus_full; reflexivity.
      * rewrite Ehd. rewrite Z.eqb_refl. lia.
      * intros i Hi. rewrite Zplus_mod_idemp_l. destruct (Z.eq_dec i (zlen q)) as [->|].
        -- rewrite znth_app_r, Z.sub_diag by lia.
           replace (cb_tail s + 1 + zlen q) with (cb_tail s + 1 * cap) by lia.
           rewrite Z_mod_plus_full, Z.mod_small, Ehd by lia. rewrite znth_zupd_eq by lia. reflexivity.
        -- rewrite znth_app_l by lia. specialize (Hc (i + 1) ltac:(lia)).
           rewrite znth_cons_pos in Hc by lia. replace (i + 1 - 1) with i in Hc by lia.
           rewrite <- Hc, znth_zupd_ne; [f_equal; f_equal; lia|]. rewrite Ehd.
           rewrite <- (Z.mod_small (cb_tail s) cap) at 1 by lia. apply mod_neq; lia.
    + unfold Rel; cbn [cb_buf cb_head cb_tail cb_full]. zl. rewrite zlen_zupd.
      assert (E2 : (cb_head s + 1) mod cap = (cb_tail s + (zlen q + 1)) mod cap).
      { rewrite Hh, Zplus_mod_idemp_l. f_equal; lia. }
      splits; try lia.
      * rewrite E2, head_eq_tail by lia. lia.
      * intros i Hi. destruct (Z.eq_dec i (zlen q)) as [->|].
        -- rewrite znth_app_r, Z.sub_diag, <- Hh by lia. rewrite znth_zupd_eq by lia. reflexivity.
        -- rewrite znth_app_l by lia. rewrite znth_zupd_ne; [apply Hc; lia|].
           rewrite Hh. intros E3; symmetry in E3; revert E3. apply mod_neq; lia.
  - unfold cb_get. rewrite (empty_ok _ _ HR). destruct q as [|x q].
    + eexists; split; [reflexivity|exact HR].
    + replace (zlen (x :: q) =? 0) with false by (rewrite zlen_cons; pose proof (zlen_nonneg q); lia).
      destruct (take_ok _ _ _ HR) as [-> HR']. eexists; split; [reflexivity|exact HR'].
  - unfold cb_get_opt. rewrite (empty_ok _ _ HR). destruct q as [|x q].
    + eexists; split; [reflexivity|exact HR].
    + replace (zlen (x :: q) =? 0) with false by (rewrite zlen_cons; pose proof (zlen_nonneg q); lia).
      destruct (take_ok _ _ _ HR) as [-> HR']. eexists; split; [reflexivity|exact HR'].
  - unfold cb_remove_first. rewrite (empty_ok _ _ HR). destruct q as [|x q].
    + eexists; split; [reflexivity|exact HR].
    + replace (zlen (x :: q) =? 0) with false by (rewrite zlen_cons; pose proof (zlen_nonneg q); lia).
      destruct (take_ok _ _ _ HR) as [_ HR']. eexists; split; [reflexivity|exact HR'].
  - eexists; split; [reflexivity|]. unfold Rel, cb_reset; cbn [cb_buf cb_head cb_tail cb_full]. zl.
    splits; try lia. rewrite Z.add_0_r, Z.mod_small; lia.
  - rewrite (count_ok _ _ HR). eexists; split; [reflexivity|exact HR].
  - rewrite Hf. eexists; split; [reflexivity|exact HR].
  - rewrite (empty_ok _ _ HR). eexists; split; [reflexivity|exact HR].
  - eexists; split; [reflexivity|exact HR].
  - cbn in HP. unfold cb_peek. rewrite land_ones_mod by lia. rewrite word_small by lia.
    destruct (znth_some q i HP) as [x Hx]. rewrite Hx.
    rewrite (rd_ok _ _ x) by (rewrite <- Hx, <- Hc by lia; f_equal; f_equal; lia).
    eexists; split; [reflexivity|exact HR].
  - eexists; split; [reflexivity|]. unfold Rel, cb_fill; cbn [cb_buf cb_head cb_tail cb_full].
    rewrite !zlen_map. splits; try assumption; try lia. intros i Hi. rewrite !znth_map, Hc by lia. reflexivity.
Qed.

Lemma Rel_init : Rel (cb_init cap dflt) [].
Proof.
  pose proof cap_bounds. unfold Rel, cb_init; cbn [cb_buf cb_head cb_tail cb_full]. zl.
  rewrite zlen_zrepeat by lia. splits; try lia. rewrite Z.mod_small; lia.
Qed.

Lemma run_rel ops : guarded (ring_step dflt cap) peek_in_range [] ops ->
  exists s', run (cb_step W cap dflt) (cb_init cap dflt) ops = Ok (s', snd (srun (ring_step dflt cap) [] ops)) /\
             Rel s' (fst (srun (ring_step dflt cap) [] ops)).
Proof.
  intros HG. apply run_refines_guarded with (Rel := Rel) (guard := peek_in_range); auto using Rel_init.
  intros; apply step_refines; auto.
Qed.

Lemma run_ok ops : guarded (ring_step dflt cap) peek_in_range [] ops ->
  exists s', run (cb_step W cap dflt) (cb_init cap dflt) ops = Ok (s', snd (srun (ring_step dflt cap) [] ops)).
Proof. intros HG; destruct (run_rel _ HG) as (s' & E & _); eauto. Qed.

(** set_head on a buffer that is not full: it becomes the queue of the slots between. *)
Lemma set_head_rel s q h : Rel s q -> cb_full s = false -> 0 <= h < cap ->
  let n := (h - cb_tail_idx s) mod cap in
  exists items, zlen items = n /\
    (forall i, 0 <= i < n -> exists x, cb_peek W cap s i = Ok x /\ znth items i = Some x) /\
    Rel (cb_set_head W s h) items.
Proof.
  intros (Hb & Ht & Hq & Hh & Hf & Hc) Hnf Hhr n. pose proof cap_bounds as [Hcap HW].
  assert (Hn : 0 <= n < cap) by (apply Z.mod_pos_bound; lia).
  unfold cb_tail_idx in n.
  pose (items := ztab n (fun i => match znth (cb_buf s) ((cb_tail s + i) mod cap) with Some x => x | None => dflt end)).
  assert (Hlen : zlen items = n) by (apply zlen_ztab; lia).
  assert (Hith : forall i, 0 <= i < n -> exists x, znth (cb_buf s) ((cb_tail s + i) mod cap) = Some x /\ znth items i = Some x).
  { intros i Hi. destruct (znth_some (cb_buf s) ((cb_tail s + i) mod cap)) as [x Hx].
    { rewrite Hb; apply Z.mod_pos_bound; lia. }
    exists x; split; [assumption|]. unfold items. rewrite znth_ztab, Hx by lia. reflexivity. }
  exists items; splits; [assumption| |].
  - intros i Hi. destruct (Hith i Hi) as (x & H1 & H2). exists x; split; [|assumption].
    unfold cb_peek. rewrite land_ones_mod by lia. rewrite word_small by lia.
    apply rd_ok. rewrite <- H1; f_equal; f_equal; lia.
  - unfold Rel, cb_set_head; cbn [cb_buf cb_head cb_tail cb_full]. rewrite Hlen. splits; try lia.
    + rewrite word_small by lia. unfold n. rewrite Zplus_mod_idemp_r.
      replace (cb_tail s + (h - cb_tail s)) with h by lia. rewrite Z.mod_small; lia.
    + rewrite Hnf. symmetry. apply Z.eqb_neq. lia.
    + intros i Hi. destruct (Hith i Hi) as (x & H1 & H2). congruence.
Qed.

Lemma set_head_ok ops h s outs ops2 :
  guarded (ring_step dflt cap) peek_in_range [] ops ->
  run (cb_step W cap dflt) (cb_init cap dflt) ops = Ok (s, outs) ->
  cb_full s = false -> 0 <= h < cap ->
  let n := (h - cb_tail_idx s) mod cap in
  exists items, zlen items = n /\
    (forall i, 0 <= i < n -> exists x, cb_peek W cap s i = Ok x /\ znth items i = Some x) /\
    (guarded (ring_step dflt cap) peek_in_range items ops2 ->
     exists s', run (cb_step W cap dflt) (cb_set_head W s h) ops2 = Ok (s', snd (srun (ring_step dflt cap) items ops2))).
Proof.
  intros HG HR Hf Hh n. destruct (run_rel _ HG) as (s1 & E1 & R1).
  rewrite HR in E1; injection E1 as <- _.
  destruct (set_head_rel _ _ _ R1 Hf Hh) as (items & Hl & Hp & R2).
  exists items; splits; try assumption. intros HG2.
  destruct (run_refines_guarded (cb_step W cap dflt) (ring_step dflt cap) peek_in_range Rel) with (ops := ops2) (s := cb_set_head W s h) (q := items) as (s' & E & _); eauto.
  intros; apply step_refines; auto.
Qed.

Lemma set_head_oob ops h s outs x :
  guarded (ring_step dflt cap) peek_in_range [] ops ->
  run (cb_step W cap dflt) (cb_init cap dflt) ops = Ok (s, outs) ->
  cap <= h < 2 ^ W -> cb_put W cap (cb_set_head W s h) x = UB OutOfBounds.
Proof.
  intros HG HR Hh. destruct (run_rel _ HG) as (s1 & E1 & R1).
  rewrite HR in E1; injection E1 as <- _. destruct R1 as (Hb & _).
  unfold cb_put, cb_set_head; cbn [cb_buf cb_head]. rewrite word_small by lia.
  rewrite wr_oob by lia. reflexivity.
Qed.

End CB.

(** set_head on a full buffer: the count jumps from N to something else after one get. *)
Lemma set_head_full_wrong :
  exists s outs, run (cb_step 32 4 0) (cb_init 4 0) [RPut 1; RPut 2; RPut 3; RPut 4] = Ok (s, outs) /\
    cb_count 32 4 (cb_set_head 32 s 1) = 4 /\
    run (cb_step 32 4 0) (cb_set_head 32 s 1) [RCount; RGet; RCount] =
      Ok (CBuf [1; 2; 3; 4] 1 1 false, [ONum 4; OItem 1; ONum 0]).
Proof.
  exists (CBuf [1; 2; 3; 4] 0 0 true), [OUnit; OUnit; OUnit; OUnit].
  split; [vm_compute; reflexivity|]; split; vm_compute; reflexivity.
Qed.

(* ------------------------------------------------------------------ *)
Section Stack.
Context {T : Type}.
Variables (cap : Z) (dflt : T).
Hypothesis Hcap : 0 < cap.

Definition SRel (s : cstk T) (q : list T) : Prop :=
  zlen (st_data s) = cap /\ 0 <= st_top s < cap /\ 0 <= st_bot s < cap /\ zlen q <= cap /\
  st_top s = (st_bot s + zlen q) mod cap /\ st_full s = (zlen q =? cap) /\
  forall i, 0 <= i < zlen q -> znth (st_data s) ((st_top s - 1 - i) mod cap) = znth q i.

Lemma ssize_ok s q : SRel s q -> st_size cap s = zlen q.
Proof.
  clear dflt. intros (Hd & Ht & Hb & Hq & He & Hf & Hc). pose proof (zlen_nonneg q).
  unfold st_size. rewrite Hf. destruct (Z.eqb_spec (zlen q) cap) as [E|E]; [lia|].
  destruct (Z.ltb_spec (st_bot s + zlen q) cap) as [L|L].
  - rewrite Z.mod_small in He by lia. rewrite He.
    replace (st_bot s + zlen q >=? st_bot s) with true by lia. lia.
  - assert (Em : (st_bot s + zlen q) mod cap = st_bot s + zlen q - cap).
    { replace (st_bot s + zlen q) with (st_bot s + zlen q - cap + 1 * cap) at 1 by lia.
      rewrite Z_mod_plus_full, Z.mod_small; lia. }
    rewrite Em in He. rewrite He.
    replace (st_bot s + zlen q - cap >=? st_bot s) with false by lia. lia.
Qed.

Lemma dec_ok t : 0 <= t < cap -> (if t =? 0 then cap - 1 else t - 1) = (t - 1) mod cap.
Proof.
  clear dflt. intros Ht. destruct (Z.eqb_spec t 0) as [->|].
  - replace (0 - 1) with (cap - 1 + (-1) * cap) by lia. rewrite Z_mod_plus_full, Z.mod_small; lia.
  - rewrite Z.mod_small; lia.
Qed.

Lemma spop_ok s x q : SRel s (x :: q) ->
  rd (st_data s) ((st_top s - 1) mod cap) = Ok x /\
  SRel (CStk (st_data s) ((st_top s - 1) mod cap) (st_bot s) false) q.
Proof.
  clear dflt. intros (Hd & Ht & Hb & Hq & He & Hf & Hc). pose proof (zlen_nonneg q).
  rewrite zlen_cons in *. split.
  - apply rd_ok. rewrite <- (znth_cons_0 x q), <- Hc by lia. f_equal; f_equal; lia.
  - unfold SRel; cbn [st_data st_top st_bot st_full]. splits; try lia; try (apply Z.mod_pos_bound; lia).
    + rewrite He, Zminus_mod_idemp_l. f_equal; lia.
    + intros i Hi. specialize (Hc (i + 1) ltac:(lia)). rewrite znth_cons_pos in Hc by lia.
      replace (i + 1 - 1) with i in Hc by lia. rewrite <- Hc. f_equal.
      rewrite <- Z.sub_add_distr, Zminus_mod_idemp_l. f_equal; lia.
Qed.

Lemma sstep_refines s q o : SRel s q ->
  exists s', st_step cap dflt s o = Ok (s', snd (stack_step dflt cap q o)) /\ SRel s' (fst (stack_step dflt cap q o)).
Proof.
  intros HR. pose proof HR as (Hd & Ht & Hb & Hq & He & Hf & Hc). pose proof (zlen_nonneg q) as Hqn.
  pose proof (ssize_ok _ _ HR) as Hsz.
  destruct o as [x| | | | | | |]; cbn [st_step stack_step fst snd].
  - unfold st_push. rewrite wr_ok by lia. cbn [bind]. eexists; split; [reflexivity|].
    assert (Et : (if st_top s + 1 >=? cap then 0 else st_top s + 1) = (st_top s + 1) mod cap).
    { destruct (Z.geb_spec (st_top s + 1) cap).
      - replace (st_top s + 1) with (0 + 1 * cap) by lia. rewrite Z_mod_plus_full, Z.mod_small; lia.
      - rewrite Z.mod_small; lia. }
    rewrite Et. pose proof (Z.mod_pos_bound (st_top s + 1) cap Hcap) as Hmb.
    assert (Hcont : forall i, 0 <= i < cap -> i <= zlen q ->
       znth (zupd (st_data s) (st_top s) x) (((st_top s + 1) mod cap - 1 - i) mod cap) = znth (x :: q) i).
    { intros i Hi Hiq. rewrite <- Z.sub_add_distr, Zminus_mod_idemp_l.
      destruct (Z.eq_dec i 0) as [->|].
      - replace (st_top s + 1 - (1 + 0)) with (st_top s) by lia. rewrite Z.mod_small by lia.
        rewrite znth_zupd_eq by lia. reflexivity.
      - rewrite znth_cons_pos by lia. rewrite <- Hc by lia.
        replace (st_top s + 1 - (1 + i)) with (st_top s - i) by lia.
        replace (st_top s - 1 - (i - 1)) with (st_top s - i) by lia.
        rewrite znth_zupd_ne; [reflexivity|]. rewrite <- (Z.mod_small (st_top s) cap) at 1 by lia.
        intros E; symmetry in E; revert E; apply mod_neq; lia. }
    destruct (Z.eqb_spec (zlen q) cap) as [E|E]; rewrite Hf.
    + rewrite Z.eqb_refl. 
      assert (El : zlen (firstn (Z.to_nat cap) (x :: q)) = cap) by (apply zlen_firstn; rewrite zlen_cons; lia).
      unfold SRel; cbn [st_data st_top st_bot st_full]. rewrite El, zlen_zupd. splits; try lia.
      * replace ((st_top s + 1) mod cap + cap) with ((st_top s + 1) mod cap + 1 * cap) by lia.
        rewrite Z_mod_plus_full, Zmod_mod; reflexivity.
      * intros i Hi. rewrite Hcont by lia. rewrite znth_firstn by lia. reflexivity.
    + rewrite firstn_all2 by (cbn [length]; unfold zlen in *; lia).
      unfold SRel; cbn [st_data st_top st_bot st_full]. rewrite zlen_cons, zlen_zupd.
      assert (Et2 : (st_top s + 1) mod cap = (st_bot s + (zlen q + 1)) mod cap).
      { rewrite He, Zplus_mod_idemp_l. f_equal; lia. }
      splits; try lia.
      * rewrite Et2. destruct (Z.eqb_spec ((st_bot s + (zlen q + 1)) mod cap) (st_bot s)) as [E2|E2].
        -- symmetry. apply Z.eqb_eq. destruct (Z.eq_dec (zlen q + 1) cap); [assumption|exfalso].
           symmetry in E2. rewrite <- (Z.mod_small (st_bot s) cap) in E2 at 1 by lia.
           revert E2. apply mod_neq; lia.
        -- symmetry. apply Z.eqb_neq. intros E3. apply E2. rewrite E3.
           replace (st_bot s + cap) with (st_bot s + 1 * cap) by lia. rewrite Z_mod_plus_full, Z.mod_small; lia.
      * intros i Hi. apply Hcont; lia.
  - unfold st_pop. rewrite Hsz. destruct q as [|x q].
    + eexists; split; [reflexivity|exact HR].
    + replace (zlen (x :: q) =? 0) with false by (rewrite zlen_cons; pose proof (zlen_nonneg q); lia).
      rewrite dec_ok by lia. destruct (spop_ok _ _ _ HR) as [-> HR']. eexists; split; [reflexivity|exact HR'].
  - unfold st_pop_or_zero. rewrite Hsz. destruct q as [|x q].
    + eexists; split; [reflexivity|exact HR].
    + replace (zlen (x :: q) =? 0) with false by (rewrite zlen_cons; pose proof (zlen_nonneg q); lia).
      rewrite dec_ok by lia. destruct (spop_ok _ _ _ HR) as [-> HR']. eexists; split; [reflexivity|exact HR'].
  - unfold st_back. rewrite Hsz. destruct q as [|x q].
    + eexists; split; [reflexivity|exact HR].
    + replace (zlen (x :: q) =? 0) with false by (rewrite zlen_cons; pose proof (zlen_nonneg q); lia).
      rewrite dec_ok by lia. destruct (spop_ok _ _ _ HR) as [-> HR']. eexists; split; [reflexivity|exact HR].
  - rewrite Hsz. eexists; split; [reflexivity|exact HR].
  - unfold st_empty. rewrite Hf, He.
    assert (E0 : (if zlen q =? cap then false else if (st_bot s + zlen q) mod cap =? st_bot s then true else false) = (zlen q =? 0)).
    { destruct (Z.eqb_spec (zlen q) cap) as [E|E]; [lia|].
      destruct (Z.eqb_spec ((st_bot s + zlen q) mod cap) (st_bot s)) as [E2|E2].
      - destruct (Z.eq_dec (zlen q) 0); [lia|exfalso]. symmetry in E2.
        rewrite <- (Z.mod_small (st_bot s) cap) in E2 at 1 by lia. revert E2. apply mod_neq; lia.
      - symmetry; apply Z.eqb_neq. intros E3; apply E2. rewrite E3, Z.add_0_r, Z.mod_small; lia. }
    rewrite E0. eexists; split; [reflexivity|exact HR].
  - eexists; split; [reflexivity|]. unfold SRel, st_clear; cbn [st_data st_top st_bot st_full]. zl.
    splits; try lia. rewrite Z.mod_small; lia.
  - eexists; split; [reflexivity|exact HR].
Qed.

Lemma srel_init data : zlen data = cap -> SRel (st_init data) [].
Proof.
  intros Hd. unfold SRel, st_init; cbn [st_data st_top st_bot st_full]. zl. splits; try lia. rewrite Z.mod_small; lia.
Qed.

Lemma stack_run data ops : zlen data = cap ->
  exists s', run (st_step cap dflt) (st_init data) ops = Ok (s', snd (srun (stack_step dflt cap) [] ops)).
Proof.
  intros Hd. destruct (run_refines (st_step cap dflt) (stack_step dflt cap) SRel) with (ops := ops) (s := st_init data) (q := @nil T) as (s' & E & _).
  - intros; apply sstep_refines; assumption.
  - apply srel_init; assumption.
  - eauto.
Qed.

Lemma stack_from ts ops : zlen ts <= cap ->
  exists s', run (st_step cap dflt) (st_init_from cap dflt ts) ops = Ok (s', snd (srun (stack_step dflt cap) [] ops)).
Proof.
  intros Hts. apply stack_run. pose proof (zlen_nonneg ts). rewrite zlen_app, zlen_zrepeat; lia.
Qed.
End Stack.

Lemma set_head_full_wrong' {T} W k (dflt : T) (Hk : 0 <= k < W) ops h s outs :
  guarded (ring_step dflt (2 ^ k)) peek_in_range [] ops ->
  run (cb_step W (2 ^ k) dflt) (cb_init (2 ^ k) dflt) ops = Ok (s, outs) ->
  cb_full s = true -> 0 <= h < 2 ^ k ->
  exists s' x n, run (cb_step W (2 ^ k) dflt) (cb_set_head W s h) [RCount; RGet; RCount] = Ok (s', [ONum (2 ^ k); OItem x; ONum n]) /\
    n = (h - cb_tail_idx s - 1) mod 2 ^ k /\ (n = 2 ^ k - 1 <-> h = cb_head_idx s).
Proof.
  intros HG HR Hf Hh. destruct (run_rel W k dflt Hk _ HG) as (s1 & E1 & R1).
  rewrite HR in E1; injection E1 as <- _. destruct R1 as (Hb & Ht & Hq & Hhd & Hfl & Hc).
  pose proof (cap_bounds W k Hk) as [Hc0 Hc1].
  rewrite Hf in Hfl. symmetry in Hfl. apply Z.eqb_eq in Hfl.
  assert (Ehd : cb_head s = cb_tail s).
  { rewrite Hhd, Hfl. replace (cb_tail s + 2 ^ k) with (cb_tail s + 1 * 2 ^ k) by lia. rewrite Z_mod_plus_full, Z.mod_small; lia. }
  unfold cb_tail_idx, cb_head_idx. rewrite Ehd.
  destruct (znth_some (cb_buf s) (cb_tail s) ltac:(lia)) as (x & Ex).
  destruct s as [b hd t f]; cbn [cb_buf cb_head cb_tail cb_full] in *. subst f hd.
  unfold cb_set_head. cbn [run cb_step bind cb_buf cb_head cb_tail cb_full]. rewrite (word_small W h) by lia.
  unfold cb_get, cb_empty, cb_count at 1. cbn [cb_buf cb_head cb_tail cb_full negb andb].
  rewrite (rd_ok _ _ _ Ex). cbn [bind]. do 3 eexists. split; [reflexivity|].
  rewrite inc_ok by lia. unfold cb_count; cbn [cb_buf cb_head cb_tail cb_full negb].
  destruct (Z.eq_dec (t + 1) (2 ^ k)) as [E|E].
  - rewrite E, Z_mod_same_full. destruct (Z.geb_spec h 0); [|lia]. rewrite Z.sub_0_r, word_small by lia.
    replace (h - t - 1) with (h + (-1) * 2 ^ k) by lia. rewrite Z_mod_plus_full, Z.mod_small by lia. lia.
  - rewrite (Z.mod_small (t + 1)) by lia. destruct (Z.geb_spec h (t + 1)).
    + rewrite word_small by lia. rewrite Z.mod_small by lia. lia.
    + rewrite word_small by lia. replace (h - t - 1) with (2 ^ k + h - (t + 1) + (-1) * 2 ^ k) by lia. rewrite Z_mod_plus_full, Z.mod_small by lia. lia.
Qed.
