From Verif.Common Require Import Base Lemmas.
From Verif.Model Require Import CircularExt.
From Verif.Spec Require Import AccessSpec.
Ltac Zify.zify_post_hook ::= Z.div_mod_to_equations.

Lemma incmod p m : 0 <= p < m -> (if p + 1 >=? m then 0 else p + 1) = (p + 1) mod m.
Proof.
  intros H. destruct (Z.geb_spec (p + 1) m).
  - replace (p + 1) with (0 + 1 * m) by lia. rewrite Z_mod_plus_full, Z.mod_small; lia.
  - rewrite Z.mod_small; lia.
Qed.

Lemma mod_sub1 p m : 0 <= p < m -> (p - 1) mod m = if p =? 0 then m - 1 else p - 1.
Proof.
  intros H. destruct (Z.eqb_spec p 0) as [->|].
  - replace (0 - 1) with (m - 1 + (-1) * m) by lia. rewrite Z_mod_plus_full, Z.mod_small; lia.
  - rewrite Z.mod_small; lia.
Qed.

Lemma mod_once p n m : 0 <= p < m -> 0 <= n <= m -> (p + n) mod m = if p + n <? m then p + n else p + n - m.
Proof.
  intros H Hn. destruct (Z.ltb_spec (p + n) m).
  - rewrite Z.mod_small; lia.
  - replace (p + n) with (p + n - m + 1 * m) at 1 by lia. rewrite Z_mod_plus_full, Z.mod_small; lia.
Qed.

Lemma mod_once_sub p n m : 0 <= p < m -> 0 <= n <= m -> (p - n) mod m = if p - n <? 0 then p - n + m else p - n.
Proof.
  intros H Hn. destruct (Z.ltb_spec (p - n) 0).
  - replace (p - n) with (p - n + m + (-1) * m) at 1 by lia. rewrite Z_mod_plus_full, Z.mod_small; lia.
  - rewrite Z.mod_small; lia.
Qed.

Section Access.
Context {T : Type}.
Variables (W : Z) (mix : T -> T -> T) (zero : T).

Lemma read_spec n : forall (s : acc T) w, acc_ok W s ->
  exists ds, read_loop W n s w =
     Ok (Acc (a_buf s) (a_sz s) ((a_rd s + Z.of_nat n) mod a_sz s) (a_wr s), ds,
         w || (a_sz s <=? a_rd s + Z.of_nat n)) /\
     map Some ds = ztab (Z.of_nat n) (fun i => znth (a_buf s) ((a_rd s + i) mod a_sz s)).
Proof using T W. clear mix zero.
  induction n as [|n IH]; intros s w (Hs & Hz & Hr & Hw); cbn [read_loop].
  - exists []. rewrite Z.add_0_r, Z.mod_small by lia. destruct s; cbn in *. split; [|reflexivity].
    do 2 f_equal. destruct w; cbn [orb]; [reflexivity|]; symmetry; apply not_true_iff_false; intros ?; lia.
  - destruct (znth_some (a_buf s) (a_rd s)) as [d Hd]; [lia|].
    rewrite (rd_ok _ _ _ Hd). cbn [bind]. rewrite (word_small W (a_rd s + 1)) by lia.
    pose proof (incmod (a_rd s) (a_sz s) Hr) as Ei.
    assert (Ep : (if a_rd s + 1 >=? a_sz s then (0, true) else (a_rd s + 1, w)) =
                 ((a_rd s + 1) mod a_sz s, w || (a_rd s + 1 >=? a_sz s))).
    { rewrite <- Ei. destruct (a_rd s + 1 >=? a_sz s); f_equal; destruct w; reflexivity. }
    rewrite Ep.
    destruct (IH (Acc (a_buf s) (a_sz s) ((a_rd s + 1) mod a_sz s) (a_wr s)) (w || (a_rd s + 1 >=? a_sz s))) as (ds & E & Hds).
    { unfold acc_ok; cbn. splits; try lia; apply Z.mod_pos_bound; lia. }
    rewrite E; cbn [bind a_buf a_sz a_rd a_wr] in *. exists (d :: ds). split.
    + do 2 f_equal; [f_equal; f_equal|].
      * rewrite Zplus_mod_idemp_l. f_equal; lia.
      * rewrite <- Ei. destruct (Z.geb_spec (a_rd s + 1) (a_sz s)); destruct w; cbn [orb]; lia.
    + cbn [map]. rewrite Hds. apply znth_ext.
      * rewrite zlen_cons, !zlen_ztab by lia. lia.
      * intros i Hi. rewrite zlen_cons, zlen_ztab in Hi by lia.
        rewrite (znth_ztab (Z.of_nat (S n))) by lia.
        destruct (Z.eq_dec i 0) as [->|].
        -- rewrite znth_cons_0, Z.add_0_r, Z.mod_small, Hd by lia. reflexivity.
        -- rewrite znth_cons_pos, znth_ztab by lia. rewrite Zplus_mod_idemp_l. do 3 f_equal; lia.
Qed.

Lemma read_reverse_spec n : forall (s : acc T) w, acc_ok W s ->
  exists ds, read_reverse_loop W n s w =
     Ok (Acc (a_buf s) (a_sz s) ((a_rd s - Z.of_nat n) mod a_sz s) (a_wr s), ds,
         w || (a_rd s - Z.of_nat n <? 0)) /\
     map Some ds = ztab (Z.of_nat n) (fun i => znth (a_buf s) ((a_rd s - i) mod a_sz s)).
Proof using T W. clear mix zero.
  induction n as [|n IH]; intros s w (Hs & Hz & Hr & Hw); cbn [read_reverse_loop].
  - exists []. rewrite Z.sub_0_r, Z.mod_small by lia. destruct s; cbn in *. split; [|reflexivity].
    do 2 f_equal. destruct w; cbn [orb]; [reflexivity|]; symmetry; apply not_true_iff_false; intros ?; lia.
  - destruct (znth_some (a_buf s) (a_rd s)) as [d Hd]; [lia|].
    rewrite (rd_ok _ _ _ Hd). cbn [bind].
    pose proof (mod_sub1 (a_rd s) (a_sz s) Hr) as Ei.
    assert (Ep : (if word W (a_rd s - 1) >=? a_sz s then (word W (a_sz s - 1), true) else (word W (a_rd s - 1), w)) =
                 ((a_rd s - 1) mod a_sz s, w || (a_rd s - 1 <? 0))).
    { rewrite Ei. destruct (Z.eqb_spec (a_rd s) 0) as [E0|E0].
      - rewrite E0. replace (word W (0 - 1)) with (2 ^ W - 1).
        + replace (2 ^ W - 1 >=? a_sz s) with true by lia. rewrite word_small by lia. f_equal. destruct w; lia.
        + unfold word. replace (0 - 1) with (2 ^ W - 1 + (-1) * 2 ^ W) by lia. rewrite Z_mod_plus_full, Z.mod_small; lia.
      - rewrite word_small by lia. replace (a_rd s - 1 >=? a_sz s) with false by lia.
        f_equal. destruct w; lia. }
    rewrite Ep.
    destruct (IH (Acc (a_buf s) (a_sz s) ((a_rd s - 1) mod a_sz s) (a_wr s)) (w || (a_rd s - 1 <? 0))) as (ds & E & Hds).
    { unfold acc_ok; cbn. splits; try lia; apply Z.mod_pos_bound; lia. }
    rewrite E; cbn [bind a_buf a_sz a_rd a_wr] in *. exists (d :: ds). split.
    + do 2 f_equal; [f_equal; f_equal|].
      * rewrite Zminus_mod_idemp_l. f_equal; lia.
      * rewrite Ei. destruct (Z.eqb_spec (a_rd s) 0); destruct w; cbn [orb]; lia.
    + cbn [map]. rewrite Hds. apply znth_ext.
      * rewrite zlen_cons, !zlen_ztab by lia. lia.
      * intros i Hi. rewrite zlen_cons, zlen_ztab in Hi by lia.
        rewrite (znth_ztab (Z.of_nat (S n))) by lia.
        destruct (Z.eq_dec i 0) as [->|].
        -- rewrite znth_cons_0, Z.sub_0_r, Z.mod_small, Hd by lia. reflexivity.
        -- rewrite znth_cons_pos, znth_ztab by lia. rewrite Zminus_mod_idemp_l. do 3 f_equal; lia.
Qed.

(** The buffer after storing [data] at wr, wr+dir, ... : element by element. *)
Fixpoint stored (sz dir p : Z) (data : list T) (b : list T) : list T :=
  match data with
  | [] => b
  | d :: ds => stored sz dir (p + dir) ds
      (match znth b (p mod sz) with Some old => zupd b (p mod sz) (mix d old) | None => b end)
  end.

Lemma stored_mod sz dir data : forall p b, 0 < sz -> stored sz dir (p mod sz) data b = stored sz dir p data b.
Proof using T mix. clear W zero.
  induction data as [|d ds IH]; intros p b Hs; cbn [stored]; [reflexivity|].
  rewrite Zmod_mod. rewrite <- (IH (p mod sz + dir)), <- (IH (p + dir)) by lia.
  rewrite Zplus_mod_idemp_l. reflexivity.
Qed.

Lemma zlen_stored sz dir data : forall p b, zlen (stored sz dir p data b) = zlen b.
Proof using T mix. clear W zero.
  induction data as [|d ds IH]; intros p b; cbn [stored]; [reflexivity|].
  rewrite IH. destruct (znth b (p mod sz)); [apply zlen_zupd|reflexivity].
Qed.

Lemma write_spec data : forall (s : acc T) w, acc_ok W s ->
  write_loop W mix data s w =
     Ok (Acc (stored (a_sz s) 1 (a_wr s) data (a_buf s)) (a_sz s) (a_rd s) ((a_wr s + zlen data) mod a_sz s),
         w || (a_sz s <=? a_wr s + zlen data)).
Proof using T W mix. clear zero.
  induction data as [|d ds IH]; intros s w (Hs & Hz & Hr & Hw); cbn [write_loop stored].
  - rewrite zlen_nil, Z.add_0_r, Z.mod_small by lia. destruct s; cbn in *. do 2 f_equal. destruct w; cbn [orb]; [reflexivity|]; symmetry; apply not_true_iff_false; intros ?; lia.
  - destruct (znth_some (a_buf s) (a_wr s)) as [o Ho]; [lia|].
    rewrite (rd_ok _ _ _ Ho). cbn [bind]. rewrite wr_ok by lia. cbn [bind].
    rewrite (word_small W (a_wr s + 1)) by lia. rewrite (Z.mod_small (a_wr s) (a_sz s)), Ho by lia.
    pose proof (incmod (a_wr s) (a_sz s) Hw) as Ei.
    assert (Ep : (if a_wr s + 1 >=? a_sz s then (0, true) else (a_wr s + 1, w)) =
                 ((a_wr s + 1) mod a_sz s, w || (a_wr s + 1 >=? a_sz s))).
    { rewrite <- Ei. destruct (a_wr s + 1 >=? a_sz s); f_equal; destruct w; reflexivity. }
    rewrite Ep, IH.
    2:{ unfold acc_ok; cbn. rewrite zlen_zupd. splits; try lia; apply Z.mod_pos_bound; lia. }
    cbn [a_buf a_sz a_rd a_wr]. rewrite stored_mod by lia. rewrite zlen_cons. do 2 f_equal.
    + f_equal. rewrite Zplus_mod_idemp_l. f_equal; lia.
    + rewrite <- Ei. pose proof (zlen_nonneg ds). destruct (Z.geb_spec (a_wr s + 1) (a_sz s)); destruct w; cbn [orb]; lia.
Qed.

Lemma write_reverse_spec data : forall (s : acc T) w, acc_ok W s ->
  write_reverse_loop W mix data s w =
     Ok (Acc (stored (a_sz s) (-1) (a_wr s) data (a_buf s)) (a_sz s) (a_rd s) ((a_wr s - zlen data) mod a_sz s),
         w || (a_wr s - zlen data <? 0)).
Proof using T W mix. clear zero.
  induction data as [|d ds IH]; intros s w (Hs & Hz & Hr & Hw); cbn [write_reverse_loop stored].
  - rewrite zlen_nil, Z.sub_0_r, Z.mod_small by lia. destruct s; cbn in *. do 2 f_equal. destruct w; cbn [orb]; [reflexivity|]; symmetry; apply not_true_iff_false; intros ?; lia.
  - destruct (znth_some (a_buf s) (a_wr s)) as [o Ho]; [lia|].
    rewrite (rd_ok _ _ _ Ho). cbn [bind]. rewrite wr_ok by lia. cbn [bind].
    rewrite (Z.mod_small (a_wr s) (a_sz s)), Ho by lia.
    pose proof (mod_sub1 (a_wr s) (a_sz s) Hw) as Ei.
    assert (Ep : (if word W (a_wr s - 1) >=? a_sz s then (word W (a_sz s - 1), true) else (word W (a_wr s - 1), w)) =
                 ((a_wr s - 1) mod a_sz s, w || (a_wr s - 1 <? 0))).
    { rewrite Ei. destruct (Z.eqb_spec (a_wr s) 0) as [E0|E0].
      - rewrite E0. replace (word W (0 - 1)) with (2 ^ W - 1).
        + replace (2 ^ W - 1 >=? a_sz s) with true by lia. rewrite word_small by lia. f_equal. destruct w; lia.
        + unfold word. replace (0 - 1) with (2 ^ W - 1 + (-1) * 2 ^ W) by lia. rewrite Z_mod_plus_full, Z.mod_small; lia.
      - rewrite word_small by lia. replace (a_wr s - 1 >=? a_sz s) with false by lia.
        f_equal. destruct w; lia. }
    rewrite Ep, IH.
    2:{ unfold acc_ok; cbn. rewrite zlen_zupd. splits; try lia; apply Z.mod_pos_bound; lia. }
    cbn [a_buf a_sz a_rd a_wr]. rewrite stored_mod by lia. rewrite zlen_cons. do 2 f_equal.
    + f_equal. rewrite Zminus_mod_idemp_l. f_equal; lia.
    + rewrite Ei. pose proof (zlen_nonneg ds). destruct (Z.eqb_spec (a_wr s) 0); destruct w; cbn [orb]; lia.
Qed.

(** Reading [stored]: blocks no longer than the buffer touch each index at most once. *)
Lemma stored_untouched sz dir data : forall p b j, 0 < sz -> 0 <= j < sz ->
  (forall i, 0 <= i < zlen data -> (p + dir * i) mod sz <> j) ->
  znth (stored sz dir p data b) j = znth b j.
Proof using T mix. clear W zero.
  induction data as [|d ds IH]; intros p b j Hs Hj Hi; cbn [stored]; [reflexivity|].
  rewrite zlen_cons in Hi. rewrite IH; [|assumption|assumption|].
  - destruct (znth b (p mod sz)); [|reflexivity].
    apply znth_zupd_ne. specialize (Hi 0). rewrite Z.mul_0_r, Z.add_0_r in Hi.
    apply Hi. pose proof (zlen_nonneg ds); lia.
  - intros i Hir. replace (p + dir + dir * i) with (p + dir * (i + 1)) by lia. apply Hi; lia.
Qed.

Lemma stored_at sz dir data : forall p b i d old, (dir = 1 \/ dir = -1) -> 0 < sz -> zlen b = sz ->
  0 <= i -> zlen data <= sz ->
  znth data i = Some d -> znth b ((p + dir * i) mod sz) = Some old ->
  znth (stored sz dir p data b) ((p + dir * i) mod sz) = Some (mix d old).
Proof using T mix. clear W zero.
  induction data as [|d0 ds IH]; intros p b i d old Hd Hs Hb Hi Hl Hz Ho; cbn [stored].
  - rewrite znth_nil in Hz; discriminate.
  - rewrite zlen_cons in Hl. destruct (Z.eq_dec i 0) as [->|].
    + rewrite znth_cons_0 in Hz; injection Hz as ->. rewrite Z.mul_0_r, Z.add_0_r in *. rewrite Ho.
      pose proof (Z.mod_pos_bound p sz Hs).
      rewrite stored_untouched; [apply znth_zupd_eq; lia|assumption|lia|].
      intros i Hi2. destruct Hd as [->| ->].
      * replace (p + 1 + 1 * i) with (p + (i + 1)) by lia. intros E; symmetry in E; revert E; apply mod_neq; lia.
      * replace (p + -1 + -1 * i) with (p - (i + 1)) by lia. apply mod_neq; lia.
    + rewrite znth_cons_pos in Hz by lia. apply znth_some_range in Hz as Hr.
      replace (p + dir * i) with (p + dir + dir * (i - 1)) in * by lia.
      apply IH; try assumption; try lia.
      * destruct (znth b (p mod sz)); [rewrite zlen_zupd|]; assumption.
      * destruct (znth b (p mod sz)) eqn:Ep; [|assumption]. rewrite znth_zupd_ne; [assumption|].
        destruct Hd as [->| ->].
        -- replace (p + 1 + 1 * (i - 1)) with (p + i) by lia. apply mod_neq; lia.
        -- replace (p + -1 + -1 * (i - 1)) with (p - i) by lia. intros E; symmetry in E; revert E; apply mod_neq; lia.
Qed.

(** With a [mix] that ignores the old value, longer blocks leave their last elements. *)
Lemma stored_last sz dir data : (forall d o, mix d o = d) ->
  forall p b i d, (dir = 1 \/ dir = -1) -> 0 < sz -> zlen b = sz ->
  0 <= i -> zlen data - sz <= i -> znth data i = Some d ->
  znth (stored sz dir p data b) ((p + dir * i) mod sz) = Some d.
Proof using T mix. clear W zero.
  intros Hm. induction data as [|d0 ds IH]; intros p b i d Hd Hs Hb Hi Hl Hz; cbn [stored].
  - rewrite znth_nil in Hz; discriminate.
  - rewrite zlen_cons in Hl.
    pose proof (Z.mod_pos_bound p sz Hs) as Hpm.
    destruct (znth_some b (p mod sz)) as [o Ho]; [lia|]. rewrite Ho, Hm.
    destruct (Z.eq_dec i 0) as [->|].
    + rewrite znth_cons_0 in Hz; injection Hz as ->. rewrite Z.mul_0_r, Z.add_0_r in *.
      rewrite stored_untouched; [apply znth_zupd_eq; lia|assumption|lia|].
      intros i Hi2. destruct Hd as [->| ->].
      * replace (p + 1 + 1 * i) with (p + (i + 1)) by lia. intros E; symmetry in E; revert E; apply mod_neq; lia.
      * replace (p + -1 + -1 * i) with (p - (i + 1)) by lia. apply mod_neq; lia.
    + rewrite znth_cons_pos in Hz by lia.
      replace (p + dir * i) with (p + dir + dir * (i - 1)) by lia.
      apply IH; try assumption; try lia. rewrite zlen_zupd; assumption.
Qed.

(** *** Statements used in Props *)

Lemma read_ok (s : acc T) n : acc_ok W s -> 0 <= n ->
  exists ds, acc_read W s n = Ok (Acc (a_buf s) (a_sz s) ((a_rd s + n) mod a_sz s) (a_wr s), ds, a_sz s <=? a_rd s + n) /\
     map Some ds = ztab n (fun i => znth (a_buf s) ((a_rd s + i) mod a_sz s)).
Proof using T W. clear mix zero.
  intros HI Hn. destruct (read_spec (Z.to_nat n) s false HI) as (ds & E & H).
  rewrite Z2Nat.id in * by lia. eauto.
Qed.

Lemma read_reverse_ok (s : acc T) n : acc_ok W s -> 0 <= n ->
  exists ds, acc_read_reverse W s n = Ok (Acc (a_buf s) (a_sz s) ((a_rd s - n) mod a_sz s) (a_wr s), ds, a_rd s - n <? 0) /\
     map Some ds = ztab n (fun i => znth (a_buf s) ((a_rd s - i) mod a_sz s)).
Proof using T W. clear mix zero.
  intros HI Hn. destruct (read_reverse_spec (Z.to_nat n) s false HI) as (ds & E & H).
  rewrite Z2Nat.id in * by lia. eauto.
Qed.

Lemma write_ok (s : acc T) data : acc_ok W s ->
  exists s', acc_write W mix s data = Ok (s', a_sz s <=? a_wr s + zlen data) /\ writes_block mix 1 s s' data.
Proof using T W mix. clear zero.
  intros HI. unfold acc_write. rewrite write_spec by assumption. eexists; split; [reflexivity|].
  destruct HI as (Hs & Hz & Hr & Hw). unfold writes_block; cbn [a_buf a_sz a_rd a_wr]. rewrite zlen_stored.
  rewrite Z.mul_1_l. splits; try reflexivity.
  - intros Hl i d old Hd Ho. apply znth_some_range in Hd as Hdr. apply stored_at; try assumption; try lia.
  - intros Hm i d Hd Hi. apply znth_some_range in Hd as Hdr. apply stored_last; try assumption; try lia.
  - intros j Hj Hn. apply stored_untouched; try assumption; lia.
Qed.

Lemma write_reverse_ok (s : acc T) data : acc_ok W s ->
  exists s', acc_write_reverse W mix s data = Ok (s', a_wr s - zlen data <? 0) /\ writes_block mix (-1) s s' data.
Proof using T W mix. clear zero.
  intros HI. unfold acc_write_reverse. rewrite write_reverse_spec by assumption. eexists; split; [reflexivity|].
  destruct HI as (Hs & Hz & Hr & Hw). unfold writes_block; cbn [a_buf a_sz a_rd a_wr]. rewrite zlen_stored.
  splits; try reflexivity.
  - intros Hl i d old Hd Ho. apply znth_some_range in Hd as Hdr. apply stored_at; try assumption; try lia.
  - intros Hm i d Hd Hi. apply znth_some_range in Hd as Hdr. apply stored_last; try assumption; try lia.
  - intros j Hj Hn. apply stored_untouched; try assumption; lia.
Qed.

Lemma clear_loop_ok n : forall i b, 0 <= i -> i + Z.of_nat n <= zlen b ->
  exists b', clear_loop zero n i b = Ok b' /\ zlen b' = zlen b /\
    forall j, znth b' j = if (i <=? j) && (j <? i + Z.of_nat n) then Some zero else znth b j.
Proof using T zero. clear W mix.
  induction n as [|n IH]; intros i b Hi Hn; cbn [clear_loop].
  - exists b; splits; try reflexivity. intros j. replace ((i <=? j) && (j <? i + Z.of_nat 0)) with false by lia. reflexivity.
  - rewrite wr_ok by lia. cbn [bind]. destruct (IH (i + 1) (zupd b i zero)) as (b' & E & Hl & Hc); [lia|rewrite zlen_zupd; lia|].
    exists b'; splits; [assumption|rewrite Hl; apply zlen_zupd|].
    intros j. rewrite Hc. rewrite znth_zupd.
    destruct (Z.eqb_spec i j) as [<-|]; cbn [andb].
    + replace ((i + 1 <=? i) && (i <? i + 1 + Z.of_nat n)) with false by lia.
      replace ((0 <=? i) && (i <? zlen b)) with true by lia.
      replace ((i <=? i) && (i <? i + Z.of_nat (S n))) with true by lia. reflexivity.
    + replace ((i + 1 <=? j) && (j <? i + 1 + Z.of_nat n)) with ((i <=? j) && (j <? i + Z.of_nat (S n))) by lia. reflexivity.
Qed.

Lemma clear_ok (s : acc T) : acc_ok W s ->
  exists s', acc_clear zero s = Ok s' /\ a_buf s' = zrepeat zero (a_sz s) /\ a_sz s' = a_sz s /\ a_rd s' = a_rd s /\ a_wr s' = a_wr s.
Proof using T W zero. clear mix.
  intros (Hs & Hz & Hr & Hw). unfold acc_clear.
  destruct (clear_loop_ok (Z.to_nat (a_sz s)) 0 (a_buf s)) as (b & E & Hl & Hc); [lia|lia|].
  rewrite E; cbn [bind]. eexists; split; [reflexivity|]. cbn [a_buf a_sz a_rd a_wr]. splits; try reflexivity.
  apply znth_ext; [rewrite zlen_zrepeat; lia|]. intros i Hi. rewrite Hc, znth_zrepeat by lia.
  replace ((0 <=? i) && (i <? 0 + Z.of_nat (Z.to_nat (a_sz s)))) with true by lia. reflexivity.
Qed.

Lemma step_safe (s : acc T) o : acc_ok W s -> op_pos_ok (a_sz s) o ->
  exists s' r, acc_step W mix zero s o = Ok (s', r) /\ acc_ok W s' /\ a_sz s' = a_sz s.
Proof.
  intros HI HO. pose proof HI as (Hs & Hz & Hr & Hw).
  assert (HR : forall n, acc_ok W (Acc (a_buf s) (a_sz s) ((a_rd s + n) mod a_sz s) (a_wr s))).
  { intros n. unfold acc_ok; cbn. splits; try lia; apply Z.mod_pos_bound; lia. }
  assert (HRR : forall n, acc_ok W (Acc (a_buf s) (a_sz s) ((a_rd s - n) mod a_sz s) (a_wr s))).
  { intros n. unfold acc_ok; cbn. splits; try lia; apply Z.mod_pos_bound; lia. }
  assert (HWB : forall dir s' data, writes_block mix dir s s' data -> acc_ok W s' /\ a_sz s' = a_sz s).
  { intros dir s' data (E1 & E2 & E3 & E4 & _). split; [|assumption]. unfold acc_ok.
    rewrite E1, E2, E3, E4. splits; try lia; apply Z.mod_pos_bound; lia. }
  destruct o as [n|n|d|d|n m|n m|d m| |p|p| |]; cbn [acc_step op_pos_ok] in *.
  - destruct (read_ok s n HI HO) as (ds & -> & _). do 2 eexists; split; [reflexivity|split; [apply HR|reflexivity]].
  - destruct (read_reverse_ok s n HI HO) as (ds & -> & _). do 2 eexists; split; [reflexivity|split; [apply HRR|reflexivity]].
  - destruct (write_ok s d HI) as (s' & -> & HB). do 2 eexists; split; [reflexivity|eapply HWB; eassumption].
  - destruct (write_reverse_ok s d HI) as (s' & -> & HB). do 2 eexists; split; [reflexivity|eapply HWB; eassumption].
  - unfold acc_read_check. destruct (read_ok s n HI HO) as (ds & -> & _). do 2 eexists; split; [reflexivity|split; [apply HR|reflexivity]].
  - unfold acc_read_reverse_check. destruct (read_reverse_ok s n HI HO) as (ds & -> & _). do 2 eexists; split; [reflexivity|split; [apply HRR|reflexivity]].
  - unfold acc_write_check. destruct (write_ok s d HI) as (s' & -> & HB). do 2 eexists; split; [reflexivity|eapply HWB; eassumption].
  - destruct (clear_ok s HI) as (s' & -> & E1 & E2 & E3 & E4). do 2 eexists; split; [reflexivity|].
    split; [|assumption]. unfold acc_ok. rewrite E1, E2, E3, E4. rewrite zlen_zrepeat by lia. splits; lia.
  - do 2 eexists; split; [reflexivity|]. split; [|reflexivity]. unfold acc_ok, acc_set_rd; cbn. rewrite word_small by lia. splits; lia.
  - do 2 eexists; split; [reflexivity|]. split; [|reflexivity]. unfold acc_ok, acc_set_wr; cbn. rewrite word_small by lia. splits; lia.
  - do 2 eexists; split; [reflexivity|auto].
  - do 2 eexists; split; [reflexivity|auto].
Qed.

Lemma history_safe ops : forall s : acc T, acc_ok W s -> Forall (op_pos_ok (a_sz s)) ops ->
  exists s' outs, run (acc_step W mix zero) s ops = Ok (s', outs) /\ acc_ok W s' /\ a_sz s' = a_sz s.
Proof.
  induction ops as [|o ops IH]; intros s HI HF; cbn [run].
  - do 2 eexists; split; [reflexivity|auto].
  - inversion HF as [|? ? Ho HF']; subst.
    destruct (step_safe s o HI Ho) as (s1 & r & -> & HI1 & E1). cbn [bind].
    rewrite <- E1 in HF'. destruct (IH s1 HI1 HF') as (s2 & rs & -> & HI2 & E2). cbn [bind].
    do 2 eexists; split; [reflexivity|]. split; [assumption|lia].
Qed.

(** Crossing detectors *)
Lemma read_check_ok (s : acc T) n m : acc_ok W s -> 0 <= n <= a_sz s -> 0 <= m < a_sz s ->
  exists s' ds b, acc_read_check W s n m = Ok (s', ds, b) /\
    (b = true <-> exists i, 0 <= i < n /\ (a_rd s + i) mod a_sz s = m).
Proof using T W. clear mix zero.
  intros HI Hn Hm. pose proof HI as (Hs & Hz & Hr & Hw). unfold acc_read_check.
  destruct (read_ok s n HI ltac:(lia)) as (ds & -> & _). cbn [bind a_rd].
  do 3 eexists; split; [reflexivity|]. rewrite mod_once by lia.
  assert (Hex : (exists i, 0 <= i < n /\ (a_rd s + i) mod a_sz s = m) <->
                (a_rd s <= m < a_rd s + n \/ a_rd s <= m + a_sz s < a_rd s + n)).
  { split.
    - intros (i & Hi & E). rewrite mod_once in E by lia. destruct (Z.ltb_spec (a_rd s + i) (a_sz s)); lia.
    - intros [H|H].
      + exists (m - a_rd s). split; [lia|]. rewrite mod_once by lia. destruct (Z.ltb_spec (a_rd s + (m - a_rd s)) (a_sz s)); lia.
      + exists (m + a_sz s - a_rd s). split; [lia|]. rewrite mod_once by lia.
        destruct (Z.ltb_spec (a_rd s + (m + a_sz s - a_rd s)) (a_sz s)); lia. }
  rewrite Hex. clear Hex HI.
  destruct (Z.ltb_spec (a_rd s + n) (a_sz s)); destruct (Z.leb_spec (a_rd s) m);
    match goal with |- context [Bool.eqb ?a (?x <=? m)] => destruct (Z.leb_spec x m) end;
    destruct (Z.leb_spec (a_sz s) (a_rd s + n)); cbn [negb Bool.eqb]; split; intros; try discriminate; try lia; try reflexivity.
Qed.

Lemma read_reverse_check_ok (s : acc T) n m : acc_ok W s -> 0 <= n <= a_sz s -> 0 <= m < a_sz s ->
  exists s' ds b, acc_read_reverse_check W s n m = Ok (s', ds, b) /\
    (b = true <-> exists i, 0 <= i < n /\ (a_rd s - i) mod a_sz s = (m + 1) mod a_sz s).
Proof using T W. clear mix zero.
  intros HI Hn Hm. pose proof HI as (Hs & Hz & Hr & Hw). unfold acc_read_reverse_check.
  destruct (read_reverse_ok s n HI ltac:(lia)) as (ds & -> & _). cbn [bind a_rd].
  do 3 eexists; split; [reflexivity|]. rewrite mod_once_sub by lia. rewrite (mod_once m 1) by lia.
  set (m1 := if m + 1 <? a_sz s then m + 1 else m + 1 - a_sz s).
  assert (Hm1 : 0 <= m1 < a_sz s) by (unfold m1; destruct (Z.ltb_spec (m + 1) (a_sz s)); lia).
  assert (Hex : (exists i, 0 <= i < n /\ (a_rd s - i) mod a_sz s = m1) <->
                (a_rd s - n < m1 <= a_rd s \/ a_rd s - n < m1 - a_sz s <= a_rd s)).
  { split.
    - intros (i & Hi & E). rewrite mod_once_sub in E by lia. destruct (Z.ltb_spec (a_rd s - i) 0); lia.
    - intros [H|H].
      + exists (a_rd s - m1). split; [lia|]. rewrite mod_once_sub by lia. destruct (Z.ltb_spec (a_rd s - (a_rd s - m1)) 0); lia.
      + exists (a_rd s - m1 + a_sz s). split; [lia|]. rewrite mod_once_sub by lia.
        destruct (Z.ltb_spec (a_rd s - (a_rd s - m1 + a_sz s)) 0); lia. }
  rewrite Hex. clear Hex HI. unfold m1 in *. clear m1 Hm1.
  destruct (Z.ltb_spec (m + 1) (a_sz s)); destruct (Z.ltb_spec (a_rd s - n) 0); destruct (Z.leb_spec (a_rd s) m);
    match goal with |- context [Bool.eqb ?a (?x <=? m)] => destruct (Z.leb_spec x m) end;
    cbn [negb Bool.eqb]; split; intros; try discriminate; try lia; try reflexivity.
Qed.

Lemma write_check_ok (s : acc T) data m : acc_ok W s -> zlen data <= a_sz s -> 0 <= m <= a_sz s ->
  exists s' b, acc_write_check W mix s data m = Ok (s', b) /\
    (b = true <-> exists i, 0 <= i < zlen data /\ (a_wr s + i) mod a_sz s = (m - 1) mod a_sz s).
Proof using T W mix. clear zero.
  intros HI Hn Hm. pose proof HI as (Hs & Hz & Hr & Hw). unfold acc_write_check. pose proof (zlen_nonneg data) as Hd.
  destruct (write_ok s data HI) as (s' & -> & (_ & _ & _ & Ew & _)). cbn [bind].
  do 2 eexists; split; [reflexivity|]. rewrite Ew, Z.mul_1_l. rewrite mod_once by lia.
  set (m1 := if m =? 0 then a_sz s - 1 else m - 1).
  assert (Em : (m - 1) mod a_sz s = m1).
  { destruct (Z.eq_dec m (a_sz s)) as [->|]; [|apply mod_sub1; lia]. unfold m1.
    rewrite Z.mod_small by lia. destruct (Z.eqb_spec (a_sz s) 0); lia. }
  rewrite Em. assert (Hm1 : 0 <= m1 < a_sz s) by (unfold m1; destruct (Z.eqb_spec m 0); lia).
  assert (Hex : (exists i, 0 <= i < zlen data /\ (a_wr s + i) mod a_sz s = m1) <->
                (a_wr s <= m1 < a_wr s + zlen data \/ a_wr s <= m1 + a_sz s < a_wr s + zlen data)).
  { split.
    - intros (i & Hi & E). rewrite mod_once in E by lia. destruct (Z.ltb_spec (a_wr s + i) (a_sz s)); lia.
    - intros [H|H].
      + exists (m1 - a_wr s). split; [lia|]. rewrite mod_once by lia. destruct (Z.ltb_spec (a_wr s + (m1 - a_wr s)) (a_sz s)); lia.
      + exists (m1 + a_sz s - a_wr s). split; [lia|]. rewrite mod_once by lia.
        destruct (Z.ltb_spec (a_wr s + (m1 + a_sz s - a_wr s)) (a_sz s)); lia. }
  rewrite Hex. clear Hex Em HI. unfold m1 in *. clear m1 Hm1.
  destruct (Z.eqb_spec m 0); destruct (Z.ltb_spec (a_wr s + zlen data) (a_sz s)); destruct (Z.ltb_spec (a_wr s) m);
    match goal with |- context [Bool.eqb ?a (?x <? m)] => destruct (Z.ltb_spec x m) end;
    destruct (Z.leb_spec (a_sz s) (a_wr s + zlen data)); cbn [negb Bool.eqb]; split; intros; try discriminate; try lia; try reflexivity.
Qed.

(** Positions outside the buffer: the first access is out of bounds. *)
Lemma bad_position (s : acc T) d ds : a_sz s = zlen (a_buf s) -> a_sz s <= a_wr s ->
  acc_write W mix s (d :: ds) = UB OutOfBounds.
Proof using T W mix. clear zero. intros Hs H. unfold acc_write; cbn [write_loop]. rewrite rd_oob by lia. reflexivity. Qed.
End Access.
