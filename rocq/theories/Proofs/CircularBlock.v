From Verif.Common Require Import Base Lemmas.
From Verif.Model Require Import Circular CircularExt.

Lemma memcpy_ok dst o src so n :
  0 <= o -> 0 <= so -> 0 <= n -> o + n <= zlen dst -> so + n <= zlen src ->
  exists d, memcpy dst o src so n = Ok d /\ zlen d = zlen dst /\
    (forall i, 0 <= i < n -> znth d (o + i) = znth src (so + i)) /\
    (forall j, j < o \/ o + n <= j -> znth d j = znth dst j).
Proof.
  intros Ho Hso Hn Hd Hs. unfold memcpy. destruct (Z.eqb_spec n 0) as [->|Hnz].
  - exists dst. splits; try reflexivity. intros i Hi; lia.
  - replace ((0 <=? o) && (0 <=? so) && (0 <=? n) && (o + n <=? zlen dst) && (so + n <=? zlen src)) with true by lia.
    pose (m := firstn (Z.to_nat n) (skipn (Z.to_nat so) src)).
    assert (Hm : zlen m = n) by (apply zlen_firstn; rewrite zlen_skipn by lia; lia).
    assert (Hf : zlen (firstn (Z.to_nat o) dst) = o) by (apply zlen_firstn; lia).
    assert (Ht : zlen (skipn (Z.to_nat (o + n)) dst) = zlen dst - (o + n)) by (apply zlen_skipn; lia).
    eexists; splits; [reflexivity| | |].
    + rewrite !zlen_app. fold m. rewrite Hm, Hf, Ht. lia.
    + intros i Hi. rewrite znth_app_r by lia. rewrite Hf. fold m. rewrite znth_app_l by lia.
      unfold m. rewrite znth_firstn by lia. rewrite znth_skipn by lia. f_equal; lia.
    + intros j [Hj|Hj].
      * rewrite znth_app_l by lia. apply znth_firstn; lia.
      * rewrite znth_app_r by lia. rewrite Hf. fold m. rewrite znth_app_r by lia. rewrite Hm.
        rewrite znth_skipn by lia. f_equal; lia.
Qed.

Lemma offset_mod k pos : 0 <= k <= 32 -> Z.land (word 32 pos) (word 32 (2 ^ k - 1)) = pos mod 2 ^ k.
Proof.
  intros Hk. pose proof (pow2_pos k ltac:(lia)).
  assert (2 ^ k <= 2 ^ 32) by (apply Z.pow_le_mono_r; lia).
  rewrite (word_small 32 (2 ^ k - 1)) by lia. rewrite land_ones_mod by lia.
  apply word_mod_pow2; lia.
Qed.

Lemma block_write_bytes k data block pos :
  0 <= k <= 32 -> zlen data = 2 ^ k -> zlen block <= 2 ^ k ->
  exists data', block_write 1 (2 ^ k) data block (zlen block) pos = Ok data' /\ zlen data' = 2 ^ k /\
    (forall i, 0 <= i < zlen block -> znth data' ((pos + i) mod 2 ^ k) = znth block i) /\
    (forall j, 0 <= j < 2 ^ k -> (forall i, 0 <= i < zlen block -> (pos + i) mod 2 ^ k <> j) -> znth data' j = znth data j).
Proof.
  intros Hk Hd Hb. pose proof (pow2_pos k ltac:(lia)) as Hp. pose proof (zlen_nonneg block) as Hbn.
  unfold block_write. rewrite offset_mod by assumption.
  pose proof (Z.mod_pos_bound pos (2 ^ k) Hp) as Ho.
  assert (Hi : forall i, 0 <= i < zlen block -> (pos + i) mod 2 ^ k =
            if pos mod 2 ^ k + i <? 2 ^ k then pos mod 2 ^ k + i else pos mod 2 ^ k + i - 2 ^ k).
  { intros i Hi. rewrite <- Zplus_mod_idemp_l. set (o := pos mod 2 ^ k) in *.
    destruct (Z.ltb_spec (o + i) (2 ^ k)); [apply Z.mod_small; lia|].
    replace (o + i) with (o + i - 2 ^ k + 1 * 2 ^ k) at 1 by lia. rewrite Z_mod_plus_full, Z.mod_small; lia. }
  set (o := pos mod 2 ^ k) in *. rewrite !Z.mul_1_l.
  destruct (Z.leb_spec (o + zlen block) (2 ^ k)) as [Hfit|Hfit].
  - destruct (memcpy_ok data o block 0 (zlen block)) as (d & E & Hl & Hc & Hu); try lia.
    exists d; splits; [assumption|lia| |].
    + intros i Hir. rewrite Hi by assumption. destruct (Z.ltb_spec (o + i) (2 ^ k)); [|lia].
      rewrite Hc by lia. f_equal; lia.
    + intros j Hj Hn. apply Hu. destruct (Z_lt_dec j o); [lia|]. destruct (Z_le_dec (o + zlen block) j); [lia|].
      exfalso. apply (Hn (j - o)); [lia|]. rewrite Hi by lia. destruct (Z.ltb_spec (o + (j - o)) (2 ^ k)); lia.
  - destruct (memcpy_ok data o block 0 (2 ^ k - o)) as (d & E & Hl & Hc & Hu); try lia.
    rewrite E; cbn [bind].
    destruct (memcpy_ok d 0 block (2 ^ k - o) (zlen block - (2 ^ k - o))) as (d2 & E2 & Hl2 & Hc2 & Hu2); try lia.
    rewrite E2. exists d2; splits; [reflexivity|lia| |].
    + intros i Hir. rewrite Hi by assumption. destruct (Z.ltb_spec (o + i) (2 ^ k)).
      * rewrite Hu2 by lia. rewrite Hc by lia. f_equal; lia.
      * replace (o + i - 2 ^ k) with (0 + (o + i - 2 ^ k)) by lia. rewrite Hc2 by lia. f_equal; lia.
    + intros j Hj Hn. destruct (Z_lt_dec j (o + zlen block - 2 ^ k)).
      * exfalso. apply (Hn (j + 2 ^ k - o)); [lia|]. rewrite Hi by lia.
        destruct (Z.ltb_spec (o + (j + 2 ^ k - o)) (2 ^ k)); lia.
      * rewrite Hu2 by lia. apply Hu. destruct (Z_lt_dec j o); [lia|].
        exfalso. apply (Hn (j - o)); [lia|]. rewrite Hi by lia. destruct (Z.ltb_spec (o + (j - o)) (2 ^ k)); lia.
Qed.

(** Elements of two or more bytes: the last byte of the last element is not stored. *)
Lemma block_write_wide k esz data block blen pos old new :
  0 <= k <= 32 -> 2 <= esz -> zlen data = esz * 2 ^ k -> zlen block = esz * blen -> 0 < blen ->
  pos mod 2 ^ k + blen <= 2 ^ k ->
  znth data (esz * (pos mod 2 ^ k + blen) - 1) = Some old ->
  znth block (esz * blen - 1) = Some new ->
  exists data', block_write esz (2 ^ k) data block blen pos = Ok data' /\
    znth data' (esz * (pos mod 2 ^ k + blen) - 1) = Some old /\
    (forall j, j < esz * (pos mod 2 ^ k) \/ esz * (pos mod 2 ^ k) + blen <= j -> znth data' j = znth data j).
Proof.
  intros Hk He Hd Hb Hbl Hfit Ho Hn. pose proof (pow2_pos k ltac:(lia)) as Hp.
  unfold block_write. rewrite offset_mod by assumption.
  pose proof (Z.mod_pos_bound pos (2 ^ k) Hp) as Hr. set (o := pos mod 2 ^ k) in *.
  replace (o + blen <=? 2 ^ k) with true by lia.
  destruct (memcpy_ok data (esz * o) block 0 blen) as (d & E & Hl & Hc & Hu); try nia.
  exists d; splits; [assumption| |exact Hu]. rewrite Hu by nia. assumption.
Qed.

(** CircularBufferOpt::fill_buffer(T): only the first cap bytes are set. *)
Lemma opt_fill_wrong esz cap bytes val old :
  2 <= esz -> 0 < cap -> zlen bytes = esz * cap -> znth bytes (esz * cap - 1) = Some old ->
  exists b', cbo_fill_bytes cap bytes val = Ok b' /\ znth b' (esz * cap - 1) = Some old /\
    (forall j, 0 <= j < cap -> znth b' j = Some (val mod 256)) /\
    (forall j, cap <= j -> znth b' j = znth bytes j).
Proof.
  intros He Hc Hb Ho. unfold cbo_fill_bytes, memset. replace (cap <=? zlen bytes) with true by nia.
  assert (Hz : zlen (zrepeat (word 8 val) cap) = cap) by (apply zlen_zrepeat; lia).
  assert (Hj : forall j, cap <= j -> znth (zrepeat (word 8 val) cap ++ skipn (Z.to_nat cap) bytes) j = znth bytes j).
  { intros j Hj. rewrite znth_app_r by lia. rewrite Hz, znth_skipn by lia. f_equal; lia. }
  eexists; splits; [reflexivity| | |exact Hj].
  - rewrite Hj by nia. assumption.
  - intros j Hj2. rewrite znth_app_l by lia. apply znth_zrepeat; assumption.
Qed.

Lemma opt_fill_byte cap bytes val :
  0 <= cap -> zlen bytes = cap -> 0 <= val < 256 -> cbo_fill_bytes cap bytes val = Ok (zrepeat val cap).
Proof.
  intros Hc Hb Hv. unfold cbo_fill_bytes, memset. replace (cap <=? zlen bytes) with true by lia.
  rewrite (word_small 8) by (change (2^8) with 256; lia).
  assert (E : skipn (Z.to_nat cap) bytes = []).
  { apply zlen_zero_nil. rewrite zlen_skipn by lia. lia. }
  rewrite E, app_nil_r. reflexivity.
Qed.

Lemma opt_copy_wrong esz cap bytes src old :
  2 <= esz -> 0 < cap -> zlen bytes = esz * cap -> zlen src = esz * cap -> znth bytes (esz * cap - 1) = Some old ->
  exists b', cbo_copy_bytes cap bytes src = Ok b' /\ znth b' (esz * cap - 1) = Some old /\
    (forall j, 0 <= j < cap -> znth b' j = znth src j) /\
    (forall j, cap <= j -> znth b' j = znth bytes j).
Proof.
  intros He Hc Hb Hs Ho. unfold cbo_copy_bytes. replace ((cap <=? zlen bytes) && (cap <=? zlen src)) with true by nia.
  assert (Hz : zlen (firstn (Z.to_nat cap) src) = cap) by (apply zlen_firstn; nia).
  assert (Hj : forall j, cap <= j -> znth (firstn (Z.to_nat cap) src ++ skipn (Z.to_nat cap) bytes) j = znth bytes j).
  { intros j Hj. rewrite znth_app_r by lia. rewrite Hz, znth_skipn by lia. f_equal; lia. }
  eexists; splits; [reflexivity| | |exact Hj].
  - rewrite Hj by nia. assumption.
  - intros j Hj2. rewrite znth_app_l by lia. apply znth_firstn; lia.
Qed.
