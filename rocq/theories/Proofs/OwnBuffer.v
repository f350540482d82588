(* Proofs for C162. *)
From Verif.Common Require Import Base Lemmas Lists.
From Verif.Spec Require Import BinarySpec MapSpec StaticStringSpec.
From Verif.Model Require Import CompactBinary Maps StaticString OwnBuffer.
From Verif.Proofs Require Import BytesLE CompactBinary StaticString.

Definition piece (a n : Z) (buf : list Z) : list Z := firstn (Z.to_nat n) (skipn (Z.to_nat a) buf).
Lemma piece_cons a n buf b : 0 <= a -> 0 <= n -> znth buf a = Some b -> piece a (n + 1) buf = b :: piece (a + 1) n buf.
Proof.
  intros Ha Hn Hb. pose proof (znth_some_range _ _ _ Hb). apply znth_opt_ext. intros i Hi0. unfold piece.
  destruct (Z.eq_dec i 0) as [->|].
  - rewrite znth_cons_0, znth_firstn, znth_skipn by lia. rewrite Z.add_0_r. exact Hb.
  - rewrite znth_cons_pos by lia. destruct (Z.ltb_spec i (n + 1)).
    + rewrite !znth_firstn, !znth_skipn by lia. f_equal. lia.
    + rewrite !znth_firstn_if. destruct (Z.ltb_spec i (n + 1)); [lia|]. destruct (Z.ltb_spec (i - 1) n); [lia|reflexivity].
Qed.
Lemma piece_upd a n buf p b : 0 <= a -> p < a \/ a + n <= p -> piece a n (zupd buf p b) = piece a n buf.
Proof.
  intros Ha Hp. apply znth_opt_ext. intros i Hi0. unfold piece. rewrite !znth_firstn_if.
  destruct (Z.ltb_spec i n); [|reflexivity].
  rewrite !znth_skipn by lia. apply znth_zupd_ne. lia.
Qed.
Lemma zlen_piece a n buf : 0 <= a -> 0 <= n -> a + n <= zlen buf -> zlen (piece a n buf) = n.
Proof. intros. unfold piece. rewrite zlen_firstn; rewrite ?zlen_skipn; lia. Qed.

Section Own.
Variable W : Z.

(** Data outside what is written over before it is read. *)
Lemma emit_own_ok n : forall a buf pos, 0 <= a -> 0 <= pos -> a + Z.of_nat n <= zlen buf -> pos + Z.of_nat n < 2 ^ W ->
  a + Z.of_nat n <= pos \/ pos <= a ->
  emit_own W n a (buf, pos) = span_emit W (piece a (Z.of_nat n) buf) (buf, pos).
Proof.
  induction n as [|n IH]; intros a buf pos Ha Hp Hl HB Hc; cbn [emit_own]; [reflexivity|].
  destruct (znth_some buf a) as [b Hb]; [lia|]. rewrite (rd_ok _ _ _ Hb). cbn [bind].
  replace (Z.of_nat (S n)) with (Z.of_nat n + 1) by lia. rewrite (piece_cons a (Z.of_nat n) buf b Ha ltac:(lia) Hb). cbn [span_emit].
  rewrite (word_small W (pos + 1)) by lia.
  destruct (Z.ltb_spec pos (zlen buf)).
  - rewrite wr_ok by lia. cbn [bind]. rewrite IH by (rewrite ?zlen_zupd; lia). rewrite piece_upd by lia. reflexivity.
  - cbn [bind]. apply IH; lia.
Qed.

(** What the buffer holds after [bytes] went out. *)
Lemma span_emit_at bytes : forall buf pos, 0 <= pos -> pos + zlen bytes < 2 ^ W ->
  exists b, span_emit W bytes (buf, pos) = Ok (b, pos + zlen bytes) /\ zlen b = zlen buf /\
    (forall i, i < pos \/ pos + zlen bytes <= i -> znth b i = znth buf i) /\
    (forall i, 0 <= i < zlen bytes -> pos + i < zlen buf -> znth b (pos + i) = znth bytes i).
Proof.
  induction bytes as [|x r IH]; intros buf pos Hp HB; cbn [span_emit].
  - exists buf. splits; try reflexivity; [f_equal; f_equal; unfold zlen; cbn; lia|]. unfold zlen; cbn; intros; lia.
  - rewrite zlen_cons in *. pose proof (zlen_nonneg r). rewrite (word_small W (pos + 1)) by lia.
    assert (E : (if pos <? zlen buf then wr buf pos x else Ok buf) = Ok (if pos <? zlen buf then zupd buf pos x else buf)).
    { destruct (Z.ltb_spec pos (zlen buf)); [apply wr_ok; lia|reflexivity]. }
    rewrite E. cbn [bind]. set (buf1 := if pos <? zlen buf then zupd buf pos x else buf).
    assert (Hl1 : zlen buf1 = zlen buf) by (unfold buf1; destruct (pos <? zlen buf); [apply zlen_zupd|reflexivity]).
    assert (Hn : forall i, i <> pos -> znth buf1 i = znth buf i) by (intros; unfold buf1; destruct (pos <? zlen buf); [apply znth_zupd_ne; lia|reflexivity]).
    destruct (IH buf1 (pos + 1) ltac:(lia) ltac:(lia)) as (b & E1 & E2 & E3 & E4). exists b. splits; [rewrite E1; f_equal; f_equal; lia|lia| |].
    + intros i Hi. rewrite E3 by lia. apply Hn. lia.
    + intros i Hi Hi2. destruct (Z.eq_dec i 0) as [->|].
      * rewrite Z.add_0_r in *. rewrite E3 by lia. rewrite znth_cons_0. unfold buf1. destruct (Z.ltb_spec pos (zlen buf)); [|lia]. apply znth_zupd_eq. lia.
      * rewrite znth_cons_pos by lia. rewrite <- E4 by lia. f_equal. lia.
Qed.

(** Data that is written over: every byte repeats the one [pos - a] places before it. *)
Lemma emit_own_repeats n : forall a buf pos, 0 <= a < pos -> a + Z.of_nat n <= zlen buf -> pos + Z.of_nat n < 2 ^ W ->
  exists b, emit_own W n a (buf, pos) = Ok (b, pos + Z.of_nat n) /\ zlen b = zlen buf /\
    (forall i, i < pos \/ pos + Z.of_nat n <= i -> znth b i = znth buf i) /\
    (forall i, pos <= i < pos + Z.of_nat n -> i < zlen buf -> znth b i = znth b (i - (pos - a))).
Proof.
  induction n as [|n IH]; intros a buf pos Ha Hl HB; cbn [emit_own].
  - exists buf. splits; try reflexivity; [f_equal; f_equal; lia|]. intros; lia.
  - destruct (znth_some buf a) as [x Hb]; [lia|]. rewrite (rd_ok _ _ _ Hb). cbn [bind]. rewrite (word_small W (pos + 1)) by lia.
    assert (E : (if pos <? zlen buf then wr buf pos x else Ok buf) = Ok (if pos <? zlen buf then zupd buf pos x else buf)).
    { destruct (Z.ltb_spec pos (zlen buf)); [apply wr_ok; lia|reflexivity]. }
    rewrite E. cbn [bind]. set (buf1 := if pos <? zlen buf then zupd buf pos x else buf).
    assert (Hl1 : zlen buf1 = zlen buf) by (unfold buf1; destruct (pos <? zlen buf); [apply zlen_zupd|reflexivity]).
    assert (Hn : forall i, i <> pos -> znth buf1 i = znth buf i) by (intros; unfold buf1; destruct (pos <? zlen buf); [apply znth_zupd_ne; lia|reflexivity]).
    destruct (IH (a + 1) buf1 (pos + 1) ltac:(lia) ltac:(lia) ltac:(lia)) as (b & E1 & E2 & E3 & E4).
    exists b. splits; [rewrite E1; f_equal; f_equal; lia|lia| |].
    + intros i Hi. rewrite E3 by lia. apply Hn. lia.
    + intros i Hi Hi2. destruct (Z.eq_dec i pos) as [->|].
      * rewrite !E3 by lia. rewrite (Hn (pos - (pos - a))) by lia. replace (pos - (pos - a)) with a by lia. rewrite Hb.
        unfold buf1. destruct (Z.ltb_spec pos (zlen buf)); [|lia]. apply znth_zupd_eq. lia.
      * rewrite E4 by lia. f_equal. lia.
Qed.
End Own.

Section Writer.
Variables (W : Z) (KW SW : nat) (arr sgn : bool) (MaxDepth : Z).
Notation H := (Z.of_nat KW + Z.of_nat SW).
Notation header k n := (stored_key KW arr k ++ size_bytes SW sgn n).

Lemma header_at buf pos k n : key_ok KW arr k -> 0 <= pos -> pos + H < 2 ^ W ->
  exists b, (let* s := write_key KW arr (span_emit W) k (buf, pos) in write_size SW sgn (span_emit W) n s) = Ok (b, pos + H) /\ zlen b = zlen buf /\
    (forall i, i < pos \/ pos + H <= i -> znth b i = znth buf i) /\
    (forall i, 0 <= i < H -> pos + i < zlen buf -> znth b (pos + i) = znth (header k n) i).
Proof.
  intros Hk Hp HB. unfold write_key, write_size. rewrite key_bytes_ok by exact Hk. cbn [bind].
  pose proof (stored_key_len KW arr k Hk) as L1. assert (L2 : zlen (size_bytes SW sgn n) = Z.of_nat SW) by apply zlen_le.
  destruct (span_emit_at W (stored_key KW arr k) buf pos ltac:(lia) ltac:(lia)) as (b1 & E1 & Z1 & A1 & B1). rewrite E1; cbn [bind].
  destruct (span_emit_at W (size_bytes SW sgn n) b1 (pos + zlen (stored_key KW arr k)) ltac:(lia) ltac:(lia)) as (b2 & E2 & Z2 & A2 & B2). rewrite E2.
  exists b2. splits; [f_equal; f_equal; lia|lia| |].
  - intros i Hi. rewrite A2, A1 by lia. reflexivity.
  - intros i Hi Hi2. destruct (Z.ltb_spec i (Z.of_nat KW)).
    + rewrite A2 by lia. rewrite B1 by lia. rewrite znth_app_l by lia. reflexivity.
    + rewrite znth_app_r by lia. rewrite <- B2 by lia. f_equal. lia.
Qed.

Lemma span_raw_own_ok buf pos k a n : key_ok KW arr k -> 0 <= pos -> 0 <= a -> a + Z.of_nat n <= zlen buf -> pos + H + Z.of_nat n < 2 ^ W ->
  a + Z.of_nat n <= pos \/ pos + H <= a ->
  span_raw_own W KW SW arr sgn (buf, pos) k a n =
    write_desc W KW SW arr sgn (span_emit W) (DRaw k (view_bytes buf (a, Z.of_nat n)) DEnd) (buf, pos).
Proof.
  intros Hk Hp Ha Hl HB Hc. unfold span_raw_own. cbn [write_desc]. change (view_bytes buf (a, Z.of_nat n)) with (piece a (Z.of_nat n) buf).
  rewrite zlen_piece by lia. destruct (header_at buf pos k (Z.of_nat n) Hk Hp ltac:(lia)) as (b & E & Z1 & A1 & _).
  destruct (write_key KW arr (span_emit W) k (buf, pos)) as [s1| |]; cbn [bind] in *; try discriminate.
  rewrite E. cbn [bind]. rewrite emit_own_ok by lia.
  replace (piece a (Z.of_nat n) b) with (piece a (Z.of_nat n) buf).
  - destruct (span_emit W _ _); reflexivity.
  - apply znth_opt_ext. intros i Hi0. unfold piece. rewrite !znth_firstn_if. destruct (Z.ltb_spec i (Z.of_nat n)); [|reflexivity].
    rewrite !znth_skipn by lia. symmetry. apply A1. lia.
Qed.

Lemma span_raw_own_repeats buf pos k a n : key_ok KW arr k -> 0 <= pos -> 0 <= a < pos + H -> a + Z.of_nat n <= zlen buf -> pos + H + Z.of_nat n < 2 ^ W ->
  exists b, span_raw_own W KW SW arr sgn (buf, pos) k a n = Ok (b, pos + H + Z.of_nat n) /\ zlen b = zlen buf /\
    (forall i, i < pos \/ pos + H + Z.of_nat n <= i -> znth b i = znth buf i) /\
    (forall i, 0 <= i < H -> pos + i < zlen buf -> znth b (pos + i) = znth (header k (Z.of_nat n)) i) /\
    (forall i, pos + H <= i < pos + H + Z.of_nat n -> i < zlen buf -> znth b i = znth b (i - (pos + H - a))).
Proof.
  intros Hk Hp Ha Hl HB. unfold span_raw_own. destruct (header_at buf pos k (Z.of_nat n) Hk Hp ltac:(lia)) as (b & E & Z1 & A1 & B1).
  destruct (write_key KW arr (span_emit W) k (buf, pos)) as [s1| |]; cbn [bind] in *; try discriminate. rewrite E. cbn [bind].
  destruct (emit_own_repeats W n a b (pos + H) ltac:(lia) ltac:(lia) ltac:(lia)) as (b2 & E2 & Z2 & A2 & B2). rewrite E2.
  exists b2. splits; [reflexivity|lia| | |].
  - intros i Hi. rewrite A2 by lia. apply A1. lia.
  - intros i Hi Hi2. rewrite A2 by lia. apply B1; lia.
  - intros i Hi Hi2. apply B2; lia.
Qed.

Lemma w_emit_span b s : w_emit W b s = let* (c, p) := span_emit W b (w_buf s, w_pos s) in Ok (Writer c p (w_stack s) (w_depth s)).
Proof. reflexivity. Qed.
Lemma w_raw_own_span s k a n : w_raw_own W KW SW arr sgn s k a n =
  let* (b, p) := span_raw_own W KW SW arr sgn (w_buf s, w_pos s) k a n in Ok (Writer b p (w_stack s) (w_depth s)).
Proof.
  unfold w_raw_own, span_raw_own, write_key, write_size. destruct (key_bytes KW arr k) as [kb| |]; cbn [bind]; try reflexivity.
  rewrite w_emit_span. destruct (span_emit W kb (w_buf s, w_pos s)) as [[b1 p1]| |]; cbn [bind]; try reflexivity.
  rewrite w_emit_span. cbn [w_buf w_pos w_stack w_depth]. destruct (span_emit W (size_bytes SW sgn (Z.of_nat n)) (b1, p1)) as [[b2 p2]| |]; cbn [bind]; reflexivity.
Qed.
Lemma w_raw_span s k v : w_step W KW SW arr sgn MaxDepth s (WRaw k v) =
  let* (b, p) := write_desc W KW SW arr sgn (span_emit W) (DRaw k v DEnd) (w_buf s, w_pos s) in Ok (Writer b p (w_stack s) (w_depth s)).
Proof.
  cbn [w_step write_desc]. unfold write_key, write_size. destruct (key_bytes KW arr k) as [kb| |]; cbn [bind]; try reflexivity.
  rewrite w_emit_span. destruct (span_emit W kb (w_buf s, w_pos s)) as [[b1 p1]| |]; cbn [bind]; try reflexivity.
  rewrite w_emit_span. cbn [w_buf w_pos w_stack w_depth]. destruct (span_emit W (size_bytes SW sgn (zlen v)) (b1, p1)) as [[b2 p2]| |]; cbn [bind]; try reflexivity.
  rewrite w_emit_span. cbn [w_buf w_pos w_stack w_depth]. destruct (span_emit W v (b2, p2)) as [[b3 p3]| |]; cbn [bind]; reflexivity.
Qed.

Lemma writer_own s k a n : key_ok KW arr k -> 0 <= w_pos s -> 0 <= a -> a + Z.of_nat n <= zlen (w_buf s) -> w_pos s + H + Z.of_nat n < 2 ^ W ->
  a + Z.of_nat n <= w_pos s \/ w_pos s + H <= a ->
  w_raw_own W KW SW arr sgn s k a n = w_step W KW SW arr sgn MaxDepth s (WRaw k (view_bytes (w_buf s) (a, Z.of_nat n))).
Proof. intros. rewrite w_raw_own_span, w_raw_span, span_raw_own_ok by assumption. reflexivity. Qed.
Lemma writer_own_repeats s k a n : key_ok KW arr k -> 0 <= w_pos s -> 0 <= a < w_pos s + H -> a + Z.of_nat n <= zlen (w_buf s) -> w_pos s + H + Z.of_nat n < 2 ^ W ->
  exists b, w_raw_own W KW SW arr sgn s k a n = Ok (Writer b (w_pos s + H + Z.of_nat n) (w_stack s) (w_depth s)) /\ zlen b = zlen (w_buf s) /\
    (forall i, i < w_pos s \/ w_pos s + H + Z.of_nat n <= i -> znth b i = znth (w_buf s) i) /\
    (forall i, 0 <= i < H -> w_pos s + i < zlen (w_buf s) -> znth b (w_pos s + i) = znth (header k (Z.of_nat n)) i) /\
    (forall i, w_pos s + H <= i < w_pos s + H + Z.of_nat n -> i < zlen (w_buf s) -> znth b i = znth b (i - (w_pos s + H - a))).
Proof.
  intros Hk Hp Ha Hl HB. rewrite w_raw_own_span. destruct (span_raw_own_repeats (w_buf s) (w_pos s) k a n Hk Hp Ha Hl HB) as (b & E & R).
  rewrite E. cbn [bind]. exists b. split; [reflexivity|exact R].
Qed.
End Writer.

(** StaticString *)
Lemma copy_sv_self_ok cap n : forall i off d, 0 < cap -> zlen d = cap + 1 -> 0 <= i -> 0 <= off -> off + i + Z.of_nat n <= cap ->
  exists d', copy_sv_self cap n i off d = Ok d' /\ zlen d' = cap + 1 /\ znth d' (i + Z.of_nat n) = Some 0 /\
    (forall j, j < i -> znth d' j = znth d j) /\ (forall j, i <= j < i + Z.of_nat n -> znth d' j = znth d (off + j)).
Proof.
  induction n as [|n IH]; intros i off d Hc Hd Hi Ho Hn; cbn [copy_sv_self].
  - rewrite wr_ok by lia. eexists; splits; [reflexivity|rewrite zlen_zupd; lia| | |].
    + rewrite Z.add_0_r. apply znth_zupd_eq. lia.
    + intros j Hj. apply znth_zupd_ne. lia.
    + intros; lia.
  - destruct (znth_some d (off + i)) as [c Hc1]; [lia|]. rewrite (rd_ok _ _ _ Hc1). cbn [bind]. rewrite wr_ok by lia. cbn [bind].
    destruct (Z.geb_spec (i + 1) cap).
    + assert (n = O) by lia. subst n. assert (off = 0) by lia. subst off. rewrite wr_ok by (rewrite zlen_zupd; lia).
      eexists; splits; [reflexivity|rewrite !zlen_zupd; lia| | |].
      * replace (i + Z.of_nat 1) with (i + 1) by lia. apply znth_zupd_eq. rewrite zlen_zupd. lia.
      * intros j Hj. rewrite !znth_zupd_ne by lia. reflexivity.
      * intros j Hj. replace j with i by lia. rewrite znth_zupd_ne by lia. rewrite znth_zupd_eq by lia. symmetry. exact Hc1.
    + destruct (IH (i + 1) off (zupd d i c) Hc ltac:(rewrite zlen_zupd; lia) ltac:(lia) Ho ltac:(lia)) as (d' & E & L & Z0 & A & B).
      exists d'. splits; [exact E|exact L| | |].
      * rewrite <- Z0. f_equal. lia.
      * intros j Hj. rewrite A by lia. apply znth_zupd_ne. lia.
      * intros j Hj. destruct (Z.eq_dec j i) as [->|].
        -- rewrite A by lia. rewrite znth_zupd_eq by lia. symmetry. exact Hc1.
        -- rewrite B by lia. apply znth_zupd_ne. lia.
Qed.

Lemma copy_own cap d t off n : 0 < cap -> zlen d = cap + 1 -> cstring d = Some t -> 0 <= off -> off + Z.of_nat n <= zlen t ->
  exists d', copy_sv_self cap n 0 off d = Ok d' /\ zlen d' = cap + 1 /\ cstring d' = Some (firstn n (skipn (Z.to_nat off) t)).
Proof.
  intros Hc Hd Ht Ho Hn. destruct (cstring_some _ _ Ht) as (r & E & HF). pose proof (zlen_nonneg r).
  assert (Hl : zlen t <= cap) by (rewrite E, zlen_app, zlen_cons in Hd; lia).
  destruct (copy_sv_self_ok cap n 0 off d Hc Hd ltac:(lia) Ho ltac:(lia)) as (d' & E1 & L1 & Z1 & _ & B1). rewrite Z.add_0_l in Z1.
  exists d'. splits; [exact E1|exact L1|].
  set (w := firstn n (skipn (Z.to_nat off) t)).
  assert (Lw : zlen w = Z.of_nat n). { unfold w. unfold zlen in *. rewrite firstn_length, skipn_length. lia. }
  assert (ED : d' = w ++ 0 :: skipn (S n) d').
  { apply znth_opt_ext. intros i Hi0. destruct (Z.ltb_spec i (Z.of_nat n)).
    - rewrite znth_app_l by lia. rewrite B1 by lia. unfold w. rewrite <- (Nat2Z.id n) at 1. rewrite znth_firstn, znth_skipn by lia.
      rewrite E. rewrite znth_app_l by lia. reflexivity.
    - rewrite znth_app_r by lia. rewrite Lw. destruct (Z.eq_dec i (Z.of_nat n)) as [->|].
      + rewrite Z.sub_diag, znth_cons_0. exact Z1.
      + rewrite znth_cons_pos by lia. replace (S n) with (Z.to_nat (Z.of_nat n + 1)) by lia. rewrite znth_skipn by lia. f_equal. lia. }
  rewrite ED. apply cstring_intro. unfold w. clear -HF. rewrite Forall_forall in *. intros x Hx. apply HF.
  rewrite <- (firstn_skipn (Z.to_nat off) t). apply in_or_app. right. rewrite <- (firstn_skipn n (skipn (Z.to_nat off) t)). apply in_or_app. left. exact Hx.
Qed.

Lemma insert_own (K V : Type) N (s : seqmap K V) k j v : znth (q_vals s) j = Some v -> q_insert_own N s k j = q_insert N s k v.
Proof.
  intros Hv. unfold q_insert_own, q_insert. destruct (q_sz s >=? N); [reflexivity|]. destruct (wr (q_keys s) (q_sz s) k); cbn [bind]; try reflexivity.
  rewrite (rd_ok _ _ _ Hv). reflexivity.
Qed.
Lemma overwrite_own (K V : Type) keq N (s : seqmap K V) k j v : znth (q_vals s) j = Some v -> q_overwrite_own keq N s k j = q_overwrite keq N s k v.
Proof.
  intros Hv. unfold q_overwrite_own, q_overwrite. destruct (active s); cbn [bind]; try reflexivity. destruct (find_key keq k 0 a).
  - rewrite (rd_ok _ _ _ Hv). reflexivity.
  - destruct (if q_sz s >=? N then _ else _) as [[index sz] oldest]. destruct (wr (q_keys s) index k); cbn [bind]; try reflexivity.
    rewrite (rd_ok _ _ _ Hv). reflexivity.
Qed.

Section Records.
Variables (W : Z) (KW SW : nat) (arr sgn : bool).
Hypothesis HS : (0 < SW)%nat.
Notation H := (Z.of_nat KW + Z.of_nat SW).

Lemma own_record buf pos k a n : key_ok KW arr k -> 0 <= pos -> 0 <= a -> a + Z.of_nat n <= zlen buf -> pos + H + Z.of_nat n < 2 ^ W ->
  a + Z.of_nat n <= pos \/ pos + H <= a ->
  exists b, span_raw_own W KW SW arr sgn (buf, pos) k a n = Ok (b, pos + H + Z.of_nat n) /\ zlen b = zlen buf /\
    (forall i, i < pos \/ pos + H + Z.of_nat n <= i -> znth b i = znth buf i) /\
    (forall i, 0 <= i < H + Z.of_nat n -> pos + i < zlen buf ->
       znth b (pos + i) = znth (record SW (stored_key KW arr k) (firstn n (skipn (Z.to_nat a) buf))) i).
Proof using All.
  intros Hk Hp Ha Hl HB Hc. unfold span_raw_own. destruct (header_at W KW SW arr sgn buf pos k (Z.of_nat n) Hk Hp ltac:(lia)) as (b & E & Z1 & A1 & B1).
  destruct (write_key KW arr (span_emit W) k (buf, pos)) as [s1| |]; cbn [bind] in *; try discriminate. rewrite E. cbn [bind].
  rewrite emit_own_ok by lia. replace (piece a (Z.of_nat n) b) with (piece a (Z.of_nat n) buf).
  2:{ apply znth_opt_ext. intros i Hi0. unfold piece. rewrite !znth_firstn_if. destruct (Z.ltb_spec i (Z.of_nat n)); [|reflexivity].
      rewrite !znth_skipn by lia. symmetry. apply A1. lia. }
  assert (Lp : zlen (piece a (Z.of_nat n) buf) = Z.of_nat n) by (apply zlen_piece; lia).
  destruct (span_emit_at W (piece a (Z.of_nat n) buf) b (pos + H) ltac:(lia) ltac:(lia)) as (b2 & E2 & Z2 & A2 & B2). rewrite E2, Lp.
  exists b2. splits; [reflexivity|lia| |].
  - intros i Hi. rewrite A2 by lia. apply A1. lia.
  - intros i Hi Hi2. unfold record. replace (firstn n (skipn (Z.to_nat a) buf)) with (piece a (Z.of_nat n) buf) by (unfold piece; rewrite Nat2Z.id; reflexivity).
    rewrite Lp. rewrite <- (size_bytes_le SW sgn) by exact HS. rewrite app_assoc.
    assert (Lh : zlen (stored_key KW arr k ++ size_bytes SW sgn (Z.of_nat n)) = H).
    { rewrite zlen_app, (stored_key_len KW arr k Hk). unfold size_bytes. rewrite zlen_le. reflexivity. }
    destruct (Z.ltb_spec i H).
    + rewrite A2 by lia. rewrite znth_app_l by lia. apply B1; lia.
    + rewrite znth_app_r by lia. rewrite Lh, <- B2 by lia. f_equal. lia.
Qed.

Lemma writer_own_record s k a n : key_ok KW arr k -> 0 <= w_pos s -> 0 <= a -> a + Z.of_nat n <= zlen (w_buf s) -> w_pos s + H + Z.of_nat n < 2 ^ W ->
  a + Z.of_nat n <= w_pos s \/ w_pos s + H <= a ->
  exists b, w_raw_own W KW SW arr sgn s k a n = Ok (Writer b (w_pos s + H + Z.of_nat n) (w_stack s) (w_depth s)) /\ zlen b = zlen (w_buf s) /\
    (forall i, i < w_pos s \/ w_pos s + H + Z.of_nat n <= i -> znth b i = znth (w_buf s) i) /\
    (forall i, 0 <= i < H + Z.of_nat n -> w_pos s + i < zlen (w_buf s) ->
       znth b (w_pos s + i) = znth (record SW (stored_key KW arr k) (firstn n (skipn (Z.to_nat a) (w_buf s)))) i).
Proof using All.
  intros Hk Hp Ha Hl HB Hc. rewrite w_raw_own_span. destruct (own_record (w_buf s) (w_pos s) k a n Hk Hp Ha Hl HB Hc) as (b & E & R).
  rewrite E. cbn [bind]. exists b. split; [reflexivity|exact R].
Qed.

Lemma writer_own_header s k a n : key_ok KW arr k -> 0 <= w_pos s -> 0 <= a < w_pos s + H -> a + Z.of_nat n <= zlen (w_buf s) -> w_pos s + H + Z.of_nat n < 2 ^ W ->
  exists b, w_raw_own W KW SW arr sgn s k a n = Ok (Writer b (w_pos s + H + Z.of_nat n) (w_stack s) (w_depth s)) /\ zlen b = zlen (w_buf s) /\
    (forall i, i < w_pos s \/ w_pos s + H + Z.of_nat n <= i -> znth b i = znth (w_buf s) i) /\
    (forall i, 0 <= i < H -> w_pos s + i < zlen (w_buf s) -> znth b (w_pos s + i) = znth (stored_key KW arr k ++ le SW (Z.of_nat n)) i) /\
    (forall i, w_pos s + H <= i < w_pos s + H + Z.of_nat n -> i < zlen (w_buf s) -> znth b i = znth b (i - (w_pos s + H - a))).
Proof using All. intros. rewrite <- (size_bytes_le SW sgn) by exact HS. apply writer_own_repeats; assumption. Qed.
Lemma span_own_header buf pos k a n : key_ok KW arr k -> 0 <= pos -> 0 <= a < pos + H -> a + Z.of_nat n <= zlen buf -> pos + H + Z.of_nat n < 2 ^ W ->
  exists b, span_raw_own W KW SW arr sgn (buf, pos) k a n = Ok (b, pos + H + Z.of_nat n) /\ zlen b = zlen buf /\
    (forall i, i < pos \/ pos + H + Z.of_nat n <= i -> znth b i = znth buf i) /\
    (forall i, 0 <= i < H -> pos + i < zlen buf -> znth b (pos + i) = znth (stored_key KW arr k ++ le SW (Z.of_nat n)) i) /\
    (forall i, pos + H <= i < pos + H + Z.of_nat n -> i < zlen buf -> znth b i = znth b (i - (pos + H - a))).
Proof using All. intros. rewrite <- (size_bytes_le SW sgn) by exact HS. apply span_raw_own_repeats; assumption. Qed.
End Records.

(* printRaw of the block's own bytes *)
Lemma raw_own_ok grow n : forall i data cap, 0 <= i -> i + Z.of_nat n <= zlen data -> zlen data <= cap -> zlen data + Z.of_nat n <= cap + 1 ->
  exists cap', bb_raw_own grow n i false data cap = Ok (data ++ firstn n (skipn (Z.to_nat i) data), cap') /\
    (zlen data + Z.of_nat n <= cap -> cap' = cap) /\ (cap < zlen data + Z.of_nat n -> cap' = grow cap).
Proof.
  induction n as [|n IH]; intros i data cap Hi Hn Hc Hs; cbn [bb_raw_own].
  - exists cap. rewrite firstn_O, app_nil_r. split; [reflexivity|split; lia].
  - destruct (znth_some data i ltac:(lia)) as [x Hz]. rewrite (rd_ok _ _ _ Hz). cbn [bind].
    assert (ES : skipn (Z.to_nat i) data = x :: skipn (Z.to_nat (i + 1)) data).
    { unfold znth in Hz. destruct (i <? 0) eqn:E; [lia|]. replace (Z.to_nat (i + 1)) with (S (Z.to_nat i)) by lia. clear - Hz. revert Hz. generalize (Z.to_nat i) as m. intros m. revert data. induction m as [|m IHm]; intros [|y l] H; try discriminate H; cbn in *; [congruence|apply IHm; exact H]. }
    destruct (zlen data =? cap) eqn:EF; [apply Z.eqb_eq in EF|apply Z.eqb_neq in EF].
    + assert (n = O) by lia. subst n. cbn [bb_raw_own]. exists (grow cap). rewrite ES. split; [reflexivity|split; [lia|reflexivity]].
    + destruct (IH (i + 1) (data ++ [x]) cap) as (cap' & E & E1 & E2); try (rewrite ?zlen_app; change (zlen [x]) with 1; lia).
      exists cap'. rewrite E. rewrite zlen_app in E1, E2. change (zlen [x]) with 1 in E1, E2. split; [|split; intros; [apply E1|apply E2]; lia].
      do 2 f_equal. rewrite ES. cbn [firstn]. rewrite <- app_assoc. cbn [app]. do 2 f_equal.
      unfold zlen in *. rewrite skipn_app, firstn_app, skipn_length. replace (n - (length data - Z.to_nat (i + 1)))%nat with O by lia. rewrite firstn_O, app_nil_r. reflexivity.
Qed.
Lemma raw_own_moved grow n : forall i data cap, 0 <= i -> i + Z.of_nat n <= zlen data -> zlen data <= cap -> cap + 1 < zlen data + Z.of_nat n ->
  bb_raw_own grow n i false data cap = UB BadDeref.
Proof.
  induction n as [|n IH]; intros i data cap Hi Hn Hc Hs; cbn [bb_raw_own]; [lia|].
  destruct (znth_some data i ltac:(lia)) as [x Hz]. rewrite (rd_ok _ _ _ Hz). cbn [bind].
  destruct (zlen data =? cap) eqn:EF; [apply Z.eqb_eq in EF|apply Z.eqb_neq in EF].
  - destruct n; [lia|reflexivity].
  - apply IH; rewrite ?zlen_app; change (zlen [x]) with 1; lia.
Qed.
