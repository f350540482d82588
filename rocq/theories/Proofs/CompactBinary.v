(* Proofs about the compact binary format. *)
From Verif.Common Require Import Base Lemmas Lists.
From Verif.Spec Require Import StaticStringSpec BinarySpec.
From Verif.Model Require Import CompactBinary.
From Verif.Proofs Require Import BytesLE.

Lemma same_text_eq a b : same_text a b = true <-> a = b.
Proof. unfold same_text. destruct (list_eq_dec Z.eq_dec a b); split; congruence. Qed.
Lemma bytes_equal_same a b : bytes_equal a b = same_text a b.
Proof.
  destruct (same_text a b) eqn:E.
  - apply same_text_eq in E; subst. induction b as [|x b IH]; [reflexivity|]. cbn. rewrite Z.eqb_refl. exact IH.
  - destruct (bytes_equal a b) eqn:E2; [|reflexivity]. exfalso.
    assert (a = b).
    { clear E. revert b E2; induction a as [|x a IH]; intros [|y b]; cbn; intros H; try discriminate; [reflexivity|].
      apply andb_true_iff in H as [H1 H2]. apply Z.eqb_eq in H1. rewrite (IH _ H2). congruence. }
    apply same_text_eq in H. congruence.
Qed.

(* bytes laid over a buffer from its start *)
Definition over (e b0 : list Z) : list Z := firstn (length b0) e ++ skipn (length e) b0.
Lemma over_znth e b0 i : 0 <= i -> znth (over e b0) i = if i <? zlen b0 then (if i <? zlen e then znth e i else znth b0 i) else None.
Proof.
  intros Hi. unfold over. rewrite <- (Nat2Z.id (length b0)), <- (Nat2Z.id (length e)).
  change (Z.of_nat (length b0)) with (zlen b0). change (Z.of_nat (length e)) with (zlen e).
  pose proof (zlen_nonneg e). pose proof (zlen_nonneg b0). znorm.
  repeat (zcase1; try (exfalso; lia)); try reflexivity; try (f_equal; lia);
    try (symmetry; apply znth_none; lia); try (apply znth_none; lia).
Qed.
Lemma over_len e b0 : zlen (over e b0) = zlen b0.
Proof. unfold over. rewrite zlen_app. unfold zlen. rewrite firstn_length, skipn_length. lia. Qed.
Lemma over_nil b0 : over [] b0 = b0.
Proof. unfold over. rewrite firstn_nil. reflexivity. Qed.
Lemma over_snoc e b b0 :
  over (e ++ [b]) b0 = if zlen e <? zlen b0 then zupd (over e b0) (zlen e) b else over e b0.
Proof.
  pose proof (zlen_nonneg e). pose proof (zlen_nonneg b0).
  apply znth_opt_ext; intros i Hi. rewrite over_znth by lia. zl.
  destruct (Z.ltb_spec (zlen e) (zlen b0)).
  - rewrite znth_zupd, over_znth, over_len by lia. znorm.
    repeat (zcase1; try (exfalso; lia)); try reflexivity; f_equal; lia.
  - rewrite over_znth by lia. znorm.
    repeat (zcase1; try (exfalso; lia)); try reflexivity; f_equal; lia.
Qed.
Lemma over_full e b0 : zlen e <= zlen b0 -> over e b0 = e ++ skipn (length e) b0.
Proof. intros H. unfold over. rewrite firstn_all2 by (unfold zlen in H; lia). reflexivity. Qed.

Lemma until_nul_firstn_prefix l : exists junk, l = until_nul l ++ junk /\ (junk = [] \/ exists j, junk = 0 :: j).
Proof.
  induction l as [|c l [j [Hj Hn]]]; [exists []; auto|]. cbn [until_nul].
  destruct (Z.eqb_spec c 0).
  - exists (c :: l). split; [reflexivity|right]. subst. eauto.
  - exists j. cbn [app]. split; [f_equal; exact Hj|exact Hn].
Qed.
Lemma until_nul_no0 l : Forall (fun c => c <> 0) (until_nul l).
Proof.
  induction l as [|c l IH]; cbn [until_nul]; [constructor|].
  destruct (Z.eqb_spec c 0); constructor; auto.
Qed.
Lemma until_nul_app t l : Forall (fun c => c <> 0) t -> until_nul (t ++ l) = t ++ until_nul l.
Proof.
  induction 1 as [|c t Hc Ht IH]; [reflexivity|]. cbn [app until_nul].
  destruct (Z.eqb_spec c 0); [lia|]. rewrite IH. reflexivity.
Qed.

Lemma znth_firstn_nat {A} (l : list A) (n : nat) i : i < Z.of_nat n -> znth (firstn n l) i = znth l i.
Proof. intros H. rewrite <- (Nat2Z.id n). apply znth_firstn. exact H. Qed.

Section CB.
Variable W : Z.
Variables (KW SW : nat).
Variables (arr sgn : bool).
Notation SWb := (8 * Z.of_nat SW).
Notation lim := (if sgn then 2 ^ (SWb - 1) else 2 ^ SWb).

(* ---------------- keys ---------------- *)
Lemma key_text_len k : zlen (key_text KW k) <= Z.of_nat KW /\ zlen (key_text KW k) <= zlen k.
Proof using.
  unfold key_text. destruct (until_nul_firstn_prefix (firstn KW k)) as (j & Hj & _).
  pose proof (f_equal zlen Hj) as HL. rewrite zlen_app in HL. pose proof (zlen_nonneg j).
  assert (zlen (firstn KW k) <= Z.of_nat KW /\ zlen (firstn KW k) <= zlen k) by (unfold zlen; rewrite firstn_length; lia).
  lia.
Qed.
Lemma stored_key_len k : key_ok KW arr k -> zlen (stored_key KW arr k) = Z.of_nat KW.
Proof using.
  unfold key_ok, stored_key. destruct arr; intros H; [|unfold zlen; lia].
  rewrite zlen_app, zlen_zrepeat_max. pose proof (key_text_len k). lia.
Qed.

(* reading below the terminator *)
Lemma key_text_znth k i : 0 <= i < zlen (key_text KW k) -> exists c, znth k i = Some c /\ c <> 0 /\ znth (key_text KW k) i = Some c.
Proof using.
  intros Hi. pose proof (key_text_len k) as HL.
  destruct (until_nul_firstn_prefix (firstn KW k)) as (j & Hj & _).
  destruct (znth_some (key_text KW k) i Hi) as [c Hc]. exists c.
  assert (H1 : znth (firstn KW k) i = Some c).
  { rewrite Hj. unfold key_text in *. rewrite znth_app_l by lia. exact Hc. }
  rewrite znth_firstn_nat in H1 by lia.
  split; [exact H1|split; [|exact Hc]].
  pose proof (until_nul_no0 (firstn KW k)) as F. rewrite Forall_forall in F. apply F.
  unfold key_text, znth in Hc. destruct (i <? 0); [discriminate|]. eapply nth_error_In; eauto.
Qed.
Lemma key_text_end k : zlen (key_text KW k) < Z.of_nat KW -> zlen (key_text KW k) < zlen k -> znth k (zlen (key_text KW k)) = Some 0.
Proof using.
  intros H1 H2. destruct (until_nul_firstn_prefix (firstn KW k)) as (j & Hj & Hn).
  fold (key_text KW k) in Hj.
  assert (H3 : zlen (firstn KW k) = Z.min (Z.of_nat KW) (zlen k)) by (unfold zlen; rewrite firstn_length; lia).
  pose proof (f_equal zlen Hj) as HL. rewrite zlen_app in HL.
  destruct Hn as [->|[j' ->]]; [rewrite zlen_nil in HL; lia|].
  assert (H4 : znth (firstn KW k) (zlen (key_text KW k)) = Some 0).
  { rewrite Hj. rewrite znth_app_r by lia. rewrite Z.sub_diag. reflexivity. }
  rewrite znth_firstn_nat in H4 by lia. exact H4.
Qed.

Lemma key_copy_ok k (n : nat) i :
  key_ok KW true k -> 0 <= i <= zlen (key_text KW k) -> Z.of_nat n = Z.of_nat KW - i ->
  key_copy n i k (firstn (Z.to_nat i) (key_text KW k) ++ zrepeat 0 (Z.of_nat KW - i))
  = Ok (stored_key KW true k).
Proof using.
  intros Hk. unfold key_ok in Hk. cbn [stored_key].
  pose proof (key_text_len k) as [HT1 HT2].
  revert i; induction n as [|n IH]; intros i Hi Hn; cbn [key_copy].
  - f_equal. assert (i = zlen (key_text KW k)) as -> by lia.
    replace (zlen (key_text KW k)) with (Z.of_nat (length (key_text KW k))) at 1 by reflexivity.
    rewrite Nat2Z.id, firstn_all. unfold stored_key. reflexivity.
  - destruct (Z.eq_dec i (zlen (key_text KW k))) as [E|E].
    + rewrite (rd_ok k i 0) by (rewrite E; apply key_text_end; lia). cbn [bind].
      rewrite wr_ok by (znorm; lia). cbn [bind]; change (0 =? 0) with true; cbn iota. f_equal.
      unfold stored_key. apply znth_opt_ext; intros q Hq. rewrite znth_zupd. znorm.
      repeat (zcase1; try (exfalso; lia)); try reflexivity; try (f_equal; lia).
    + destruct (key_text_znth k i ltac:(lia)) as (c & Hc & Hc0 & Hct).
      rewrite (rd_ok k i c Hc). cbn [bind].
      rewrite wr_ok by (znorm; lia). cbn [bind].
      destruct (Z.eqb_spec c 0); [lia|].
      rewrite <- (IH (i + 1)) by lia. f_equal.
      apply znth_opt_ext; intros q Hq. rewrite znth_zupd. znorm.
      repeat (zcase1; try (exfalso; lia)); try reflexivity; try (f_equal; lia).
      assert (q = i) by lia. subst q. exact (eq_sym Hct).
Qed.
Lemma key_bytes_ok k : key_ok KW arr k -> key_bytes KW arr k = Ok (stored_key KW arr k).
Proof using.
  intros Hk. unfold key_bytes. destruct arr eqn:E; [|reflexivity].
  pose proof (zlen_nonneg (key_text KW k)).
  pose proof (key_copy_ok k KW 0 Hk ltac:(lia) ltac:(lia)) as H1.
  rewrite Z.sub_0_r in H1. exact H1.
Qed.

(* comparison *)
Lemma compare_nullterm_ok a b (n : nat) i :
  key_ok KW true a -> key_ok KW true b -> 0 <= i -> Z.of_nat n = Z.of_nat KW - i ->
  i <= zlen (key_text KW a) -> i <= zlen (key_text KW b) ->
  firstn (Z.to_nat i) (key_text KW a) = firstn (Z.to_nat i) (key_text KW b) ->
  compare_nullterm n i a b = Ok (same_text (key_text KW a) (key_text KW b)).
Proof using.
  intros Ha Hb. unfold key_ok in Ha, Hb.
  pose proof (key_text_len a) as [A1 A2]. pose proof (key_text_len b) as [B1 B2].
  revert i; induction n as [|n IH]; intros i Hi Hn LA LB EQ; cbn [compare_nullterm].
  - f_equal. symmetry. apply same_text_eq.
    assert (E1 : i = zlen (key_text KW a)) by lia. assert (E2 : i = zlen (key_text KW b)) by lia.
    rewrite E1 in EQ at 1. rewrite E2 in EQ. unfold zlen in EQ. rewrite !Nat2Z.id, !firstn_all in EQ. exact EQ.
  - destruct (Z.eq_dec i (zlen (key_text KW a))) as [E1|E1].
    + rewrite (rd_ok a i 0) by (rewrite E1; apply key_text_end; lia). cbn [bind]. change (0 =? 0) with true. cbn [bind andb].
      destruct (Z.eq_dec i (zlen (key_text KW b))) as [E2|E2].
      * rewrite (rd_ok b i 0) by (rewrite E2; apply key_text_end; lia). cbn [bind andb]; change (0 =? 0) with true; cbn [bind andb].
        f_equal. symmetry. apply same_text_eq.
        rewrite E1 in EQ at 1. rewrite E2 in EQ. unfold zlen in EQ. rewrite !Nat2Z.id, !firstn_all in EQ. exact EQ.
      * destruct (key_text_znth b i ltac:(lia)) as (c & Hc & Hc0 & Hct).
        rewrite (rd_ok b i c Hc). cbn [bind andb]. destruct (Z.eqb_spec c 0); [lia|].
        replace (negb (0 =? c)) with true by lia. f_equal. symmetry.
        destruct (same_text (key_text KW a) (key_text KW b)) eqn:ES; [|reflexivity].
        apply same_text_eq in ES. rewrite ES in E1. lia.
    + destruct (key_text_znth a i ltac:(lia)) as (x & Hx & Hx0 & Hxt).
      rewrite (rd_ok a i x Hx). cbn [bind]. destruct (Z.eqb_spec x 0); [lia|]. cbn [bind andb].
      destruct (Z.eq_dec i (zlen (key_text KW b))) as [E2|E2].
      * rewrite (rd_ok b i 0) by (rewrite E2; apply key_text_end; lia). cbn [bind].
        replace (negb (x =? 0)) with true by lia. f_equal. symmetry.
        destruct (same_text (key_text KW a) (key_text KW b)) eqn:ES; [|reflexivity].
        apply same_text_eq in ES. rewrite ES in E1. lia.
      * destruct (key_text_znth b i ltac:(lia)) as (c & Hc & Hc0 & Hct).
        rewrite (rd_ok b i c Hc). cbn [bind].
        destruct (Z.eqb_spec x c) as [->|NE]; cbn [negb].
        -- apply IH; try lia. apply znth_opt_ext; intros q Hq. rewrite !znth_firstn_if.
           destruct (Z.ltb_spec q (i + 1)); [|reflexivity].
           destruct (Z.eq_dec q i) as [->|]; [congruence|].
           pose proof (f_equal (fun l => znth l q) EQ) as EQq. cbn beta in EQq. rewrite !znth_firstn_if in EQq.
           destruct (Z.ltb_spec q i); [exact EQq|lia].
        -- f_equal. symmetry. destruct (same_text (key_text KW a) (key_text KW b)) eqn:ES; [|reflexivity].
           apply same_text_eq in ES. rewrite ES in Hxt. congruence.
Qed.

(* The lookup: a stored header key (KW bytes) against the key argument. *)
Lemma key_matches_ok a b : length a = KW -> key_ok KW arr b ->
  key_matches KW arr a b = Ok (same_key KW arr a b).
Proof using.
  intros Ha Hb. unfold key_matches, same_key. destruct arr eqn:E.
  - pose proof (zlen_nonneg (key_text KW a)). pose proof (zlen_nonneg (key_text KW b)).
    apply compare_nullterm_ok; try lia; [|exact Hb|reflexivity].
    unfold key_ok. right. unfold zlen; lia.
  - rewrite bytes_equal_same. reflexivity.
Qed.
Lemma key_text_stored k : arr = true -> key_text KW (stored_key KW arr k) = key_text KW k.
Proof using.
  intros ->. unfold stored_key at 1. pose proof (key_text_len k) as [H1 H2].
  unfold key_text at 1.
  rewrite firstn_all2 by (rewrite app_length; unfold zrepeat; rewrite repeat_length; unfold zlen in *; lia).
  rewrite until_nul_app by apply until_nul_no0.
  rewrite <- (app_nil_r (key_text KW k)) at 3. f_equal.
  unfold zrepeat. destruct (Z.to_nat (Z.of_nat KW - zlen (key_text KW k))); reflexivity.
Qed.
Lemma same_key_stored a b : same_key KW arr (stored_key KW arr a) b = same_key KW arr a b.
Proof using.
  unfold same_key. destruct (Bool.bool_dec arr true) as [E|E].
  - rewrite key_text_stored by exact E. rewrite E; reflexivity.
  - apply not_true_is_false in E. rewrite E. reflexivity.
Qed.

(* ---------------- parser ---------------- *)
Lemma as_loop_ok blob off len (n : nat) i :
  0 <= off -> 0 <= i -> i + Z.of_nat n <= len -> off + len <= zlen blob ->
  as_loop blob (off, len) n i = Ok (firstn n (skipn (Z.to_nat (off + i)) blob)).
Proof using.
  revert i; induction n as [|n IH]; intros i H1 H2 H3 H4; cbn [as_loop fst snd]; [reflexivity|].
  destruct (Z.ltb_spec i len); [|lia].
  destruct (znth_some blob (off + i) ltac:(lia)) as [b Hb].
  rewrite (rd_ok _ _ _ Hb). cbn [bind]. rewrite IH by lia. cbn [bind]. f_equal.
  apply znth_opt_ext; intros q Hq.
  rewrite <- (Nat2Z.id (S n)), <- (Nat2Z.id n). znorm. rewrite ?Nat2Z.id.
  repeat (zcase1; try (exfalso; lia)); try reflexivity; try (f_equal; lia).
  assert (q = 0) by lia. subst q. rewrite Z.add_0_r. congruence.
Qed.

Lemma to_size_range x : (0 < SW)%nat ->
  (if sgn then - 2 ^ (SWb - 1) <= to_size SW sgn x < 2 ^ (SWb - 1) else 0 <= to_size SW sgn x < 2 ^ SWb).
Proof using.
  intros H. unfold to_size, SWbits. destruct sgn; [apply sword_range; lia|apply word_range; lia].
Qed.

Lemma search_safe blob key (fuel : nat) off len :
  0 <= W -> (0 < SW)%nat -> key_ok KW arr key ->
  0 <= off -> off + len = zlen blob -> 0 <= len -> len < Z.of_nat fuel ->
  exists sz o, search W KW SW arr sgn fuel blob key (off, len) = Ok (sz, o) /\ 0 <= o <= zlen blob /\
    (if sgn then - 2 ^ (SWb - 1) <= sz < 2 ^ (SWb - 1) else 0 <= sz < 2 ^ SWb).
Proof using.
  intros HW HS Hk. revert off len; induction fuel as [|fuel IH]; intros off len H1 H2 H3 H4; [lia|].
  assert (Hz : if sgn then - 2 ^ (SWb - 1) <= 0 < 2 ^ (SWb - 1) else 0 <= 0 < 2 ^ SWb).
  { clear -HS. destruct sgn; [pose proof (pow2_pos (SWb - 1) ltac:(lia)); lia|pose proof (pow2_pos SWb ltac:(lia)); lia]. }
  cbn [search snd]. unfold hsize.
  destruct (Z.geb_spec len (Z.of_nat KW + Z.of_nat SW)) as [G|G]; [|exists 0, 0; splits; try lia; [reflexivity|exact Hz]].
  rewrite as_loop_ok by lia. cbn [bind]. unfold advance at 1. cbn [snd fst].
  destruct (Z.geb_spec (Z.of_nat KW + Z.of_nat SW) len) as [G2|G2]; [exists 0, 0; splits; try lia; [reflexivity|exact Hz]|].
  rewrite Z.add_0_r. set (h := firstn (KW + SW) (skipn (Z.to_nat off) blob)).
  assert (Hh : length h = (KW + SW)%nat).
  { unfold h. rewrite firstn_length, skipn_length. unfold zlen in *. lia. }
  rewrite key_matches_ok by (try exact Hk; rewrite firstn_length; lia). cbn [bind].
  destruct (same_key KW arr (firstn KW h) key).
  { eexists _, _. split; [reflexivity|]. cbn [fst]. split; [lia|apply to_size_range; exact HS]. }
  unfold advance. cbn [fst snd].
  destruct (Z.geb_spec (word W (to_size SW sgn (unle (skipn KW h)))) (len - (Z.of_nat KW + Z.of_nat SW)));
    [exists 0, 0; splits; try lia; [reflexivity|exact Hz]|].
  assert (0 <= word W (to_size SW sgn (unle (skipn KW h)))).
  { apply word_range; lia. }
  apply IH; lia.
Qed.

Lemma search_top blob key : 0 <= W -> (0 < SW)%nat -> key_ok KW arr key ->
  exists sz o, get_size_and_offset W KW SW arr sgn blob key = Ok (sz, o) /\ 0 <= o <= zlen blob /\
    (if sgn then - 2 ^ (SWb - 1) <= sz < 2 ^ (SWb - 1) else 0 <= sz < 2 ^ SWb).
Proof using.
  intros HW HS Hk. unfold get_size_and_offset. pose proof (zlen_nonneg blob). apply search_safe; try assumption; try lia. unfold zlen; lia.
Qed.

Lemma word_nonneg w x : 0 <= w -> 0 <= word w x.
Proof using. intros; apply word_range; assumption. Qed.

(* C22 *)
Lemma parser_safe blob key (n : nat) :
  sgn = false -> (0 < SW)%nat -> SWb < W -> zlen blob + 2 ^ SWb <= 2 ^ (W - 1) -> key_ok KW arr key ->
  (exists r, get_size_and_offset W KW SW arr sgn blob key = Ok r) /\
  (exists r, get_size W KW SW arr sgn blob key = Ok r) /\
  (exists o, get W KW SW arr sgn n blob key = Ok o) /\
  (exists v, get_node W KW SW arr sgn blob key = Ok v /\ 0 <= fst v /\ 0 <= snd v /\ fst v + snd v <= zlen blob).
Proof using.
  intros Hsg HS HW HB Hk.
  destruct (search_top blob key ltac:(lia) HS Hk) as (sz & o & E & Ho & Hsz). rewrite Hsg in Hsz.
  unfold get_size, get, get_node, get_node_view. rewrite E. cbn [bind].
  pose proof (zlen_nonneg blob) as Hn.
  assert (EW : 2 ^ W = 2 * 2 ^ (W - 1)) by (rewrite <- Z.pow_succ_r by lia; f_equal; lia).
  assert (Ee : end_of W SW sgn o sz = Ok (o + sz)).
  { unfold end_of, SWbits. rewrite Hsg. cbn [orb]. destruct (Z.ltb_spec SWb W); [|lia].
    rewrite Z.max_l by lia. unfold schk.
    replace (- 2 ^ (W - 1) <=? o + sz) with true by lia. replace (o + sz <? 2 ^ (W - 1)) with true by lia. cbn [andb bind].
    rewrite word_small by lia. reflexivity. }
  rewrite Ee. cbn [bind]. rewrite (word_small W sz) by lia.
  splits.
  - eauto.
  - eauto.
  - destruct (Z.eqb_spec sz (Z.of_nat n)) as [En|]; [|eauto].
    destruct (Z.leb_spec (o + sz) (zlen blob)); [|eauto].
    destruct (Z.leb_spec o (zlen blob)); [|lia].
    rewrite as_loop_ok by lia. cbn [bind]. eauto.
  - destruct (Z.leb_spec (o + sz) (zlen blob)); cbn [bind fst snd].
    + destruct (Z.leb_spec (o + sz) (zlen blob)); [|lia]. eexists; split; [reflexivity|]. cbn [fst snd]. lia.
    + destruct (Z.leb_spec (0 + 0) (zlen blob)); [|lia]. eexists; split; [reflexivity|]. cbn [fst snd]. lia.
Qed.

(* ---------------- lookup in a flat blob ---------------- *)
Lemma size_bytes_le n : (0 < SW)%nat -> size_bytes SW sgn n = le SW n.
Proof using.
  intros HS. unfold size_bytes. apply le_congr. rewrite pow256. unfold to_size, SWbits.
  assert (H2 : 2 ^ SWb = 2 * 2 ^ (SWb - 1)) by (rewrite <- Z.pow_succ_r by lia; f_equal; lia).
  pose proof (pow2_pos SWb ltac:(lia)).
  destruct sgn; [|apply word_mod_pow2; lia].
  unfold sword. rewrite Zminus_mod_idemp_l. f_equal. lia.
Qed.
Lemma to_size_small n : (0 < SW)%nat -> 0 <= n < lim -> to_size SW sgn (n mod 2 ^ SWb) = n.
Proof using.
  intros HS Hn. unfold to_size, SWbits.
  assert (H2 : 2 ^ SWb = 2 * 2 ^ (SWb - 1)) by (rewrite <- Z.pow_succ_r by lia; f_equal; lia).
  pose proof (pow2_pos (SWb - 1) ltac:(lia)).
  destruct sgn.
  - rewrite Z.mod_small by lia. apply sword_small; lia.
  - rewrite Z.mod_small by lia. apply word_small; lia.
Qed.

Definition records_ok (rs : list (list Z * list Z)) : Prop :=
  Forall (fun r => length (fst r) = KW /\ zlen (snd r) < lim) rs.
Definition dflt (o : option (list Z)) : list Z := match o with Some d => d | None => [] end.

Lemma zlen_record k d : length k = KW -> zlen (record SW k d) = Z.of_nat KW + Z.of_nat SW + zlen d.
Proof using. intros H. unfold record. rewrite !zlen_app, zlen_le. unfold zlen at 1. lia. Qed.

Lemma view_bytes_nil blob o : view_bytes blob (o, 0) = [].
Proof using. reflexivity. Qed.
Lemma view_bytes_mid pre d post : view_bytes (pre ++ d ++ post) (zlen pre, zlen d) = d.
Proof using.
  unfold view_bytes. cbn [fst snd]. unfold zlen. rewrite !Nat2Z.id.
  rewrite skipn_app, skipn_all, Nat.sub_diag. cbn [skipn app]. rewrite firstn_app, firstn_all, Nat.sub_diag.
  cbn [firstn]. apply app_nil_r.
Qed.
Lemma firstn_skipn_mid {A} (pre h post : list A) : firstn (length h) (skipn (length pre) (pre ++ h ++ post)) = h.
Proof using.
  rewrite skipn_app, skipn_all, Nat.sub_diag. cbn [skipn app]. rewrite firstn_app, firstn_all, Nat.sub_diag.
  cbn [firstn]. apply app_nil_r.
Qed.

(* one step of the search on a record [k ++ sb ++ tail] *)
Lemma search_step (fuel : nat) pre k sb tail key :
  (0 < SW)%nat -> length k = KW -> length sb = SW -> key_ok KW arr key ->
  search W KW SW arr sgn (S fuel) (pre ++ k ++ sb ++ tail) key (zlen pre, zlen (k ++ sb ++ tail)) =
  if zlen tail =? 0 then Ok (0, 0)
  else if same_key KW arr k key then Ok (to_size SW sgn (unle sb), zlen pre + (Z.of_nat KW + Z.of_nat SW))
  else match advance (zlen pre + (Z.of_nat KW + Z.of_nat SW), zlen tail) (word W (to_size SW sgn (unle sb))) with
       | None => Ok (0, 0)
       | Some v => search W KW SW arr sgn fuel (pre ++ k ++ sb ++ tail) key v
       end.
Proof using.
  intros HS Hkl Hsl Hk. cbn [search]. unfold hsize. cbn [snd].
  assert (EL : zlen (k ++ sb ++ tail) = Z.of_nat KW + Z.of_nat SW + zlen tail) by (rewrite !zlen_app; unfold zlen; lia).
  pose proof (zlen_nonneg tail). pose proof (zlen_nonneg pre).
  rewrite EL. destruct (Z.geb_spec (Z.of_nat KW + Z.of_nat SW + zlen tail) (Z.of_nat KW + Z.of_nat SW)); [|lia].
  rewrite as_loop_ok by (rewrite ?zlen_app in *; lia). cbn [bind].
  assert (Eh : firstn (KW + SW) (skipn (Z.to_nat (zlen pre + 0)) (pre ++ k ++ sb ++ tail)) = k ++ sb).
  { rewrite Z.add_0_r. unfold zlen. rewrite Nat2Z.id.
    replace (pre ++ k ++ sb ++ tail) with (pre ++ (k ++ sb) ++ tail) by (rewrite <- !app_assoc; reflexivity).
    replace (KW + SW)%nat with (length (k ++ sb)) by (rewrite app_length; lia). apply firstn_skipn_mid. }
  rewrite Eh. unfold advance at 1. cbn [fst snd].
  replace (Z.of_nat KW + Z.of_nat SW >=? Z.of_nat KW + Z.of_nat SW + zlen tail) with (zlen tail =? 0)
    by (destruct (Z.eqb_spec (zlen tail) 0); lia).
  destruct (Z.eqb_spec (zlen tail) 0); [reflexivity|].
  assert (E1 : firstn KW (k ++ sb) = k) by (rewrite <- Hkl, firstn_app, firstn_all, Nat.sub_diag; cbn [firstn]; apply app_nil_r).
  assert (E2 : skipn KW (k ++ sb) = sb) by (rewrite <- Hkl, skipn_app, skipn_all, Nat.sub_diag; reflexivity).
  rewrite E1, E2. rewrite key_matches_ok by assumption. cbn [bind fst].
  destruct (same_key KW arr k key); [reflexivity|].
  replace (Z.of_nat KW + Z.of_nat SW + zlen tail - (Z.of_nat KW + Z.of_nat SW)) with (zlen tail) by lia.
  reflexivity.
Qed.

Lemma search_flat rs : forall (fuel : nat) pre key,
  0 < W -> (0 < SW)%nat -> key_ok KW arr key -> records_ok rs ->
  zlen (pre ++ flat SW rs) < 2 ^ W -> zlen (flat SW rs) < Z.of_nat fuel ->
  exists sz o, search W KW SW arr sgn fuel (pre ++ flat SW rs) key (zlen pre, zlen (flat SW rs)) = Ok (sz, o) /\
    sz = zlen (dflt (first_record KW arr key rs)) /\ 0 <= o /\ o + sz <= zlen (pre ++ flat SW rs) /\
    view_bytes (pre ++ flat SW rs) (o, sz) = dflt (first_record KW arr key rs).
Proof using.
  induction rs as [|[k d] rs IH]; intros fuel pre key HW HS Hk Hrs HB Hf.
  - destruct fuel as [|fuel]; [cbn in Hf; lia|]. cbn [flat first_record dflt] in *.
    pose proof (zlen_nonneg (pre ++ [])).
    cbn [search snd]. unfold hsize. rewrite zlen_nil.
    destruct (Z.geb_spec 0 (Z.of_nat KW + Z.of_nat SW)); [lia|].
    exists 0, 0. splits; try lia; reflexivity.
  - inversion Hrs as [|? ? [Hkl Hdl] Hrs']; subst. cbn [fst snd] in *.
    destruct fuel as [|fuel]; [pose proof (zlen_nonneg (flat SW ((k,d)::rs))); lia|].
    cbn [flat] in *. unfold record in *. rewrite <- !app_assoc in *.
    pose proof (zlen_nonneg d) as Hd0. pose proof (zlen_nonneg (flat SW rs)) as Hr0. pose proof (zlen_nonneg pre) as Hp0.
    rewrite !zlen_app, !zlen_le in HB. rewrite !zlen_app, !zlen_le in Hf.
    assert (Hkz : zlen k = Z.of_nat KW) by (unfold zlen; lia).
    rewrite search_step by (try assumption; try reflexivity; apply le_length).
    cbn [first_record]. rewrite unle_le, pow256, to_size_small by lia.
    destruct (Z.eqb_spec (zlen (d ++ flat SW rs)) 0) as [E0|E0].
    { exists 0, 0. rewrite zlen_app in E0.
      assert (d = []) as -> by (apply zlen_zero_nil; lia).
      assert (rs = []) as ->.
      { destruct rs as [|[k2 d2] rs2]; [reflexivity|]. cbn [flat] in E0. rewrite zlen_app in E0.
        inversion Hrs' as [|? ? [Hk2 _] _]; subst. cbn [fst] in Hk2.
        rewrite zlen_record in E0 by exact Hk2. pose proof (zlen_nonneg d2). pose proof (zlen_nonneg (flat SW rs2)). lia. }
      cbn [first_record]. destruct (same_key KW arr k key); cbn [dflt]; splits; try reflexivity; try lia;
        cbn [flat]; rewrite ?zlen_app, ?zlen_le, ?zlen_nil; lia. }
    destruct (same_key KW arr k key).
    + eexists _, _. split; [reflexivity|]. cbn [dflt]. splits; try lia.
      * rewrite !zlen_app, !zlen_le. lia.
      * replace (pre ++ k ++ le SW (zlen d) ++ d ++ flat SW rs) with ((pre ++ k ++ le SW (zlen d)) ++ d ++ flat SW rs)
          by (rewrite <- !app_assoc; reflexivity).
        replace (zlen pre + (Z.of_nat KW + Z.of_nat SW)) with (zlen (pre ++ k ++ le SW (zlen d)))
          by (rewrite !zlen_app, zlen_le; lia).
        apply view_bytes_mid.
    + rewrite (word_small W (zlen d)) by lia.
      unfold advance. cbn [fst snd]. rewrite zlen_app.
      destruct (Z.geb_spec (zlen d) (zlen d + zlen (flat SW rs))) as [G|G].
      * assert (rs = []) as ->.
        { destruct rs as [|[k2 d2] rs2]; [reflexivity|]. cbn [flat] in G. rewrite zlen_app in G.
          inversion Hrs' as [|? ? [Hk2 _] _]; subst. cbn [fst] in Hk2.
          rewrite zlen_record in G by exact Hk2. pose proof (zlen_nonneg d2). pose proof (zlen_nonneg (flat SW rs2)). lia. }
        exists 0, 0. cbn [first_record dflt]. splits; try reflexivity; try lia. rewrite !zlen_app, !zlen_le. lia.
      * replace (pre ++ k ++ le SW (zlen d) ++ d ++ flat SW rs) with ((pre ++ k ++ le SW (zlen d) ++ d) ++ flat SW rs)
          by (rewrite <- !app_assoc; reflexivity).
        replace (zlen pre + (Z.of_nat KW + Z.of_nat SW) + zlen d, zlen d + zlen (flat SW rs) - zlen d)
          with (zlen (pre ++ k ++ le SW (zlen d) ++ d), zlen (flat SW rs))
          by (rewrite !zlen_app, zlen_le; f_equal; lia).
        apply IH; try assumption; try lia. rewrite !zlen_app, !zlen_le. lia.
Qed.

Lemma end_of_small o sz : 0 < W -> 0 <= o + sz < 2 ^ (W - 1) -> end_of W SW sgn o sz = Ok (o + sz).
Proof using.
  intros HW H. unfold end_of. set (wide := Z.max W (SWbits SW)).
  assert (HWw : 2 ^ (W - 1) <= 2 ^ (wide - 1)) by (apply Z.pow_le_mono_r; lia).
  assert (EW : 2 ^ W = 2 * 2 ^ (W - 1)) by (rewrite <- Z.pow_succ_r by lia; f_equal; lia).
  assert (EW2 : 2 ^ wide = 2 * 2 ^ (wide - 1)) by (rewrite <- Z.pow_succ_r by lia; f_equal; lia).
  destruct (sgn || (SWbits SW <? W)).
  - unfold schk. replace (- 2 ^ (wide - 1) <=? o + sz) with true by lia.
    replace (o + sz <? 2 ^ (wide - 1)) with true by lia. cbn [andb bind]. rewrite word_small by lia. reflexivity.
  - cbn [bind]. rewrite (word_small wide) by lia. rewrite word_small by lia. reflexivity.
Qed.

(* C23 *)
Lemma parser_first_match rs key :
  0 < W -> (0 < SW)%nat -> key_ok KW arr key -> records_ok rs -> zlen (flat SW rs) < 2 ^ (W - 1) ->
  (exists v, get_node W KW SW arr sgn (flat SW rs) key = Ok v /\
     view_bytes (flat SW rs) v = dflt (first_record KW arr key rs)) /\
  get_size W KW SW arr sgn (flat SW rs) key = Ok (zlen (dflt (first_record KW arr key rs))) /\
  (forall n : nat, (0 < n)%nat ->
     get W KW SW arr sgn n (flat SW rs) key =
     Ok (match first_record KW arr key rs with
         | Some d => if Nat.eqb (length d) n then Some d else None
         | None => None
         end)).
Proof using.
  intros HW HS Hk Hrs HB.
  assert (EW : 2 ^ W = 2 * 2 ^ (W - 1)) by (rewrite <- Z.pow_succ_r by lia; f_equal; lia).
  pose proof (zlen_nonneg (flat SW rs)) as H0.
  destruct (search_flat rs (S (length (flat SW rs))) [] key HW HS Hk Hrs) as (sz & o & E & Esz & Ho & Hos & Hv).
  { cbn [app]. lia. } { unfold zlen; lia. }
  cbn [app] in *. change (zlen []) with 0 in E.
  pose proof (zlen_nonneg (dflt (first_record KW arr key rs))) as H1.
  unfold get_node, get_node_view, get_size, get, get_size_and_offset. rewrite E. cbn [bind].
  rewrite (word_small W sz) by lia. rewrite end_of_small by lia. cbn [bind].
  destruct (Z.leb_spec (o + sz) (zlen (flat SW rs))); [|lia]. cbn [bind fst snd].
  destruct (Z.leb_spec (o + sz) (zlen (flat SW rs))); [|lia].
  splits.
  - eexists; split; [reflexivity|exact Hv].
  - f_equal. lia.
  - intros n Hn. destruct (Z.leb_spec o (zlen (flat SW rs))); [|lia].
    destruct (first_record KW arr key rs) as [d|] eqn:EF; cbn [dflt] in *.
    + destruct (Z.eqb_spec sz (Z.of_nat n)) as [En|En]; destruct (Nat.eqb_spec (length d) n) as [El|El];
        try reflexivity; try (unfold zlen in *; lia).
      rewrite as_loop_ok by lia. cbn [bind]. do 2 f_equal. rewrite Z.add_0_r.
      unfold view_bytes in Hv. cbn [fst snd] in Hv. rewrite En, Nat2Z.id in Hv. exact Hv.
    + rewrite zlen_nil in Esz. destruct (Z.eqb_spec sz (Z.of_nat n)); [lia|]. reflexivity.
Qed.

(* ---------------- descriptions as flat record lists ---------------- *)
Fixpoint recs (d : desc) : list (list Z * list Z) :=
  match d with
  | DEnd => []
  | DField k v r | DRaw k v r => (stored_key KW arr k, v) :: recs r
  | DObject k s r => (stored_key KW arr k, encode KW SW arr s) :: recs r
  end.
Lemma flat_recs d : flat SW (recs d) = encode KW SW arr d.
Proof using. induction d; cbn [recs flat encode]; congruence. Qed.
Lemma recs_ok d : keys_ok KW arr d -> fits KW SW arr lim d -> records_ok (recs d).
Proof using.
  unfold records_ok.
  induction d as [|k v r IH|k v r IH|k s IHs r IH]; cbn [recs keys_ok fits]; intros HK HF; constructor;
    cbn [fst snd]; try (apply IH; tauto); (split; [|tauto]);
    apply Nat2Z.inj; rewrite <- stored_key_len with (k := k) by tauto; reflexivity.
Qed.
Definition payload (e : entry) : list Z :=
  match e with Leaf v => v | Node s => encode KW SW arr s end.
Lemma first_recs key d : first_record KW arr key (recs d) = option_map payload (first_entry KW arr key d).
Proof using.
  induction d; cbn [recs first_record first_entry]; [reflexivity| | |];
    rewrite same_key_stored; destruct (same_key KW arr k key); cbn [option_map payload]; auto.
Qed.
Lemma first_entry_node key d s : first_entry KW arr key d = Some (Node s) -> keys_ok KW arr d -> fits KW SW arr lim d ->
  keys_ok KW arr s /\ fits KW SW arr lim s /\ zlen (encode KW SW arr s) <= zlen (encode KW SW arr d).
Proof using.
  induction d as [|k v r IH|k v r IH|k s' IHs r IH]; cbn [first_entry keys_ok fits encode]; intros E HK HF; try discriminate.
  - destruct (same_key KW arr k key); [discriminate|]. destruct (IH E) as (A & B & C); try tauto.
    rewrite zlen_app. pose proof (zlen_nonneg (record SW (stored_key KW arr k) v)). splits; try assumption; lia.
  - destruct (same_key KW arr k key); [discriminate|]. destruct (IH E) as (A & B & C); try tauto.
    rewrite zlen_app. pose proof (zlen_nonneg (record SW (stored_key KW arr k) v)). splits; try assumption; lia.
  - rewrite zlen_app. destruct (same_key KW arr k key).
    + injection E as ->. splits; try tauto. pose proof (zlen_nonneg (encode KW SW arr r)).
      rewrite zlen_record; [lia|]. apply Nat2Z.inj. rewrite <- stored_key_len with (k := k) by tauto. reflexivity.
    + destruct (IH E) as (A & B & C); try tauto.
      pose proof (zlen_nonneg (record SW (stored_key KW arr k) (encode KW SW arr s'))). splits; try assumption; lia.
Qed.

Lemma get_node_nil key : 0 < W -> (0 < SW)%nat -> get_node W KW SW arr sgn [] key = Ok (0, 0).
Proof using.
  intros HW HS. unfold get_node, get_node_view, get_size_and_offset. cbn [length search snd]. change (zlen []) with 0. unfold hsize.
  destruct (Z.geb_spec 0 (Z.of_nat KW + Z.of_nat SW)); [lia|]. cbn [bind].
  rewrite end_of_small by (try lia; pose proof (pow2_pos (W - 1)); lia). cbn [bind].
  change (zlen []) with 0. cbn. reflexivity.
Qed.
Lemma follow_nil path : 0 < W -> (0 < SW)%nat -> follow W KW SW arr sgn [] path = Ok [].
Proof using.
  intros HW HS. induction path as [|k path IH]; cbn [follow]; [reflexivity|].
  rewrite get_node_nil by assumption. cbn [bind]. exact IH.
Qed.

(* C24, reading *)
Lemma follow_encode path : forall d bytes,
  0 < W -> (0 < SW)%nat -> Forall (key_ok KW arr) path -> keys_ok KW arr d -> fits KW SW arr lim d ->
  zlen (encode KW SW arr d) < 2 ^ (W - 1) ->
  at_path KW SW arr d path = Some bytes ->
  follow W KW SW arr sgn (encode KW SW arr d) path = Ok bytes.
Proof using.
  induction path as [|k path IH]; intros d bytes HW HS HP HK HF HB HA; cbn [at_path follow] in *; [congruence|].
  inversion HP as [|? ? Hk HP']; subst.
  destruct (parser_first_match (recs d) k HW HS Hk (recs_ok d HK HF)) as ((v & Ev & Hv) & _ & _);
    [rewrite flat_recs; exact HB|].
  rewrite flat_recs in *. rewrite Ev. cbn [bind]. rewrite Hv, first_recs.
  destruct (first_entry KW arr k d) as [[l|s]|] eqn:EF; cbn [option_map dflt payload] in *.
  - destruct path; [cbn [follow]; congruence|discriminate].
  - destruct (first_entry_node _ _ _ EF HK HF) as (A & B & C). apply IH; try assumption. lia.
  - rewrite follow_nil by assumption. congruence.
Qed.
Lemma get_encode d k (n : nat) :
  0 < W -> (0 < SW)%nat -> key_ok KW arr k -> keys_ok KW arr d -> fits KW SW arr lim d ->
  zlen (encode KW SW arr d) < 2 ^ (W - 1) -> (0 < n)%nat ->
  get W KW SW arr sgn n (encode KW SW arr d) k =
  Ok (match at_path KW SW arr d [k] with
      | Some v => if Nat.eqb (length v) n then Some v else None
      | None => None
      end).
Proof using.
  intros HW HS Hk HK HF HB Hn.
  destruct (parser_first_match (recs d) k HW HS Hk (recs_ok d HK HF)) as (_ & _ & Hg);
    [rewrite flat_recs; exact HB|].
  rewrite flat_recs, first_recs in Hg. rewrite (Hg n Hn). cbn [at_path].
  destruct (first_entry KW arr k d) as [[l|s]|]; cbn [option_map payload]; try reflexivity.
  destruct n; [lia|]. reflexivity.
Qed.

(* ---------------- writing ---------------- *)
Lemma zlen_encode_fields k v rest :
  key_ok KW arr k -> zlen (record SW (stored_key KW arr k) v ++ rest) = Z.of_nat KW + Z.of_nat SW + zlen v + zlen rest.
Proof using.
  intros H. rewrite zlen_app, zlen_record; [reflexivity|].
  apply Nat2Z.inj. rewrite <- stored_key_len with (k := k) by exact H. reflexivity.
Qed.
Lemma measure_ok d : forall count, keys_ok KW arr d -> 0 <= count -> count + zlen (encode KW SW arr d) < 2 ^ W ->
  measure_from W KW SW count d = count + zlen (encode KW SW arr d).
Proof using.
  induction d as [|k v r IH|k v r IH|k s IHs r IH]; cbn [measure_from keys_ok encode]; intros count HK HC HB.
  - rewrite zlen_nil. lia.
  - rewrite zlen_encode_fields in * by tauto. pose proof (zlen_nonneg (encode KW SW arr r)). pose proof (zlen_nonneg v).
    rewrite word_small by lia. rewrite IH; try tauto; lia.
  - rewrite zlen_encode_fields in * by tauto. pose proof (zlen_nonneg (encode KW SW arr r)). pose proof (zlen_nonneg v).
    rewrite word_small by lia. rewrite IH; try tauto; lia.
  - rewrite zlen_encode_fields in * by tauto. pose proof (zlen_nonneg (encode KW SW arr r)). pose proof (zlen_nonneg (encode KW SW arr s)).
    rewrite IHs by (try tauto; lia). rewrite word_small by lia. rewrite IH; try tauto; lia.
Qed.

Section Emit.
Context {St : Type} (emit : list Z -> St -> outcome St) (Rep : list Z -> St -> Prop).
Hypothesis emit_ok : forall e s b, Rep e s -> zlen (e ++ b) < 2 ^ W -> exists s', emit b s = Ok s' /\ Rep (e ++ b) s'.
Lemma write_desc_ok d : forall e s, (0 < SW)%nat -> keys_ok KW arr d -> Rep e s -> zlen (e ++ encode KW SW arr d) < 2 ^ W ->
  exists s', write_desc W KW SW arr sgn emit d s = Ok s' /\ Rep (e ++ encode KW SW arr d) s'.
Proof using emit_ok.
  assert (step : forall k n (body : St -> outcome St) (b : list Z) e s, (0 < SW)%nat -> key_ok KW arr k -> Rep e s ->
      zlen (e ++ stored_key KW arr k ++ le SW n) < 2 ^ W ->
      exists s', (let* s := write_key KW arr emit k s in write_size SW sgn emit n s) = Ok s' /\ Rep (e ++ stored_key KW arr k ++ le SW n) s').
  { intros k n _ _ e s HS Hk HR HB. unfold write_key, write_size. rewrite key_bytes_ok by exact Hk. cbn [bind].
    rewrite app_assoc in HB. pose proof (zlen_nonneg (le SW n)).
    destruct (emit_ok e s (stored_key KW arr k) HR) as (s1 & E1 & R1); [rewrite zlen_app in HB; lia|].
    rewrite E1. cbn [bind]. rewrite size_bytes_le by exact HS.
    destruct (emit_ok _ s1 (le SW n) R1) as (s2 & E2 & R2); [exact HB|].
    exists s2. rewrite app_assoc. auto. }
  induction d as [|k v r IH|k v r IH|k sub IHs r IH]; intros e s HS HK HR HB; cbn [write_desc encode keys_ok] in *.
  - exists s. rewrite app_nil_r. auto.
  - unfold record in *. rewrite <- !app_assoc in *.
    destruct (step k (zlen v) (fun s => Ok s) [] e s HS ltac:(tauto) HR) as (s2 & E2 & R2).
    { rewrite !zlen_app in *. pose proof (zlen_nonneg v). pose proof (zlen_nonneg (encode KW SW arr r)). lia. }
    destruct (write_key KW arr emit k s) as [s1| |]; cbn [bind] in E2 |- *; try discriminate. rewrite E2. cbn [bind].
    destruct (emit_ok _ s2 v R2) as (s3 & E3 & R3); [rewrite !zlen_app in *; pose proof (zlen_nonneg (encode KW SW arr r)); lia|].
    rewrite E3. cbn [bind]. destruct (IH _ s3 HS ltac:(tauto) R3) as (s4 & E4 & R4); [rewrite !zlen_app in *; lia|].
    exists s4. split; [exact E4|]. rewrite <- !app_assoc in R4. exact R4.
  - unfold record in *. rewrite <- !app_assoc in *.
    destruct (step k (zlen v) (fun s => Ok s) [] e s HS ltac:(tauto) HR) as (s2 & E2 & R2).
    { rewrite !zlen_app in *. pose proof (zlen_nonneg v). pose proof (zlen_nonneg (encode KW SW arr r)). lia. }
    destruct (write_key KW arr emit k s) as [s1| |]; cbn [bind] in E2 |- *; try discriminate. rewrite E2. cbn [bind].
    destruct (emit_ok _ s2 v R2) as (s3 & E3 & R3); [rewrite !zlen_app in *; pose proof (zlen_nonneg (encode KW SW arr r)); lia|].
    rewrite E3. cbn [bind]. destruct (IH _ s3 HS ltac:(tauto) R3) as (s4 & E4 & R4); [rewrite !zlen_app in *; lia|].
    exists s4. split; [exact E4|]. rewrite <- !app_assoc in R4. exact R4.
  - unfold record in *. rewrite <- !app_assoc in *.
    pose proof (zlen_nonneg (encode KW SW arr sub)). pose proof (zlen_nonneg (encode KW SW arr r)).
    pose proof (zlen_nonneg e). pose proof (zlen_nonneg (stored_key KW arr k)).
    pose proof HB as HB2. rewrite !zlen_app, zlen_le in HB2.
    rewrite measure_ok by (try tauto; lia). rewrite Z.add_0_l.
    destruct (step k (zlen (encode KW SW arr sub)) (fun s => Ok s) [] e s HS ltac:(tauto) HR) as (s2 & E2 & R2).
    { rewrite !zlen_app, zlen_le. lia. }
    destruct (write_key KW arr emit k s) as [s1| |]; cbn [bind] in E2 |- *; try discriminate. rewrite E2. cbn [bind].
    destruct (IHs _ s2 HS ltac:(tauto) R2) as (s3 & E3 & R3); [rewrite !zlen_app, zlen_le; lia|].
    rewrite E3. cbn [bind]. destruct (IH _ s3 HS ltac:(tauto) R3) as (s4 & E4 & R4); [rewrite !zlen_app, zlen_le; lia|].
    exists s4. split; [exact E4|]. rewrite <- !app_assoc in R4. exact R4.
Qed.
End Emit.

Lemma span_emit_ok b0 bytes : forall e, zlen (e ++ bytes) < 2 ^ W ->
  span_emit W bytes (over e b0, zlen e) = Ok (over (e ++ bytes) b0, zlen (e ++ bytes)).
Proof using.
  induction bytes as [|b r IH]; intros e HB; cbn [span_emit]; [rewrite app_nil_r; reflexivity|].
  pose proof (zlen_nonneg e). pose proof (zlen_nonneg r).
  assert (Ew : (if zlen e <? zlen (over e b0) then wr (over e b0) (zlen e) b else Ok (over e b0)) = Ok (over (e ++ [b]) b0)).
  { rewrite over_snoc, over_len. destruct (Z.ltb_spec (zlen e) (zlen b0)); [|reflexivity].
    apply wr_ok. rewrite over_len. lia. }
  rewrite Ew. cbn [bind]. rewrite zlen_app, zlen_cons in HB. rewrite word_small by lia.
  replace (zlen e + 1) with (zlen (e ++ [b])) by (zl; lia).
  rewrite IH; rewrite <- app_assoc; cbn [app]; [reflexivity|]. rewrite zlen_app, zlen_cons. lia.
Qed.

(* C24/C25 *)
Lemma serialize_ok d out : (0 < SW)%nat -> keys_ok KW arr d -> zlen (encode KW SW arr d) < 2 ^ W ->
  serialize W KW SW arr sgn out d = Ok (over (encode KW SW arr d) out, zlen (encode KW SW arr d)).
Proof using.
  intros HS HK HB. unfold serialize.
  destruct (write_desc_ok (span_emit W) (fun e s => s = (over e out, zlen e))) with (d := d) (e := @nil Z) (s := (out, 0)) as (s' & E & R).
  - intros e s b -> HBb. eexists; split; [apply span_emit_ok; exact HBb|reflexivity].
  - exact HS.
  - exact HK.
  - rewrite over_nil. reflexivity.
  - exact HB.
  - rewrite E, R. reflexivity.
Qed.
Lemma stream_ok d : (0 < SW)%nat -> keys_ok KW arr d -> zlen (encode KW SW arr d) < 2 ^ W ->
  exists chunks, stream W KW SW arr sgn d = Ok (chunks, zlen (encode KW SW arr d)) /\ concat chunks = encode KW SW arr d.
Proof using.
  intros HS HK HB. unfold stream.
  destruct (write_desc_ok (sink_emit W) (fun e s => concat (fst s) = e /\ snd s = zlen e)) with (d := d) (e := @nil Z) (s := (@nil (list Z), 0)) as (s' & E & R1 & R2).
  - intros e s b [<- E2] HBb. eexists; split; [reflexivity|]. cbn [fst snd].
    rewrite concat_app. cbn [concat]. rewrite app_nil_r. split; [reflexivity|].
    rewrite E2. rewrite zlen_app in *. apply word_small. pose proof (zlen_nonneg (concat (fst s))). pose proof (zlen_nonneg b). lia.
  - exact HS.
  - exact HK.
  - split; reflexivity.
  - exact HB.
  - exists (fst s'). rewrite E. split; [|exact R1]. cbn [app] in R2. rewrite <- R2. destruct s'; reflexivity.
Qed.
Lemma measure_top d : keys_ok KW arr d -> zlen (encode KW SW arr d) < 2 ^ W -> measure W KW SW d = zlen (encode KW SW arr d).
Proof using. intros. unfold measure. rewrite measure_ok; try assumption; lia. Qed.

(* ---------------- the writer ---------------- *)
Variable MaxDepth : Z.
Notation w_run' := (w_run W KW SW arr sgn MaxDepth).
Notation w_step' := (w_step W KW SW arr sgn MaxDepth).

Lemma zupd_mid {A} (e1 : list A) x t b : zupd (e1 ++ x :: t) (zlen e1) b = e1 ++ b :: t.
Proof using.
  apply znth_opt_ext; intros i Hi. pose proof (zlen_nonneg e1). pose proof (zlen_nonneg t).
  rewrite znth_zupd. znorm. repeat (zcase1; try (exfalso; lia)); reflexivity.
Qed.
Lemma over_upd e b0 q b : 0 <= q < zlen e -> over (zupd e q b) b0 = if q <? zlen b0 then zupd (over e b0) q b else over e b0.
Proof using.
  intros Hq. apply znth_opt_ext; intros i Hi. pose proof (zlen_nonneg b0).
  rewrite over_znth, zlen_zupd, znth_zupd by lia.
  destruct (Z.ltb_spec q (zlen b0)); rewrite ?znth_zupd, over_znth, ?over_len by lia;
    repeat (zcase1; try (exfalso; lia)); reflexivity.
Qed.
Lemma write_at_ok b0 bs : forall e1 old e2 position i, length old = length bs -> position + i = zlen e1 ->
  zlen (e1 ++ old ++ e2) < 2 ^ W ->
  write_at W (over (e1 ++ old ++ e2) b0) position i bs = Ok (over (e1 ++ bs ++ e2) b0).
Proof using.
  induction bs as [|b bs IH]; intros e1 [|x old] e2 position i HL HP HB; cbn [length] in HL; try lia; cbn [write_at app]; [reflexivity|].
  rewrite HP. pose proof (zlen_nonneg e1). pose proof (zlen_nonneg (old ++ e2)).
  cbn [app] in HB. rewrite zlen_app, zlen_cons in HB.
  rewrite word_small by lia.
  assert (Ew : (if zlen e1 <? zlen (over (e1 ++ x :: old ++ e2) b0) then wr (over (e1 ++ x :: old ++ e2) b0) (zlen e1) b else Ok (over (e1 ++ x :: old ++ e2) b0))
               = Ok (over ((e1 ++ [b]) ++ old ++ e2) b0)).
  { rewrite over_len. rewrite <- app_assoc. cbn [app].
    rewrite <- (zupd_mid e1 x (old ++ e2) b). rewrite over_upd by (rewrite zlen_app, zlen_cons; lia).
    destruct (Z.ltb_spec (zlen e1) (zlen b0)); [|reflexivity]. apply wr_ok. rewrite over_len. lia. }
  rewrite Ew. cbn [bind]. rewrite IH; [rewrite <- app_assoc; reflexivity|lia|zl; lia|].
  rewrite zlen_app. zl. rewrite zlen_app in *. lia.
Qed.

Lemma w_emit_ok b0 e st dep b : zlen (e ++ b) < 2 ^ W ->
  w_emit W b (Writer (over e b0) (zlen e) st dep) = Ok (Writer (over (e ++ b) b0) (zlen (e ++ b)) st dep).
Proof using. intros H. unfold w_emit. cbn [w_buf w_pos w_stack w_depth]. rewrite span_emit_ok by exact H. reflexivity. Qed.
Lemma w_header_ok b0 e st dep k : key_ok KW arr k -> zlen (e ++ stored_key KW arr k) < 2 ^ W ->
  write_key KW arr (w_emit W) k (Writer (over e b0) (zlen e) st dep) =
  Ok (Writer (over (e ++ stored_key KW arr k) b0) (zlen (e ++ stored_key KW arr k)) st dep).
Proof using.
  intros Hk HB. unfold write_key. rewrite key_bytes_ok by exact Hk. cbn [bind]. apply w_emit_ok. exact HB.
Qed.
Lemma w_run_app s ops1 ops2 : w_run' s (ops1 ++ ops2) = let* s1 := w_run' s ops1 in w_run' s1 ops2.
Proof using.
  revert s; induction ops1 as [|o ops1 IH]; intros s; cbn [w_run app]; [reflexivity|].
  destruct (w_step' s o); cbn [bind]; auto.
Qed.
Lemma zlen_encode_depth d : forall n, zlen (encode_to_depth KW SW arr n d) = zlen (encode KW SW arr d).
Proof using.
  induction d as [|k v r IH|k v r IH|k s IHs r IH]; intros n; cbn [encode_to_depth encode]; [reflexivity| | |].
  - rewrite !zlen_app, IH. reflexivity.
  - rewrite !zlen_app, IH. reflexivity.
  - destruct n; unfold record; rewrite !zlen_app, IH, IHs, !zlen_le; reflexivity.
Qed.
Lemma encode_depth_enough d : forall n, (nesting d <= n)%nat -> encode_to_depth KW SW arr n d = encode KW SW arr d.
Proof using.
  induction d as [|k v r IH|k v r IH|k s IHs r IH]; intros n Hn; cbn [encode_to_depth encode nesting] in *; [reflexivity| | |].
  - rewrite IH by lia. reflexivity.
  - rewrite IH by lia. reflexivity.
  - destruct n as [|n]; [lia|]. rewrite IH, IHs by lia. reflexivity.
Qed.

Lemma script_ok b0 d : forall e st dep, (0 < SW)%nat -> 0 <= MaxDepth -> keys_ok KW arr d -> zlen st = MaxDepth -> 0 <= dep ->
  dep + Z.of_nat (nesting d) < 2 ^ 32 ->
  zlen (e ++ encode KW SW arr d) < 2 ^ W ->
  let E := encode_to_depth KW SW arr (Z.to_nat (MaxDepth - dep)) d in
  exists st', w_run' (Writer (over e b0) (zlen e) st dep) (script d)
              = Ok (Writer (over (e ++ E) b0) (zlen (e ++ E)) st' dep) /\
    zlen st' = MaxDepth /\ (forall i, i < dep -> znth st' i = znth st i).
Proof using.
  induction d as [|k v r IH|k v r IH|k sub IHs r IH]; intros e st dep HS HM HK Hst Hd Hn HB E; subst E;
    cbn [script w_run keys_ok nesting encode encode_to_depth] in *.
  - exists st. rewrite app_nil_r. auto.
  - cbn [w_step]. destruct HK as [Hk HK]. unfold record in HB. rewrite <- !app_assoc in HB. pose proof HB as HB2. rewrite !zlen_app in HB2.
    pose proof (zlen_nonneg v). pose proof (zlen_nonneg (encode KW SW arr r)). pose proof (zlen_nonneg (le SW (zlen v))).
    rewrite w_header_ok by (try exact Hk; rewrite zlen_app; lia). cbn [bind].
    unfold write_size. rewrite size_bytes_le by exact HS.
    rewrite w_emit_ok by (rewrite !zlen_app; lia). cbn [bind].
    rewrite w_emit_ok by (rewrite !zlen_app; lia). cbn [bind].
    destruct (IH (((e ++ stored_key KW arr k) ++ le SW (zlen v)) ++ v) st dep) as (st' & E1 & E2 & E3);
      try assumption; [rewrite !zlen_app; lia|].
    exists st'. rewrite E1. unfold record. rewrite <- !app_assoc. auto.
  - cbn [w_step]. destruct HK as [Hk HK]. unfold record in HB. rewrite <- !app_assoc in HB. pose proof HB as HB2. rewrite !zlen_app in HB2.
    pose proof (zlen_nonneg v). pose proof (zlen_nonneg (encode KW SW arr r)). pose proof (zlen_nonneg (le SW (zlen v))).
    rewrite w_header_ok by (try exact Hk; rewrite zlen_app; lia). cbn [bind].
    unfold write_size. rewrite size_bytes_le by exact HS.
    rewrite w_emit_ok by (rewrite !zlen_app; lia). cbn [bind].
    rewrite w_emit_ok by (rewrite !zlen_app; lia). cbn [bind].
    destruct (IH (((e ++ stored_key KW arr k) ++ le SW (zlen v)) ++ v) st dep) as (st' & E1 & E2 & E3);
      try assumption; [rewrite !zlen_app; lia|].
    exists st'. rewrite E1. unfold record. rewrite <- !app_assoc. auto.
  - cbn [w_step]. destruct HK as (Hk & HKs & HK). unfold record in HB. rewrite <- !app_assoc in HB. pose proof HB as HB2.
    rewrite !zlen_app, zlen_le in HB2.
    pose proof (zlen_nonneg (encode KW SW arr sub)). pose proof (zlen_nonneg (encode KW SW arr r)).
    pose proof (zlen_nonneg e). pose proof (zlen_nonneg (stored_key KW arr k)).
    rewrite w_header_ok by (try exact Hk; rewrite zlen_app; lia). cbn [bind w_depth w_stack w_pos w_buf].
    set (e1 := e ++ stored_key KW arr k). assert (He1 : zlen e1 = zlen e + zlen (stored_key KW arr k)) by (unfold e1; apply zlen_app).
    (* the stack after pushing the mark *)
    assert (HP : exists st1, (if dep <? MaxDepth then wr st dep (zlen e1) else Ok st) = Ok st1 /\ zlen st1 = MaxDepth /\
               (forall i, i < dep -> znth st1 i = znth st i) /\ (dep < MaxDepth -> znth st1 dep = Some (zlen e1))).
    { destruct (Z.ltb_spec dep MaxDepth).
      - exists (zupd st dep (zlen e1)). rewrite wr_ok by lia. splits; try reflexivity.
        + rewrite zlen_zupd. exact Hst.
        + intros i Hi. rewrite znth_zupd. zcase1; [lia|reflexivity].
        + intros _. apply znth_zupd_eq. lia.
      - exists st. splits; auto; lia. }
    destruct HP as (st1 & -> & Hl1 & Hlow & Htop). cbn [bind].
    unfold write_size. rewrite size_bytes_le by exact HS. rewrite (word_small 32) by lia.
    rewrite w_emit_ok by (rewrite zlen_app, zlen_le; lia). cbn [bind].
    rewrite w_run_app.
    destruct (IHs (e1 ++ le SW 0) st1 (dep + 1)) as (st2 & E1 & Hl2 & Hlow2); try assumption; try lia.
    { rewrite !zlen_app, zlen_le. lia. }
    rewrite E1. clear E1. cbn [bind w_run w_step w_depth].
    destruct (Z.eqb_spec (dep + 1) 0); [lia|]. replace (dep + 1 - 1) with dep by lia.
    set (S2 := encode_to_depth KW SW arr (Z.to_nat (MaxDepth - (dep + 1))) sub).
    assert (HS2 : zlen S2 = zlen (encode KW SW arr sub)) by (apply zlen_encode_depth).
    (* closing the object *)
    assert (HC : exists mid, zlen mid = Z.of_nat KW + Z.of_nat SW + zlen S2 - Z.of_nat KW /\
        (if dep <? MaxDepth
         then let* size_pos := rd (w_stack (Writer (over ((e1 ++ le SW 0) ++ S2) b0) (zlen ((e1 ++ le SW 0) ++ S2)) st2 (dep + 1))) dep in
              let* b := write_at W (w_buf (Writer (over ((e1 ++ le SW 0) ++ S2) b0) (zlen ((e1 ++ le SW 0) ++ S2)) st2 (dep + 1))) size_pos 0
                          (size_bytes SW sgn (word W (w_pos (Writer (over ((e1 ++ le SW 0) ++ S2) b0) (zlen ((e1 ++ le SW 0) ++ S2)) st2 (dep + 1)) - word W (size_pos + Z.of_nat SW)))) in
              Ok (Writer b (w_pos (Writer (over ((e1 ++ le SW 0) ++ S2) b0) (zlen ((e1 ++ le SW 0) ++ S2)) st2 (dep + 1))) (w_stack (Writer (over ((e1 ++ le SW 0) ++ S2) b0) (zlen ((e1 ++ le SW 0) ++ S2)) st2 (dep + 1))) dep)
         else Ok (Writer (w_buf (Writer (over ((e1 ++ le SW 0) ++ S2) b0) (zlen ((e1 ++ le SW 0) ++ S2)) st2 (dep + 1))) (w_pos (Writer (over ((e1 ++ le SW 0) ++ S2) b0) (zlen ((e1 ++ le SW 0) ++ S2)) st2 (dep + 1))) (w_stack (Writer (over ((e1 ++ le SW 0) ++ S2) b0) (zlen ((e1 ++ le SW 0) ++ S2)) st2 (dep + 1))) dep))
        = Ok (Writer (over (e1 ++ mid) b0) (zlen (e1 ++ mid)) st2 dep) /\
        stored_key KW arr k ++ mid =
          match Z.to_nat (MaxDepth - dep) with
          | O => stored_key KW arr k ++ le SW 0 ++ encode_to_depth KW SW arr O sub
          | S n => record SW (stored_key KW arr k) (encode_to_depth KW SW arr n sub)
          end).
    { cbn [w_stack w_buf w_pos]. destruct (Z.ltb_spec dep MaxDepth) as [L|L].
      - exists (le SW (zlen S2) ++ S2). split; [rewrite zlen_app, zlen_le; lia|].
        rewrite (rd_ok st2 dep (zlen e1)) by (rewrite Hlow2 by lia; apply Htop; exact L). cbn [bind].
        rewrite (word_small W (zlen e1 + Z.of_nat SW)) by lia.
        assert (Ez : zlen ((e1 ++ le SW 0) ++ S2) = zlen e1 + Z.of_nat SW + zlen S2) by (rewrite !zlen_app, zlen_le; lia).
        rewrite Ez. replace (zlen e1 + Z.of_nat SW + zlen S2 - (zlen e1 + Z.of_nat SW)) with (zlen S2) by lia.
        rewrite (word_small W (zlen S2)) by lia. rewrite size_bytes_le by exact HS.
        rewrite <- app_assoc. rewrite write_at_ok; [|rewrite !le_length; reflexivity|lia|rewrite !zlen_app, zlen_le; lia].
        cbn [bind]. split.
        + f_equal. f_equal. rewrite !zlen_app, zlen_le. lia.
        + replace (Z.to_nat (MaxDepth - dep)) with (S (Z.to_nat (MaxDepth - (dep + 1)))) by lia. reflexivity.
      - exists (le SW 0 ++ S2). split; [rewrite zlen_app, zlen_le; lia|]. rewrite <- app_assoc. split; [reflexivity|].
        replace (Z.to_nat (MaxDepth - dep)) with O by lia. unfold S2.
        replace (Z.to_nat (MaxDepth - (dep + 1))) with O by lia. reflexivity. }
    destruct HC as (mid & Hmid & -> & Eobj). cbn [bind].
    destruct (IH (e1 ++ mid) st2 dep) as (st3 & E4 & Hl3 & Hlow3); try assumption; try lia.
    { rewrite !zlen_app. lia. }
    exists st3. rewrite E4. rewrite <- Eobj. unfold e1. rewrite <- !app_assoc. splits; auto.
    intros i Hi. rewrite Hlow3, Hlow2, Hlow by lia. reflexivity.
Qed.

(* C26 *)
Lemma writer_any_depth d out : (0 < SW)%nat -> 0 <= MaxDepth -> keys_ok KW arr d -> Z.of_nat (nesting d) < 2 ^ 32 ->
  zlen (encode KW SW arr d) < 2 ^ W ->
  exists st, w_run' (writer_new MaxDepth out) (script d)
    = Ok (Writer (over (encode_to_depth KW SW arr (Z.to_nat MaxDepth) d) out) (zlen (encode KW SW arr d)) st 0).
Proof using.
  intros HS HM HK Hn HB. unfold writer_new.
  destruct (script_ok out d [] (zrepeat 0 MaxDepth) 0) as (st & E & _); try assumption; try lia.
  - rewrite zlen_zrepeat_max. lia.
  - rewrite over_nil, Z.sub_0_r in E. cbn [app] in E. change (zlen []) with 0 in E. exists st. rewrite E.
    rewrite zlen_encode_depth. reflexivity.
Qed.
Lemma writer_is_serializer d out : (0 < SW)%nat -> keys_ok KW arr d -> Z.of_nat (nesting d) <= MaxDepth -> MaxDepth < 2 ^ 32 ->
  zlen (encode KW SW arr d) < 2 ^ W ->
  exists s, w_run' (writer_new MaxDepth out) (script d) = Ok s /\
    serialize W KW SW arr sgn out d = Ok (w_buf s, w_pos s) /\ w_pos s = measure W KW SW d /\ w_depth s = 0.
Proof using.
  intros HS HK Hn HM HB. destruct (writer_any_depth d out) as (st & E); try assumption; try lia.
  eexists; split; [exact E|]. cbn [w_buf w_pos w_depth]. rewrite encode_depth_enough by lia.
  rewrite serialize_ok, measure_top by assumption. auto.
Qed.

(* any sequence of calls stays in bounds *)
Lemma span_emit_safe bytes : 0 <= W -> forall buf pos, 0 <= pos ->
  exists b p, span_emit W bytes (buf, pos) = Ok (b, p) /\ zlen b = zlen buf /\ 0 <= p.
Proof using.
  intros HW. induction bytes as [|b r IH]; intros buf pos HP; cbn [span_emit]; [eauto|].
  assert (H1 : exists b1, (if pos <? zlen buf then wr buf pos b else Ok buf) = Ok b1 /\ zlen b1 = zlen buf).
  { destruct (Z.ltb_spec pos (zlen buf)); [|eauto]. rewrite wr_ok by lia. eexists; split; [reflexivity|apply zlen_zupd]. }
  destruct H1 as (b1 & -> & Hb1). cbn [bind]. rewrite <- Hb1. apply IH. apply word_nonneg; exact HW.
Qed.
Lemma write_at_safe bytes : 0 <= W -> forall buf p i, exists b, write_at W buf p i bytes = Ok b /\ zlen b = zlen buf.
Proof using.
  intros HW. induction bytes as [|b r IH]; intros buf p i; cbn [write_at]; [eauto|].
  assert (H1 : exists b1, (if word W (p + i) <? zlen buf then wr buf (word W (p + i)) b else Ok buf) = Ok b1 /\ zlen b1 = zlen buf).
  { destruct (Z.ltb_spec (word W (p + i)) (zlen buf)); [|eauto]. pose proof (word_nonneg W (p + i) HW).
    rewrite wr_ok by lia. eexists; split; [reflexivity|apply zlen_zupd]. }
  destruct H1 as (b1 & -> & Hb1). cbn [bind]. rewrite <- Hb1. apply IH.
Qed.
Definition op_keys_ok (o : wop) : Prop :=
  match o with WField k _ | WRaw k _ | WBegin k => key_ok KW arr k | WEnd => True end.
Definition w_wf (out : list Z) (s : writer) : Prop :=
  zlen (w_buf s) = zlen out /\ 0 <= w_pos s /\ zlen (w_stack s) = MaxDepth /\ 0 <= w_depth s.
Lemma w_emit_safe out s b : 0 <= W -> w_wf out s -> exists s', w_emit W b s = Ok s' /\ w_wf out s' /\ w_stack s' = w_stack s /\ w_depth s' = w_depth s.
Proof using.
  intros HW (H1 & H2 & H3 & H4). unfold w_emit.
  destruct (span_emit_safe b HW (w_buf s) (w_pos s) H2) as (b' & p & E & Hb & Hp). rewrite E. cbn [bind].
  eexists; split; [reflexivity|]. unfold w_wf. cbn [w_buf w_pos w_stack w_depth]. splits; auto; lia.
Qed.
Lemma w_step_safe out s o : 0 <= W -> 0 <= MaxDepth -> w_wf out s -> op_keys_ok o -> exists s', w_step' s o = Ok s' /\ w_wf out s'.
Proof using.
  intros HW HM Hs Ho.
  assert (HF : forall k v, key_ok KW arr k -> exists s', (let* s0 := write_key KW arr (w_emit W) k s in
      let* s1 := write_size SW sgn (w_emit W) (zlen v) s0 in w_emit W v s1) = Ok s' /\ w_wf out s').
  { intros k v Hk. unfold write_key, write_size. rewrite key_bytes_ok by exact Hk. cbn [bind].
    destruct (w_emit_safe out s (stored_key KW arr k) HW Hs) as (s1 & -> & W1 & _). cbn [bind].
    destruct (w_emit_safe out s1 (size_bytes SW sgn (zlen v)) HW W1) as (s2 & -> & W2 & _). cbn [bind].
    destruct (w_emit_safe out s2 v HW W2) as (s3 & -> & W3 & _). eauto. }
  destruct o as [k v|k v|k|]; cbn [w_step op_keys_ok] in *; [apply HF; exact Ho|apply HF; exact Ho| |].
  - unfold write_key at 1. rewrite key_bytes_ok by exact Ho. cbn [bind].
    destruct (w_emit_safe out s (stored_key KW arr k) HW Hs) as (s1 & -> & W1 & _). cbn [bind].
    destruct W1 as (A1 & A2 & A3 & A4).
    assert (HP : exists st, (if w_depth s1 <? MaxDepth then wr (w_stack s1) (w_depth s1) (w_pos s1) else Ok (w_stack s1)) = Ok st /\ zlen st = MaxDepth).
    { destruct (Z.ltb_spec (w_depth s1) MaxDepth); [|eauto]. rewrite wr_ok by lia. eexists; split; [reflexivity|]. rewrite zlen_zupd; exact A3. }
    destruct HP as (st & -> & Hst). cbn [bind]. unfold write_size.
    destruct (w_emit_safe out (Writer (w_buf s1) (w_pos s1) st (word 32 (w_depth s1 + 1))) (size_bytes SW sgn 0) HW) as (s3 & E & W3 & _).
    { unfold w_wf. cbn [w_buf w_pos w_stack w_depth]. splits; auto. apply word_nonneg. lia. }
    eauto.
  - destruct Hs as (A1 & A2 & A3 & A4). destruct (Z.eqb_spec (w_depth s) 0); [exists s; unfold w_wf; auto|].
    destruct (Z.ltb_spec (w_depth s - 1) MaxDepth).
    + destruct (znth_some (w_stack s) (w_depth s - 1) ltac:(lia)) as [p Hp]. rewrite (rd_ok _ _ _ Hp). cbn [bind].
      match goal with |- context [write_at W ?b ?p ?i ?x] => destruct (write_at_safe x HW b p i) as (b' & -> & Hb') end.
      cbn [bind]. eexists; split; [reflexivity|]. unfold w_wf. cbn [w_buf w_pos w_stack w_depth]. splits; auto; lia.
    + eexists; split; [reflexivity|]. unfold w_wf. cbn [w_buf w_pos w_stack w_depth]. splits; auto; lia.
Qed.
Lemma writer_safe out ops : 0 <= W -> 0 <= MaxDepth -> Forall op_keys_ok ops ->
  exists s, w_run' (writer_new MaxDepth out) ops = Ok s /\ zlen (w_buf s) = zlen out.
Proof using.
  intros HW HM Ho.
  assert (G : forall s, w_wf out s -> exists s', w_run' s ops = Ok s' /\ w_wf out s').
  { induction ops as [|o ops IH]; intros s Hs; cbn [w_run]; [eauto|]. inversion Ho; subst.
    destruct (w_step_safe out s o HW HM Hs) as (s1 & -> & W1); [assumption|]. cbn [bind]. apply IH; assumption. }
  destruct (G (writer_new MaxDepth out)) as (s & E & A & _).
  { unfold w_wf, writer_new. cbn [w_buf w_pos w_stack w_depth]. rewrite zlen_zrepeat_max. splits; lia. }
  eauto.
Qed.
Lemma writer_unmatched_end s : w_depth s = 0 -> w_step' s WEnd = Ok s.
Proof using. intros H. cbn [w_step]. rewrite H. reflexivity. Qed.

(* ---------------- C27: sizes that do not fit ---------------- *)
Lemma oversized k d : 0 < W -> (0 < SW)%nat -> sgn = false -> key_ok KW arr k -> zlen (encode KW SW arr (DRaw k d DEnd)) < 2 ^ (W - 1) ->
  exists v, get_node W KW SW arr sgn (encode KW SW arr (DRaw k d DEnd)) k = Ok v /\
    view_bytes (encode KW SW arr (DRaw k d DEnd)) v = firstn (Z.to_nat (zlen d mod 2 ^ SWb)) d.
Proof using.
  intros HW HS Hsg Hk HB. cbn [encode] in *. rewrite app_nil_r in *. unfold record in *.
  assert (EW : 2 ^ W = 2 * 2 ^ (W - 1)) by (rewrite <- Z.pow_succ_r by lia; f_equal; lia).
  set (K := stored_key KW arr k) in *.
  assert (HKl : length K = KW) by (apply Nat2Z.inj; rewrite <- stored_key_len with (k := k) by exact Hk; reflexivity).
  assert (HKz : zlen K = Z.of_nat KW) by (unfold zlen; lia).
  rewrite !zlen_app, zlen_le, HKz in HB. pose proof (zlen_nonneg d).
  unfold get_node, get_node_view, get_size_and_offset.
  pose proof (search_step (length (K ++ le SW (zlen d) ++ d)) [] K (le SW (zlen d)) d k HS HKl (le_length _ _) Hk) as ES.
  cbn [app] in ES. change (@zlen Z []) with 0 in ES. rewrite ES. clear ES.
  destruct (Z.eqb_spec (zlen d) 0) as [E0|E0].
  { apply (fun H => zlen_zero_nil _ (Z.eq_le_incl _ _ H)) in E0. subst d. cbn [bind].
    rewrite end_of_small by lia. cbn [bind].
    pose proof (zlen_nonneg (K ++ le SW (@zlen Z []) ++ [])).
    destruct (Z.leb_spec (0 + 0) (zlen (K ++ le SW (@zlen Z []) ++ []))); [|lia]. cbn [bind fst snd].
    rewrite (word_small W 0) by lia.
    destruct (Z.leb_spec (0 + 0) (zlen (K ++ le SW (@zlen Z []) ++ []))); [|lia]. eexists; split; [reflexivity|].
    rewrite firstn_nil. reflexivity. }
  assert (EK : same_key KW arr K k = true).
  { unfold K. rewrite same_key_stored. unfold same_key. destruct arr; apply same_text_eq; reflexivity. }
  rewrite EK. cbn [bind]. rewrite unle_le, pow256.
  assert (T : to_size SW sgn (zlen d mod 2 ^ SWb) = zlen d mod 2 ^ SWb).
  { unfold to_size. rewrite Hsg. unfold SWbits. apply word_word. }
  rewrite T.
  pose proof (pow2_pos SWb ltac:(lia)) as Hp.
  pose proof (Z.mod_pos_bound (zlen d) (2 ^ SWb) Hp) as Hm. pose proof (Z.mod_le (zlen d) (2 ^ SWb) ltac:(lia) Hp) as Hle.
  rewrite end_of_small by lia. cbn [bind].
  rewrite !zlen_app, zlen_le, HKz.
  destruct (Z.leb_spec (0 + (Z.of_nat KW + Z.of_nat SW) + zlen d mod 2 ^ SWb) (Z.of_nat KW + (Z.of_nat SW + zlen d))); [|lia].
  cbn [bind fst snd]. rewrite (word_small W (zlen d mod 2 ^ SWb)) by lia.
  destruct (Z.leb_spec (0 + (Z.of_nat KW + Z.of_nat SW) + zlen d mod 2 ^ SWb) (Z.of_nat KW + (Z.of_nat SW + zlen d))); [|lia].
  eexists; split; [reflexivity|]. unfold view_bytes. cbn [fst snd].
  f_equal. replace (Z.to_nat (0 + (Z.of_nat KW + Z.of_nat SW))) with (length (K ++ le SW (zlen d))) by (rewrite app_length, le_length; lia).
  rewrite app_assoc, skipn_app, skipn_all, Nat.sub_diag. reflexivity.
Qed.
Lemma round_trip_iff k d : 0 < W -> (0 < SW)%nat -> sgn = false -> key_ok KW arr k -> zlen (encode KW SW arr (DRaw k d DEnd)) < 2 ^ (W - 1) ->
  (follow W KW SW arr sgn (encode KW SW arr (DRaw k d DEnd)) [k] = Ok d <-> zlen d < 2 ^ SWb).
Proof using.
  intros HW HS Hsg Hk HB. destruct (oversized k d HW HS Hsg Hk HB) as (v & Ev & Hv). cbn [follow]. rewrite Ev. cbn [bind]. rewrite Hv.
  pose proof (pow2_pos SWb ltac:(lia)) as Hp. pose proof (zlen_nonneg d).
  pose proof (Z.mod_pos_bound (zlen d) (2 ^ SWb) Hp) as Hm.
  split.
  - intros E. assert (E2 : zlen (firstn (Z.to_nat (zlen d mod 2 ^ SWb)) d) = zlen d) by congruence.
    rewrite zlen_firstn_min in E2 by lia. lia.
  - intros HL. f_equal. rewrite Z.mod_small by lia. apply firstn_all2. unfold zlen. lia.
Qed.

(* data of exactly 2^bits bytes that starts with a record for [k2] shadows the true [k2] *)
Lemma misparse k k2 x y junk : 0 < W -> (1 < SW)%nat -> sgn = false -> key_ok KW arr k -> key_ok KW arr k2 ->
  same_key KW arr k k2 = false ->
  let forged := stored_key KW arr k2 ++ le SW 1 ++ [x] ++ junk in
  zlen forged = 2 ^ SWb ->
  let d := DRaw k forged (DRaw k2 [y] DEnd) in
  zlen (encode KW SW arr d) < 2 ^ (W - 1) ->
  follow W KW SW arr sgn (encode KW SW arr d) [k2] = Ok [x].
Proof using.
  intros HW HS Hsg Hk Hk2 Hne forged HF d HB. subst d. cbn [encode] in *.
  assert (EW : 2 ^ W = 2 * 2 ^ (W - 1)) by (rewrite <- Z.pow_succ_r by lia; f_equal; lia).
  pose proof (pow2_pos SWb ltac:(lia)) as Hp.
  set (K := stored_key KW arr k) in *. set (K2 := stored_key KW arr k2) in *.
  assert (HKl : length K = KW) by (apply Nat2Z.inj; rewrite <- stored_key_len with (k := k) by exact Hk; reflexivity).
  assert (HK2l : length K2 = KW) by (apply Nat2Z.inj; rewrite <- stored_key_len with (k := k2) by exact Hk2; reflexivity).
  assert (HKz : zlen K = Z.of_nat KW) by (unfold zlen; lia).
  assert (HK2z : zlen K2 = Z.of_nat KW) by (unfold zlen; lia).
  set (tail := record SW K2 [y] ++ []) in *.
  assert (Eblob : record SW K forged ++ tail = K ++ le SW (zlen forged) ++ (K2 ++ le SW 1 ++ ([x] ++ junk ++ tail))).
  { unfold record, forged. rewrite <- !app_assoc. reflexivity. }
  rewrite Eblob in *.
  assert (HBz : zlen (K ++ le SW (zlen forged) ++ K2 ++ le SW 1 ++ [x] ++ junk ++ tail)
                = 2 * Z.of_nat KW + 2 * Z.of_nat SW + 1 + zlen junk + zlen tail).
  { rewrite !zlen_app, !zlen_le, HKz, HK2z. change (zlen [x]) with 1. lia. }
  pose proof (zlen_nonneg junk). pose proof (zlen_nonneg tail). rewrite HBz in HB.
  assert (Hb4 : (256 : Z) <= 2 ^ SWb) by (change 256 with (2 ^ 8); apply Z.pow_le_mono_r; lia).
  cbn [follow]. unfold get_node, get_node_view, get_size_and_offset.
  set (blob := K ++ le SW (zlen forged) ++ K2 ++ le SW 1 ++ [x] ++ junk ++ tail) in *.
  assert (ES : exists f, S (length blob) = S (S f)).
  { exists (pred (length blob)). assert (zlen blob > 0) by lia. unfold zlen in *. lia. }
  destruct ES as [f ->].
  pose proof (search_step (S f) [] K (le SW (zlen forged)) (K2 ++ le SW 1 ++ [x] ++ junk ++ tail) k2 ltac:(lia) HKl (le_length _ _) Hk2) as E1.
  cbn [app] in E1. change (zlen []) with 0 in E1. fold blob in E1.
  change (K ++ le SW (zlen forged) ++ K2 ++ le SW 1 ++ x :: junk ++ tail) with blob in E1. rewrite E1. clear E1.
  assert (Et : zlen (K2 ++ le SW 1 ++ x :: junk ++ tail) = Z.of_nat KW + Z.of_nat SW + 1 + zlen junk + zlen tail).
  { rewrite !zlen_app, zlen_cons, zlen_app, !zlen_le, HK2z. lia. }
  destruct (Z.eqb_spec (zlen (K2 ++ le SW 1 ++ x :: junk ++ tail)) 0); [lia|].
  assert (EK : same_key KW arr K k2 = false) by (unfold K; rewrite same_key_stored; exact Hne). rewrite EK.
  rewrite unle_le, pow256, HF, Z.mod_same by lia.
  assert (T0 : to_size SW sgn 0 = 0) by (unfold to_size, SWbits; rewrite Hsg; apply word_small; lia). rewrite T0.
  rewrite (word_small W 0) by lia. unfold advance. cbn [fst snd].
  destruct (Z.geb_spec 0 (zlen (K2 ++ le SW 1 ++ x :: junk ++ tail))); [lia|].
  rewrite Z.add_0_r, Z.sub_0_r, Z.add_0_l.
  pose proof (search_step f (K ++ le SW (zlen forged)) K2 (le SW 1) ([x] ++ junk ++ tail) k2 ltac:(lia) HK2l (le_length _ _) Hk2) as E2.
  cbn [app] in E2. rewrite <- !app_assoc in E2.
  change (K ++ le SW (zlen forged) ++ K2 ++ le SW 1 ++ x :: junk ++ tail) with blob in E2.
  replace (zlen (K ++ le SW (zlen forged))) with (Z.of_nat KW + Z.of_nat SW) in E2 by (rewrite zlen_app, zlen_le; lia).
  rewrite E2. clear E2.
  destruct (Z.eqb_spec (zlen (x :: junk ++ tail)) 0); [rewrite zlen_cons in *; pose proof (zlen_nonneg (junk ++ tail)); lia|].
  assert (EK2 : same_key KW arr K2 k2 = true).
  { unfold K2. rewrite same_key_stored. unfold same_key. destruct arr; apply same_text_eq; reflexivity. }
  rewrite EK2. cbn [bind]. rewrite unle_le, pow256, Z.mod_small by lia.
  assert (T1 : to_size SW sgn 1 = 1) by (unfold to_size, SWbits; rewrite Hsg; apply word_small; lia). rewrite T1.
  rewrite end_of_small by lia. cbn [bind]. rewrite HBz. rewrite (word_small W 1) by lia.
  destruct (Z.leb_spec (Z.of_nat KW + Z.of_nat SW + (Z.of_nat KW + Z.of_nat SW) + 1) (2 * Z.of_nat KW + 2 * Z.of_nat SW + 1 + zlen junk + zlen tail)); [|lia].
  cbn [bind fst snd].
  destruct (Z.leb_spec (Z.of_nat KW + Z.of_nat SW + (Z.of_nat KW + Z.of_nat SW) + 1) (2 * Z.of_nat KW + 2 * Z.of_nat SW + 1 + zlen junk + zlen tail)); [|lia].
  cbn [bind]. f_equal.
  replace blob with ((K ++ le SW (zlen forged) ++ K2 ++ le SW 1) ++ [x] ++ junk ++ tail) by (unfold blob; rewrite <- !app_assoc; reflexivity).
  replace (Z.of_nat KW + Z.of_nat SW + (Z.of_nat KW + Z.of_nat SW)) with (zlen (K ++ le SW (zlen forged) ++ K2 ++ le SW 1))
    by (rewrite !zlen_app, !zlen_le; lia).
  change 1 with (zlen [x]) at 2. apply view_bytes_mid.
Qed.
End CB.

(* ---------------- C29 ---------------- *)
Lemma le_full n x : 0 <= x < 2 ^ (8 * Z.of_nat n) -> unle (le n x) = x.
Proof. intros H. rewrite unle_le, pow256. apply Z.mod_small. exact H. Qed.

Lemma get_node_header W KW SW arr sgn k sz y :
  0 < W -> (0 < SW)%nat -> key_ok KW arr k ->
  Z.of_nat KW + Z.of_nat SW + 1 < 2 ^ (W - 1) ->
  let blob := stored_key KW arr k ++ le SW sz ++ [y] in
  get_size_and_offset W KW SW arr sgn blob k = Ok (to_size SW sgn (sz mod 2 ^ (8 * Z.of_nat SW)), Z.of_nat KW + Z.of_nat SW).
Proof.
  intros HW HS Hk HB blob. unfold get_size_and_offset.
  set (K := stored_key KW arr k) in *.
  assert (HKl : length K = KW) by (apply Nat2Z.inj; rewrite <- (stored_key_len KW arr k Hk); reflexivity).
  pose proof (search_step W KW SW arr sgn (length blob) [] K (le SW sz) [y] k HS HKl (le_length _ _) Hk) as ES.
  cbn [app] in ES. change (zlen []) with 0 in ES. fold blob in ES. rewrite ES.
  change (zlen [y] =? 0) with false. cbn iota.
  assert (EK : same_key KW arr K k = true).
  { unfold K. rewrite same_key_stored. unfold same_key. destruct arr; apply same_text_eq; reflexivity. }
  rewrite EK, unle_le, pow256, Z.add_0_l. reflexivity.
Qed.

(* an unsigned size field as wide as size_t *)
Lemma get_node_escapes KW SW arr k y :
  (0 < SW)%nat -> key_ok KW arr k ->
  let W := 8 * Z.of_nat SW in
  Z.of_nat KW + Z.of_nat SW + 1 < 2 ^ (W - 1) ->
  let blob := stored_key KW arr k ++ le SW (2 ^ W - 1) ++ [y] in
  exists v, get_node_view W KW SW arr false blob k = Ok v /\ zlen blob < fst v + snd v /\ get_node W KW SW arr false blob k = UB OutOfBounds.
Proof.
  intros HS Hk W HB blob.
  assert (HW : 0 < W) by lia.
  assert (EW : 2 ^ W = 2 * 2 ^ (W - 1)) by (rewrite <- Z.pow_succ_r by lia; f_equal; lia).
  pose proof (get_node_header W KW SW arr false k (2 ^ W - 1) y HW HS Hk HB) as E. cbn zeta in E. fold blob in E.
  fold W in E. rewrite Z.mod_small in E by lia.
  assert (ET : to_size SW false (2 ^ W - 1) = 2 ^ W - 1) by (unfold to_size, SWbits; fold W; apply word_small; lia).
  rewrite ET in E.
  assert (HBz : zlen blob = Z.of_nat KW + Z.of_nat SW + 1).
  { unfold blob. rewrite !zlen_app, zlen_le, stored_key_len by exact Hk. change (zlen [y]) with 1. lia. }
  assert (Ev : get_node_view W KW SW arr false blob k = Ok (Z.of_nat KW + Z.of_nat SW, 2 ^ W - 1)).
  { unfold get_node_view. rewrite E. cbn [bind]. unfold end_of, SWbits. fold W. cbn [orb].
    rewrite Z.ltb_irrefl, Z.max_id. cbn [bind]. rewrite word_word.
    replace (Z.of_nat KW + Z.of_nat SW + (2 ^ W - 1)) with ((Z.of_nat KW + Z.of_nat SW - 1) + 1 * 2 ^ W) by lia.
    unfold word at 1. rewrite Z_mod_plus_full. rewrite Z.mod_small by lia.
    destruct (Z.leb_spec (Z.of_nat KW + Z.of_nat SW - 1) (zlen blob)); [|lia].
    rewrite word_small by lia. reflexivity. }
  eexists; split; [exact Ev|]. cbn [fst snd]. split; [lia|].
  unfold get_node. rewrite Ev. cbn [bind fst snd].
  destruct (Z.leb_spec (Z.of_nat KW + Z.of_nat SW + (2 ^ W - 1)) (zlen blob)); [lia|reflexivity].
Qed.
(* a signed size field: the bytes FF..FF read as -1 *)
Lemma get_node_escapes_signed W KW SW arr k y :
  (0 < SW)%nat -> 8 * Z.of_nat SW <= W -> key_ok KW arr k ->
  Z.of_nat KW + Z.of_nat SW + 1 < 2 ^ (W - 1) ->
  let blob := stored_key KW arr k ++ le SW (2 ^ (8 * Z.of_nat SW) - 1) ++ [y] in
  exists v, get_node_view W KW SW arr true blob k = Ok v /\ zlen blob < fst v + snd v /\ get_node W KW SW arr true blob k = UB OutOfBounds.
Proof.
  intros HS HSW Hk HB blob.
  assert (HW : 0 < W) by lia.
  assert (EW : 2 ^ W = 2 * 2 ^ (W - 1)) by (rewrite <- Z.pow_succ_r by lia; f_equal; lia).
  set (B := 8 * Z.of_nat SW) in *.
  assert (EB : 2 ^ B = 2 * 2 ^ (B - 1)) by (rewrite <- Z.pow_succ_r by lia; f_equal; lia).
  pose proof (pow2_pos (B - 1) ltac:(lia)) as Hp.
  pose proof (get_node_header W KW SW arr true k (2 ^ B - 1) y HW HS Hk HB) as E. cbn zeta in E. fold blob in E.
  fold B in E. rewrite Z.mod_small in E by lia.
  assert (ET : to_size SW true (2 ^ B - 1) = -1).
  { unfold to_size, SWbits. fold B. unfold sword.
    replace (2 ^ B - 1 + 2 ^ (B - 1)) with ((2 ^ (B - 1) - 1) + 1 * 2 ^ B) by lia.
    rewrite Z_mod_plus_full, Z.mod_small by lia. lia. }
  rewrite ET in E.
  assert (HBz : zlen blob = Z.of_nat KW + Z.of_nat SW + 1).
  { unfold blob. rewrite !zlen_app, zlen_le, stored_key_len by exact Hk. change (zlen [y]) with 1. lia. }
  assert (Ev : get_node_view W KW SW arr true blob k = Ok (Z.of_nat KW + Z.of_nat SW, 2 ^ W - 1)).
  { unfold get_node_view. rewrite E. cbn [bind].
    rewrite end_of_small by lia. cbn [bind].
    destruct (Z.leb_spec (Z.of_nat KW + Z.of_nat SW + -1) (zlen blob)); [|lia].
    unfold word. replace (-1) with ((2 ^ W - 1) + (-1) * 2 ^ W) by lia. rewrite Z_mod_plus_full, Z.mod_small by lia. reflexivity. }
  eexists; split; [exact Ev|]. cbn [fst snd]. split; [lia|].
  unfold get_node. rewrite Ev. cbn [bind fst snd].
  destruct (Z.leb_spec (Z.of_nat KW + Z.of_nat SW + (2 ^ W - 1)) (zlen blob)); [lia|reflexivity].
Qed.

(* ---------------- C28 in terms of positions ---------------- *)
Lemma key_text_char KW k n : 0 <= n <= Z.of_nat KW ->
  (forall i, 0 <= i < n -> exists c, znth k i = Some c /\ c <> 0) ->
  (n = Z.of_nat KW \/ znth k n = Some 0) ->
  key_text KW k = firstn (Z.to_nat n) k.
Proof.
  revert k n; induction KW as [|KW IH]; intros k n Hn Hlow Hend.
  - assert (n = 0) as -> by lia. reflexivity.
  - destruct k as [|c k].
    + rewrite firstn_nil. unfold key_text. rewrite firstn_nil. reflexivity.
    + unfold key_text. cbn [firstn until_nul].
      destruct (Z.eq_dec n 0) as [->|Hn0].
      * destruct Hend as [E|E]; [lia|]. rewrite znth_cons_0 in E. injection E as ->. reflexivity.
      * destruct (Hlow 0 ltac:(lia)) as (c0 & E & Hc). rewrite znth_cons_0 in E. injection E as ->.
        destruct (Z.eqb_spec c0 0); [lia|].
        replace (Z.to_nat n) with (S (Z.to_nat (n - 1))) by lia. cbn [firstn]. f_equal.
        apply IH; [lia| |].
        -- intros i Hi. destruct (Hlow (i + 1) ltac:(lia)) as (c1 & E1 & Hc1). rewrite znth_cons_pos in E1 by lia.
           replace (i + 1 - 1) with i in E1 by lia. eauto.
        -- destruct Hend as [E2|E2]; [left; lia|right]. rewrite znth_cons_pos in E2 by lia. exact E2.
Qed.
Lemma array_keys_match KW (a b : list Z) : length a = KW -> key_ok KW true b ->
  exists r, key_matches KW true a b = Ok r /\
  (r = true <->
   exists n, 0 <= n <= Z.of_nat KW /\
     (forall i, 0 <= i < n -> exists c, c <> 0 /\ znth a i = Some c /\ znth b i = Some c) /\
     (n = Z.of_nat KW \/ (znth a n = Some 0 /\ znth b n = Some 0))).
Proof.
  intros Ha Hb. eexists; split; [apply key_matches_ok; assumption|]. unfold same_key. rewrite same_text_eq.
  assert (Ha2 : zlen (key_text KW a) < zlen a \/ Z.of_nat KW <= zlen a) by (right; unfold zlen; lia).
  pose proof (key_text_len KW a) as [LA1 LA2]. pose proof (key_text_len KW b) as [LB1 LB2].
  cbn [key_ok] in Hb.
  split.
  - intros E. exists (zlen (key_text KW a)). pose proof (zlen_nonneg (key_text KW a)). splits; try lia.
    + intros i Hi. destruct (key_text_znth KW a i Hi) as (c & C1 & C2 & C3). rewrite E in Hi.
      destruct (key_text_znth KW b i Hi) as (c' & D1 & D2 & D3). exists c. rewrite E in C3. splits; congruence.
    + destruct (Z.eq_dec (zlen (key_text KW a)) (Z.of_nat KW)); [left; assumption|right]. split.
      * apply key_text_end; lia.
      * rewrite E. apply key_text_end; rewrite <- E; try lia. rewrite E. unfold key_ok in Hb. rewrite <- E in *. lia.
  - intros (n & Hn & Hlow & Hend).
    rewrite (key_text_char KW a n Hn), (key_text_char KW b n Hn).
    + apply znth_opt_ext; intros i Hi. rewrite !znth_firstn_if. destruct (Z.ltb_spec i n); [|reflexivity].
      destruct (Hlow i ltac:(lia)) as (c & _ & -> & ->). reflexivity.
    + intros i Hi. destruct (Hlow i Hi) as (c & C1 & C2 & C3). eauto.
    + destruct Hend as [|[_ E]]; auto.
    + intros i Hi. destruct (Hlow i Hi) as (c & C1 & C2 & C3). eauto.
    + destruct Hend as [|[E _]]; auto.
Qed.

Lemma round_trip W KW SW arr (sgn : bool) d out :
  0 < W -> (0 < SW)%nat -> keys_ok KW arr d ->
  fits KW SW arr (if sgn then 2 ^ (8 * Z.of_nat SW - 1) else 2 ^ (8 * Z.of_nat SW)) d ->
  zlen (encode KW SW arr d) < 2 ^ (W - 1) -> zlen (encode KW SW arr d) <= zlen out ->
  exists blob rest,
    serialize W KW SW arr sgn out d = Ok (blob ++ rest, measure W KW SW d) /\
    measure W KW SW d = zlen blob /\
    (forall path bytes, Forall (key_ok KW arr) path -> at_path KW SW arr d path = Some bytes ->
       follow W KW SW arr sgn blob path = Ok bytes) /\
    (forall key n, key_ok KW arr key -> (0 < n)%nat ->
       get W KW SW arr sgn n blob key =
       Ok (match at_path KW SW arr d [key] with
           | Some v => if Nat.eqb (length v) n then Some v else None
           | None => None
           end)).
Proof.
  intros HW HS HK HF HB HL.
  assert (EW : 2 ^ W = 2 * 2 ^ (W - 1)) by (rewrite <- Z.pow_succ_r by lia; f_equal; lia).
  pose proof (zlen_nonneg (encode KW SW arr d)).
  exists (encode KW SW arr d), (skipn (length (encode KW SW arr d)) out). splits.
  - rewrite serialize_ok, over_full, (measure_top W KW SW arr) by (try assumption; lia). reflexivity.
  - apply measure_top; try assumption; lia.
  - intros path bytes HP HA. apply follow_encode with (d := d); assumption.
  - intros key n Hk Hn. apply get_encode; assumption.
Qed.
Lemma serialize_prefix W KW SW arr sgn d out :
  (0 < SW)%nat -> keys_ok KW arr d -> zlen (encode KW SW arr d) < 2 ^ W ->
  let E := encode KW SW arr d in
  serialize W KW SW arr sgn out d = Ok (firstn (length out) E ++ skipn (length E) out, zlen E) /\
  length (firstn (length out) E ++ skipn (length E) out) = length out /\
  (exists chunks, stream W KW SW arr sgn d = Ok (chunks, zlen E) /\ concat chunks = E).
Proof.
  intros HS HK HB E. splits.
  - apply serialize_ok; assumption.
  - rewrite app_length, firstn_length, skipn_length. lia.
  - apply stream_ok; assumption.
Qed.
Lemma writer_extra_ends W KW SW arr sgn MaxDepth d out s :
  (0 < SW)%nat -> 0 <= MaxDepth -> keys_ok KW arr d -> Z.of_nat (nesting d) < 2 ^ 32 -> zlen (encode KW SW arr d) < 2 ^ W ->
  w_run W KW SW arr sgn MaxDepth (writer_new MaxDepth out) (script d) = Ok s ->
  w_run W KW SW arr sgn MaxDepth (writer_new MaxDepth out) (WEnd :: script d ++ [WEnd; WEnd]) = Ok s.
Proof.
  intros HS HM HK Hn HB E. cbn [w_run]. rewrite writer_unmatched_end by reflexivity. cbn [bind].
  rewrite w_run_app, E. cbn [bind].
  destruct (writer_any_depth W KW SW arr sgn MaxDepth d out) as (st & E2); try assumption.
  assert (Hs : w_depth s = 0) by (rewrite E2 in E; injection E as <-; reflexivity).
  cbn [w_run]. rewrite (writer_unmatched_end W KW SW arr sgn MaxDepth s Hs). cbn [bind].
  rewrite (writer_unmatched_end W KW SW arr sgn MaxDepth s Hs). reflexivity.
Qed.
Lemma written_keys KW text after : Forall (fun c => c <> 0) text ->
  (zlen text < Z.of_nat KW ->
   key_bytes KW true (text ++ 0 :: after) = Ok (text ++ zrepeat 0 (Z.of_nat KW - zlen text))) /\
  (zlen text = Z.of_nat KW -> key_bytes KW true (text ++ after) = Ok text).
Proof.
  intros HT. pose proof (zlen_nonneg text). pose proof (zlen_nonneg after).
  assert (Hlow : forall l i, 0 <= i < zlen text -> exists c, znth (text ++ l) i = Some c /\ c <> 0).
  { intros l i Hi. rewrite znth_app_l by lia. destruct (znth_some text i Hi) as [c Hc]. exists c. split; [exact Hc|].
    rewrite Forall_forall in HT. apply HT. unfold znth in Hc. destruct (i <? 0); [discriminate|]. eapply nth_error_In; eauto. }
  assert (Hf : forall l, firstn (Z.to_nat (zlen text)) (text ++ l) = text).
  { intros l. unfold zlen. rewrite Nat2Z.id, firstn_app, firstn_all, Nat.sub_diag. cbn [firstn]. apply app_nil_r. }
  split; intros HL.
  - assert (ET : key_text KW (text ++ 0 :: after) = text).
    { rewrite (key_text_char KW _ (zlen text)) by (try lia; try (apply Hlow); right; rewrite znth_app_r by lia; rewrite Z.sub_diag; reflexivity). apply Hf. }
    rewrite key_bytes_ok.
    + unfold stored_key. rewrite ET. reflexivity.
    + unfold key_ok. left. rewrite ET, zlen_app, zlen_cons. lia.
  - assert (ET : key_text KW (text ++ after) = text).
    { rewrite (key_text_char KW _ (zlen text)) by (try lia; try (apply Hlow); left; lia). apply Hf. }
    rewrite key_bytes_ok.
    + unfold stored_key. rewrite ET, HL, Z.sub_diag. f_equal. apply app_nil_r.
    + unfold key_ok. right. rewrite zlen_app. lia.
Qed.
