(* Lemmas about Common/Base.v. *)
From Verif.Common Require Import Base.

Ltac Zify.zify_post_hook ::= Z.div_mod_to_equations.

Ltac splits := repeat match goal with |- _ /\ _ => split end.

Lemma zlen_nonneg {A} (l : list A) : 0 <= zlen l.
Proof. unfold zlen; lia. Qed.

Lemma zlen_nil {A} : zlen (@nil A) = 0.
Proof. reflexivity. Qed.

Lemma zlen_cons {A} (x : A) l : zlen (x :: l) = zlen l + 1.
Proof. unfold zlen; cbn [length]; lia. Qed.

Lemma zlen_app {A} (l1 l2 : list A) : zlen (l1 ++ l2) = zlen l1 + zlen l2.
Proof. unfold zlen; rewrite app_length; lia. Qed.

Lemma zlen_map {A B} (f : A -> B) l : zlen (map f l) = zlen l.
Proof. unfold zlen; rewrite map_length; lia. Qed.

Lemma zlen_rev {A} (l : list A) : zlen (rev l) = zlen l.
Proof. unfold zlen; rewrite rev_length; lia. Qed.

Ltac zl := repeat first [rewrite zlen_app | rewrite zlen_cons | match goal with |- context [@zlen ?A nil] => change (@zlen A nil) with 0 end | change (0 + 1) with 1].
Ltac zl_in H := repeat first [rewrite zlen_app in H | rewrite zlen_cons in H | match type of H with context [@zlen ?A nil] => change (@zlen A nil) with 0 in H end | change (0 + 1) with 1 in H].

Lemma zlen_zero_nil {A} (l : list A) : zlen l <= 0 -> l = [].
Proof. destruct l; [reflexivity|rewrite zlen_cons; pose proof (zlen_nonneg l); lia]. Qed.

Lemma znth_nil {A} i : znth (@nil A) i = None.
Proof. unfold znth; destruct (i <? 0); [reflexivity|destruct (Z.to_nat i); reflexivity]. Qed.

Lemma znth_none {A} (l : list A) i : i < 0 \/ zlen l <= i -> znth l i = None.
Proof.
  unfold znth, zlen; intros H; destruct (Z.ltb_spec i 0); [reflexivity|].
  apply nth_error_None; lia.
Qed.

Lemma znth_none_iff {A} (l : list A) i : znth l i = None <-> i < 0 \/ zlen l <= i.
Proof.
  split; [|apply znth_none].
  unfold znth, zlen; destruct (Z.ltb_spec i 0); intros H1; [lia|].
  apply nth_error_None in H1; lia.
Qed.

Lemma znth_some {A} (l : list A) i : 0 <= i < zlen l -> exists x, znth l i = Some x.
Proof.
  intros H; destruct (znth l i) eqn:E; [eauto|].
  apply znth_none_iff in E; lia.
Qed.

Lemma znth_some_range {A} (l : list A) i x : znth l i = Some x -> 0 <= i < zlen l.
Proof.
  intros H; destruct (Z.ltb_spec i 0); destruct (Z.leb_spec (zlen l) i);
    try (rewrite znth_none in H by lia; discriminate); lia.
Qed.

Lemma znth_cons_0 {A} (x : A) l : znth (x :: l) 0 = Some x.
Proof. reflexivity. Qed.

Lemma znth_cons_pos {A} (x : A) l i : 0 < i -> znth (x :: l) i = znth l (i - 1).
Proof.
  intros H; unfold znth.
  destruct (Z.ltb_spec i 0); [lia|]; destruct (Z.ltb_spec (i-1) 0); [lia|].
  replace (Z.to_nat i) with (S (Z.to_nat (i-1))) by lia; reflexivity.
Qed.

Lemma znth_cons {A} (x : A) l i :
  znth (x :: l) i = if i =? 0 then Some x else if i <? 0 then None else znth l (i - 1).
Proof.
  destruct (Z.eqb_spec i 0) as [->|]; [reflexivity|].
  destruct (Z.ltb_spec i 0); [apply znth_none; lia|apply znth_cons_pos; lia].
Qed.

Lemma znth_app {A} (l1 l2 : list A) i :
  znth (l1 ++ l2) i = if i <? zlen l1 then znth l1 i else znth l2 (i - zlen l1).
Proof.
  unfold znth, zlen.
  destruct (Z.ltb_spec i 0); destruct (Z.ltb_spec i (Z.of_nat (length l1)));
    destruct (Z.ltb_spec (i - Z.of_nat (length l1)) 0); try lia; try reflexivity.
  - apply nth_error_app1; lia.
  - rewrite nth_error_app2 by lia; f_equal; lia.
Qed.

Lemma znth_app_l {A} (l1 l2 : list A) i : i < zlen l1 -> znth (l1 ++ l2) i = znth l1 i.
Proof. intros H; rewrite znth_app; destruct (Z.ltb_spec i (zlen l1)); [reflexivity|lia]. Qed.

Lemma znth_app_r {A} (l1 l2 : list A) i :
  zlen l1 <= i -> znth (l1 ++ l2) i = znth l2 (i - zlen l1).
Proof. intros H; rewrite znth_app; destruct (Z.ltb_spec i (zlen l1)); [lia|reflexivity]. Qed.

Lemma znth_map {A B} (f : A -> B) l i : znth (map f l) i = option_map f (znth l i).
Proof.
  unfold znth; destruct (i <? 0); [reflexivity|].
  revert i; intros i; generalize (Z.to_nat i) as n; clear i.
  induction l as [|a l IH]; intros [|n]; cbn; auto.
Qed.

Lemma znth_ext {A} (l1 l2 : list A) :
  zlen l1 = zlen l2 -> (forall i, 0 <= i < zlen l1 -> znth l1 i = znth l2 i) -> l1 = l2.
Proof.
  revert l2; induction l1 as [|x l1 IH]; intros [|y l2] HL H.
  - reflexivity.
  - rewrite zlen_nil, zlen_cons in HL; pose proof (zlen_nonneg l2); lia.
  - rewrite zlen_nil, zlen_cons in HL; pose proof (zlen_nonneg l1); lia.
  - rewrite !zlen_cons in *; pose proof (zlen_nonneg l1).
    assert (Hz : znth (x :: l1) 0 = znth (y :: l2) 0) by (apply H; lia).
    rewrite !znth_cons_0 in Hz; injection Hz as ->.
    f_equal; apply IH; [lia|].
    intros i Hi; specialize (H (i+1)).
    rewrite !znth_cons_pos in H by lia.
    replace (i + 1 - 1) with i in H by lia; apply H; lia.
Qed.

Lemma upd_nat_length {A} (l : list A) n x : length (upd_nat l n x) = length l.
Proof. revert n; induction l as [|h t IH]; intros [|n]; cbn; auto. Qed.

Lemma zlen_zupd {A} (l : list A) i x : zlen (zupd l i x) = zlen l.
Proof. unfold zlen, zupd; destruct (i <? 0); [reflexivity|]; rewrite upd_nat_length; reflexivity. Qed.

Lemma nth_upd_nat_eq {A} (l : list A) n x :
  (n < length l)%nat -> nth_error (upd_nat l n x) n = Some x.
Proof. revert n; induction l as [|h t IH]; intros [|n] H; cbn in *; try lia; [reflexivity|]; apply IH; lia. Qed.

Lemma nth_upd_nat_ne {A} (l : list A) n m x :
  n <> m -> nth_error (upd_nat l n x) m = nth_error l m.
Proof.
  revert n m; induction l as [|h t IH]; intros [|n] [|m] H; cbn; try reflexivity; try lia.
  apply IH; lia.
Qed.

Lemma znth_zupd_eq {A} (l : list A) i x : 0 <= i < zlen l -> znth (zupd l i x) i = Some x.
Proof.
  unfold znth, zupd, zlen; intros H; destruct (Z.ltb_spec i 0); [lia|].
  apply nth_upd_nat_eq; lia.
Qed.

Lemma znth_zupd_ne {A} (l : list A) i j x : i <> j -> znth (zupd l i x) j = znth l j.
Proof.
  unfold znth, zupd; intros H; destruct (Z.ltb_spec i 0); destruct (Z.ltb_spec j 0); try reflexivity.
  apply nth_upd_nat_ne; lia.
Qed.

Lemma znth_zupd {A} (l : list A) i j x :
  znth (zupd l i x) j = if (i =? j) && (0 <=? i) && (i <? zlen l) then Some x else znth l j.
Proof.
  destruct (Z.eqb_spec i j) as [<-|Hne]; cbn [andb]; [|apply znth_zupd_ne; assumption].
  destruct (Z.leb_spec 0 i); cbn [andb].
  - destruct (Z.ltb_spec i (zlen l)); [apply znth_zupd_eq; lia|].
    rewrite !znth_none by (rewrite ?zlen_zupd; lia); reflexivity.
  - rewrite !znth_none by (rewrite ?zlen_zupd; lia); reflexivity.
Qed.

Lemma zupd_zupd_eq {A} (l : list A) i x y : zupd (zupd l i x) i y = zupd l i y.
Proof.
  apply znth_ext; [rewrite !zlen_zupd; reflexivity|]; intros j Hj.
  rewrite !znth_zupd, !zlen_zupd.
  destruct ((i =? j) && (0 <=? i) && (i <? zlen l)); reflexivity.
Qed.

Lemma zupd_same {A} (l : list A) i x : znth l i = Some x -> zupd l i x = l.
Proof.
  intros H; apply znth_ext; [apply zlen_zupd|]; intros j Hj.
  rewrite znth_zupd.
  destruct (Z.eqb_spec i j) as [<-|]; cbn [andb]; [|reflexivity].
  destruct ((0 <=? i) && (i <? zlen l)); congruence.
Qed.

Lemma zlen_zrepeat {A} (x : A) n : 0 <= n -> zlen (zrepeat x n) = n.
Proof. intros; unfold zlen, zrepeat; rewrite repeat_length; lia. Qed.

Lemma zlen_zrepeat_max {A} (x : A) n : zlen (zrepeat x n) = Z.max 0 n.
Proof. unfold zlen, zrepeat; rewrite repeat_length; lia. Qed.

Lemma znth_zrepeat {A} (x : A) n i : 0 <= i < n -> znth (zrepeat x n) i = Some x.
Proof.
  intros H; unfold znth, zrepeat; destruct (Z.ltb_spec i 0); [lia|].
  apply nth_error_repeat; lia.
Qed.

Lemma zlen_ztab {A} n (f : Z -> A) : 0 <= n -> zlen (ztab n f) = n.
Proof. intros; unfold ztab, zlen; rewrite map_length, seq_length; lia. Qed.

Lemma znth_ztab {A} n (f : Z -> A) i : 0 <= i < n -> znth (ztab n f) i = Some (f i).
Proof.
  intros H; unfold ztab. rewrite znth_map. unfold znth. destruct (Z.ltb_spec i 0); [lia|].
  rewrite (nth_error_nth' _ O) by (rewrite seq_length; lia).
  rewrite seq_nth by lia. cbn [option_map]. do 2 f_equal; lia.
Qed.

Lemma zlen_skipn {A} (l : list A) n : 0 <= n <= zlen l -> zlen (skipn (Z.to_nat n) l) = zlen l - n.
Proof. intros; unfold zlen in *; rewrite skipn_length; lia. Qed.

Lemma znth_skipn {A} (l : list A) n i : 0 <= n -> 0 <= i -> znth (skipn (Z.to_nat n) l) i = znth l (n + i).
Proof.
  intros Hn Hi. revert n Hn; induction l as [|x l IH]; intros n Hn.
  - rewrite skipn_nil, !znth_nil; reflexivity.
  - destruct (Z.eq_dec n 0) as [->|]; [reflexivity|].
    replace (Z.to_nat n) with (S (Z.to_nat (n - 1))) by lia. cbn [skipn].
    rewrite IH by lia. rewrite (znth_cons_pos x l (n + i)) by lia. f_equal; lia.
Qed.

Lemma zlen_firstn {A} (l : list A) n : 0 <= n <= zlen l -> zlen (firstn (Z.to_nat n) l) = n.
Proof. intros; unfold zlen in *; rewrite firstn_length; lia. Qed.

Lemma znth_firstn {A} (l : list A) n i : i < n -> znth (firstn (Z.to_nat n) l) i = znth l i.
Proof.
  intros Hi. revert n i Hi; induction l as [|x l IH]; intros n i Hi.
  - rewrite firstn_nil, !znth_nil; reflexivity.
  - destruct (Z.leb_spec n 0).
    + rewrite !(znth_none _ i) by lia; reflexivity.
    + replace (Z.to_nat n) with (S (Z.to_nat (n - 1))) by lia. cbn [firstn].
      rewrite !znth_cons. destruct (i =? 0); [reflexivity|]. destruct (i <? 0); [reflexivity|].
      apply IH; lia.
Qed.

Lemma rd_ok {A} (l : list A) i x : znth l i = Some x -> rd l i = Ok x.
Proof. unfold rd; intros ->; reflexivity. Qed.

Lemma rd_inv {A} (l : list A) i x : rd l i = Ok x -> znth l i = Some x.
Proof. unfold rd; destruct (znth l i); congruence. Qed.

Lemma wr_ok {A} (l : list A) i x : 0 <= i < zlen l -> wr l i x = Ok (zupd l i x).
Proof.
  intros H; unfold wr.
  destruct (Z.leb_spec 0 i); [|lia]; destruct (Z.ltb_spec i (zlen l)); [reflexivity|lia].
Qed.

Lemma wr_oob {A} (l : list A) i x : i < 0 \/ zlen l <= i -> wr l i x = UB OutOfBounds.
Proof.
  intros H; unfold wr.
  destruct (Z.leb_spec 0 i); destruct (Z.ltb_spec i (zlen l)); try reflexivity; lia.
Qed.

Lemma rd_oob {A} (l : list A) i : i < 0 \/ zlen l <= i -> rd l i = UB OutOfBounds.
Proof. intros H; unfold rd; rewrite znth_none by lia; reflexivity. Qed.

Lemma wr_inv {A} (l l' : list A) i x : wr l i x = Ok l' -> 0 <= i < zlen l /\ l' = zupd l i x.
Proof.
  unfold wr; destruct (Z.leb_spec 0 i); destruct (Z.ltb_spec i (zlen l)); cbn [andb];
    try discriminate; intros E; injection E as <-; split; [lia|reflexivity].
Qed.

Lemma bind_ok {A B} (m : outcome A) (f : A -> outcome B) a : m = Ok a -> bind m f = f a.
Proof. intros ->; reflexivity. Qed.

Lemma bind_inv {A B} (m : outcome A) (f : A -> outcome B) b :
  bind m f = Ok b -> exists a, m = Ok a /\ f a = Ok b.
Proof. destruct m; cbn; try discriminate; eauto. Qed.

(* ------------------------------------------------------------------ *)
(** Words *)

Lemma pow2_pos w : 0 <= w -> 0 < 2 ^ w.
Proof. intros; apply Z.pow_pos_nonneg; lia. Qed.

Lemma word_range w x : 0 <= w -> 0 <= word w x < 2 ^ w.
Proof. intros H; unfold word; pose proof (pow2_pos _ H); apply Z.mod_pos_bound; lia. Qed.

Lemma word_small w x : 0 <= x < 2 ^ w -> word w x = x.
Proof. intros H; unfold word; apply Z.mod_small; lia. Qed.

Lemma word_word w x : word w (word w x) = word w x.
Proof. unfold word; apply Zmod_mod. Qed.

Lemma word_add_l w x y : word w (word w x + y) = word w (x + y).
Proof. unfold word; apply Zplus_mod_idemp_l. Qed.

Lemma word_add_r w x y : word w (x + word w y) = word w (x + y).
Proof. unfold word; apply Zplus_mod_idemp_r. Qed.

Lemma word_sub_l w x y : word w (word w x - y) = word w (x - y).
Proof. unfold word; apply Zminus_mod_idemp_l. Qed.

Lemma word_sub_r w x y : word w (x - word w y) = word w (x - y).
Proof. unfold word; apply Zminus_mod_idemp_r. Qed.

(** Masking with [2^k-1] is reduction modulo [2^k]. *)
Lemma land_ones_mod x k : 0 <= k -> Z.land x (2 ^ k - 1) = x mod 2 ^ k.
Proof.
  intros H; rewrite <- Z.land_ones by lia; f_equal.
  rewrite Z.ones_equiv; lia.
Qed.

(** Reducing a W-bit word modulo [2^k], [k <= W], loses nothing. *)
Lemma word_mod_pow2 W k x : 0 <= k <= W -> word W x mod 2 ^ k = x mod 2 ^ k.
Proof.
  intros [H1 H2]; unfold word.
  assert (E : 2 ^ W = 2 ^ k * 2 ^ (W - k)) by (rewrite <- Z.pow_add_r by lia; f_equal; lia).
  rewrite E. pose proof (pow2_pos _ H1). pose proof (pow2_pos (W-k) ltac:(lia)).
  rewrite Z.rem_mul_r by lia.
  rewrite (Z.mul_comm (2 ^ k)), Z_mod_plus_full. apply Zmod_mod.
Qed.

Lemma sword_range w x : 1 <= w -> - 2 ^ (w - 1) <= sword w x < 2 ^ (w - 1).
Proof.
  intros H; unfold sword.
  assert (E : 2 ^ w = 2 * 2 ^ (w - 1)) by (rewrite <- Z.pow_succ_r by lia; f_equal; lia).
  pose proof (pow2_pos (w-1) ltac:(lia)).
  pose proof (Z.mod_pos_bound (x + 2 ^ (w-1)) (2 ^ w) ltac:(lia)). lia.
Qed.

Lemma sword_small w x : 1 <= w -> - 2 ^ (w - 1) <= x < 2 ^ (w - 1) -> sword w x = x.
Proof.
  intros Hw H; unfold sword.
  assert (E : 2 ^ w = 2 * 2 ^ (w - 1)) by (rewrite <- Z.pow_succ_r by lia; f_equal; lia).
  rewrite Z.mod_small by lia; lia.
Qed.

(** Differences of wrapped counters *)

Lemma word_diff W H Tl n : H - Tl = n -> 0 <= n < 2 ^ W -> word W (word W H - word W Tl) = n.
Proof. intros E B. rewrite word_sub_l, word_sub_r, E. apply word_small; lia. Qed.

Lemma word_eq_iff W H Tl n : H - Tl = n -> 0 <= n < 2 ^ W -> (word W Tl =? word W H) = (n =? 0).
Proof.
  intros E B. destruct (Z.eqb_spec (word W Tl) (word W H)) as [Heq|Hne].
  - pose proof (word_diff _ _ _ _ E B) as D. rewrite Heq, Z.sub_diag in D.
    unfold word in D. rewrite Z.mod_0_l in D by lia. lia.
  - destruct (Z.eqb_spec n 0); [|reflexivity]. exfalso; apply Hne; f_equal; lia.
Qed.

Lemma mod_in_range p m : 0 < m -> 0 <= p mod m < m.
Proof. intros; apply Z.mod_pos_bound; assumption. Qed.

Lemma mod_neq a b m : 0 < m -> 0 < b - a < m -> a mod m <> b mod m.
Proof.
  intros Hm Hb E.
  assert (E2 : (b - a) mod m = 0) by (rewrite Zminus_mod, <- E, Z.sub_diag; apply Z.mod_0_l; lia).
  rewrite Z.mod_small in E2 by lia. lia.
Qed.

(* ------------------------------------------------------------------ *)
(** Lifting a one-step refinement to every history. *)

Lemma run_refines {S Q O R : Type} (step : S -> O -> outcome (S * R)) (sstep : Q -> O -> Q * R)
      (Rel : S -> Q -> Prop) :
  (forall s q o, Rel s q -> exists s', step s o = Ok (s', snd (sstep q o)) /\ Rel s' (fst (sstep q o))) ->
  forall ops s q, Rel s q ->
  exists s', run step s ops = Ok (s', snd (srun sstep q ops)) /\ Rel s' (fst (srun sstep q ops)).
Proof.
  intros Hstep; induction ops as [|o ops IH]; intros s q HR; cbn [run srun].
  - exists s; cbn; auto.
  - destruct (Hstep s q o HR) as (s1 & E1 & R1).
    rewrite E1; cbn [bind].
    destruct (sstep q o) as [q1 r]; cbn [fst snd] in *.
    destruct (IH s1 q1 R1) as (s2 & E2 & R2).
    rewrite E2; cbn [bind].
    destruct (srun sstep q1 ops) as [q2 rs]; cbn [fst snd] in *.
    eauto.
Qed.

Lemma run_refines_guarded {S Q O R : Type} (step : S -> O -> outcome (S * R)) (sstep : Q -> O -> Q * R)
      (guard : Q -> O -> Prop) (Rel : S -> Q -> Prop) :
  (forall s q o, Rel s q -> guard q o ->
     exists s', step s o = Ok (s', snd (sstep q o)) /\ Rel s' (fst (sstep q o))) ->
  forall ops s q, Rel s q -> guarded sstep guard q ops ->
  exists s', run step s ops = Ok (s', snd (srun sstep q ops)) /\ Rel s' (fst (srun sstep q ops)).
Proof.
  intros Hstep; induction ops as [|o ops IH]; intros s q HR HG; cbn [run srun].
  - exists s; cbn; auto.
  - cbn [guarded] in HG; destruct HG as [Hg HG].
    destruct (Hstep s q o HR Hg) as (s1 & E1 & R1).
    rewrite E1; cbn [bind].
    destruct (sstep q o) as [q1 r]; cbn [fst snd] in *.
    destruct (IH s1 q1 R1 HG) as (s2 & E2 & R2).
    rewrite E2; cbn [bind].
    destruct (srun sstep q1 ops) as [q2 rs]; cbn [fst snd] in *.
    eauto.
Qed.

Lemma run_app {S O R : Type} (step : S -> O -> outcome (S * R)) ops1 ops2 s :
  run step s (ops1 ++ ops2) =
  (let* (s1, r1) := run step s ops1 in
   let* (s2, r2) := run step s1 ops2 in Ok (s2, r1 ++ r2)).
Proof.
  revert s; induction ops1 as [|o ops1 IH]; intros s; cbn [run app bind].
  - destruct (run step s ops2) as [[s2 r2]| |]; reflexivity.
  - destruct (step s o) as [[s1 r]| |]; cbn [bind]; try reflexivity.
    rewrite IH. destruct (run step s1 ops1) as [[s2 r1]| |]; cbn [bind]; try reflexivity.
    destruct (run step s2 ops2) as [[s3 r2]| |]; reflexivity.
Qed.
