From Verif.Common Require Import Base Lemmas Lists.
From Verif.Spec Require Import Digits VersionSpec.
From Verif.Model Require Import Strings Version.
From Verif.Proofs Require Import Digits Strings.

Lemma is_digit_true c : is_digit c = true <-> 48 <= c <= 57.
Proof. unfold is_digit. rewrite andb_true_iff, !Z.leb_le. tauto. Qed.
Lemma not_digit_false c : not_digit c -> is_digit c = false.
Proof. intros H. destruct (is_digit c) eqn:E; [|reflexivity]. apply is_digit_true in E. unfold not_digit in H. lia. Qed.

Lemma digits_spec ds c rest : Forall (fun d => 0 <= d < 10) ds -> not_digit c -> forall acc,
  strtol_digits (field_text ds ++ c :: rest) acc = Ok (fold_left (fun a d => a * 10 + d) ds acc).
Proof.
  intros Hd Hc. induction Hd as [|d ds Hd _ IH]; intros acc; cbn [field_text map app strtol_digits fold_left].
  - rewrite not_digit_false by exact Hc. reflexivity.
  - assert (is_digit (48 + d) = true) as -> by (apply is_digit_true; lia).
    replace (48 + d - 48) with d by lia. apply IH.
Qed.
Lemma body_spec ds c rest : field_ok ds -> not_digit c -> strtol_body (field_text ds ++ c :: rest) = Ok (value 10 ds).
Proof.
  intros [Hne Hd] Hc. destruct ds as [|d ds]; [congruence|]. inversion Hd; subst. cbn [field_text map app strtol_body].
  assert (is_space (48 + d) = false) as ->.
  { unfold is_space. destruct (Z.eqb_spec (48 + d) 32), (Z.leb_spec 9 (48 + d)), (Z.leb_spec (48 + d) 13); cbn; try lia; reflexivity. }
  destruct (Z.eqb_spec (48 + d) 45); [lia|]. destruct (Z.eqb_spec (48 + d) 43); [lia|].
  exact (digits_spec (d :: ds) c rest Hd Hc 0).
Qed.
Lemma skipn_app_len {A} (a b : list A) : skipn (length a) (a ++ b) = b.
Proof. rewrite skipn_app, Nat.sub_diag, skipn_all. reflexivity. Qed.
Lemma strtol_spec L pre ds c rest : 9 < L -> field_ok ds -> value 10 ds <= 255 -> not_digit c ->
  strtol L (pre ++ field_text ds ++ c :: rest) (length pre) = Ok (value 10 ds).
Proof.
  intros HL Hf Hv Hc. unfold strtol. rewrite skipn_app_len, body_spec by assumption. cbn [bind]. f_equal.
  pose proof (value_range 10 ltac:(lia) ds (proj2 Hf)).
  assert (2 ^ 9 <= 2 ^ (L - 1)) by (apply Z.pow_le_mono_r; lia). change (2 ^ 9) with 512 in *. lia.
Qed.
Lemma strtol_terminated L pre mid post : exists n, strtol L (pre ++ mid ++ 0 :: post) (length pre) = Ok n.
Proof.
  assert (D : forall mid acc, exists n, strtol_digits (mid ++ 0 :: post) acc = Ok n).
  { clear. induction mid as [|c mid IH]; intros acc; cbn [app strtol_digits]; [exists acc; reflexivity|]. destruct (is_digit c); eauto. }
  assert (B : exists n, strtol_body (mid ++ 0 :: post) = Ok n).
  { induction mid as [|c mid IH]; cbn [app strtol_body]; [exists 0; reflexivity|]. destruct (is_space c); [exact IH|].
    destruct (c =? 45); [destruct (D mid 0) as (n & ->); cbn; eauto|]. destruct (c =? 43); [apply D|]. apply (D (c :: mid)). }
  destruct B as (n & B). unfold strtol. rewrite skipn_app_len, B. cbn [bind]. eauto.
Qed.
Lemma find_if_none p s i : Forall (fun c => p c = false) s -> find_if p s i = None.
Proof. intros H. revert i; induction H as [|c s Hc _ IH]; intros i; cbn [find_if]; [reflexivity|]. rewrite Hc. apply IH. Qed.
Lemma find_if_at p a c s i : Forall (fun c => p c = false) a -> p c = true -> find_if p (a ++ c :: s) i = Some (i + length a)%nat.
Proof.
  intros H Hc. revert i; induction H as [|x a Hx _ IH]; intros i; cbn [app find_if length].
  - rewrite Hc. f_equal. lia.
  - rewrite Hx, IH. f_equal. lia.
Qed.
Lemma field_text_not ds k : Forall (fun d => 0 <= d < 10) ds -> not_digit k -> Forall (fun c => (k =? c) = false) (field_text ds).
Proof.
  intros H Hk. unfold field_text. apply Forall_forall. intros x Hx. apply in_map_iff in Hx as (d & <- & Hd).
  rewrite Forall_forall in H. specialize (H d Hd). unfold not_digit in Hk. destruct (Z.eqb_spec k (48 + d)); lia || reflexivity.
Qed.
Definition upd3 (v : version) (i : Z) (fs : list (list Z)) : version :=
  let f k cur := if (i <=? k) && (k <? i + zlen fs) then field_value fs (Z.to_nat (k - i)) else cur in
  Ver (f 0 (major v)) (f 1 (minor v)) (f 2 (revision v)) (is_normal v).
Lemma set_field_upd v i ds : 0 <= value 10 ds <= 255 -> set_field v i (word 32 (value 10 ds)) = upd3 v i [ds].
Proof.
  intros H. rewrite word_small by (change (2 ^ 32) with 4294967296; lia). unfold set_field, upd3, field_value.
  rewrite Z.gtb_ltb. destruct (Z.ltb_spec 255 (value 10 ds)); [lia|]. unfold zlen. cbn [length Z.of_nat Pos.of_succ_nat].
  destruct v as [a b c n]. cbn [major minor revision is_normal].
  repeat match goal with
  | |- context[?x =? ?y] => destruct (Z.eqb_spec x y)
  | |- context[?x <=? ?y] => destruct (Z.leb_spec x y)
  | |- context[?x <? ?y] => destruct (Z.ltb_spec x y)
  end; subst; cbn [andb major minor revision is_normal nth Z.to_nat Z.sub Z.opp Z.add Z.pos_sub Pos.pred_double]; try lia; reflexivity.
Qed.
Lemma upd3_upd3 v i f fs : 0 <= i -> upd3 (upd3 v i [f]) (i + 1) fs = upd3 v i (f :: fs).
Proof.
  intros Hi. unfold upd3, field_value. rewrite !zlen_cons, ?(zlen_nil (A := list Z)).
  pose proof (zlen_nonneg fs). destruct v as [a b c n]. cbn [major minor revision is_normal].
  f_equal; match goal with |- context[nth (Z.to_nat (?k - i)) (f :: fs) []] =>
    destruct (Z.leb_spec (i + 1) k), (Z.ltb_spec k (i + 1 + zlen fs)), (Z.leb_spec i k), (Z.ltb_spec k (i + (0 + 1))), (Z.ltb_spec k (i + (zlen fs + 1))); cbn [andb]; try lia; try reflexivity;
    try (replace (k - i) with 0 by lia; reflexivity);
    try (replace (Z.to_nat (k - i)) with (S (Z.to_nat (k - (i + 1)))) by lia; reflexivity) end.
Qed.
Definition ver_eta (v : version) : Ver (major v) (minor v) (revision v) (is_normal v) = v.
Proof. destruct v; reflexivity. Qed.
Definition with_normal (v : version) (b : bool) : version := Ver (major v) (minor v) (revision v) b.
Lemma upd3_normal v i fs b : with_normal (upd3 v i fs) b = upd3 (with_normal v b) i fs.
Proof. reflexivity. Qed.

(* text of fields then a suffix; [rest] is the memory after the view *)
Lemma parse_loop_spec L : 9 < L -> forall fs fuel pre suffix rest i v,
  fs <> [] -> Forall field_ok fs -> Forall (fun f => value 10 f <= 255) fs -> 0 <= i ->
  (suffix = [] \/ exists s, suffix = 45 :: s) -> ~ In 46 suffix ->
  (exists c r, suffix ++ rest = c :: r /\ not_digit c) ->
  (length (dotted fs ++ suffix) < fuel)%nat ->
  parse_loop L fuel (pre ++ dotted fs ++ suffix ++ rest) (length pre) (length (dotted fs ++ suffix)) i v
  = Ok (with_normal (upd3 v i fs) (match suffix with [] => true | _ => false end)).
Proof.
  intros HL. induction fs as [|f fs IH]; intros fuel pre suffix rest i v Hne Hok Hsm Hi Hsuf Hdot Hrest Hfuel; [congruence|].
  inversion Hok as [|? ? Hf Hok']; subst. inversion Hsm as [|? ? Hv Hsm']; subst.
  pose proof (value_range 10 ltac:(lia) f (proj2 Hf)) as Hrange.
  destruct fuel as [|fuel]; [lia|]. cbn [parse_loop].
  destruct fs as [|g fs].
  - cbn [dotted] in *. destruct Hrest as (c & r & Er & Hc).
    assert (Et : firstn (length (field_text f ++ suffix)) (skipn (length pre) (pre ++ field_text f ++ suffix ++ rest)) = field_text f ++ suffix).
    { rewrite skipn_app_len, app_assoc, firstn_app, Nat.sub_diag, firstn_O, app_nil_r, firstn_all. reflexivity. }
    rewrite Et, Er. rewrite strtol_spec by assumption. cbn [bind].
    rewrite (find_if_none (Z.eqb 46)).
    2:{ apply Forall_app. split; [apply field_text_not; [exact (proj2 Hf)|left; lia]|]. apply Forall_forall. intros x Hx.
        destruct (Z.eqb_spec 46 x); [subst; contradiction|reflexivity]. }
    rewrite set_field_upd by lia. unfold with_normal. do 2 f_equal.
    destruct Hsuf as [-> |(s & ->)].
    + rewrite app_nil_r, find_if_none; [reflexivity|]. apply field_text_not; [exact (proj2 Hf)|left; lia].
    + rewrite find_if_at; [reflexivity|apply field_text_not; [exact (proj2 Hf)|left; lia]|reflexivity].
  - change (dotted (f :: g :: fs)) with (field_text f ++ 46 :: dotted (g :: fs)) in *.
    set (tl := dotted (g :: fs)) in *.
    assert (Et : firstn (length ((field_text f ++ 46 :: tl) ++ suffix)) (skipn (length pre) (pre ++ (field_text f ++ 46 :: tl) ++ suffix ++ rest)) = field_text f ++ 46 :: (tl ++ suffix)).
    { rewrite skipn_app_len, app_assoc, firstn_app, Nat.sub_diag, firstn_O, app_nil_r, firstn_all, <- app_assoc. reflexivity. }
    rewrite Et. rewrite find_if_at; [|apply field_text_not; [exact (proj2 Hf)|left; lia]|reflexivity].
    replace (pre ++ (field_text f ++ 46 :: tl) ++ suffix ++ rest) with (pre ++ field_text f ++ 46 :: (tl ++ suffix ++ rest)) by (rewrite <- !app_assoc; reflexivity).
    rewrite strtol_spec by (try assumption; left; lia). cbn [bind]. rewrite set_field_upd by lia.
    replace (pre ++ field_text f ++ 46 :: tl ++ suffix ++ rest) with ((pre ++ field_text f ++ [46]) ++ tl ++ suffix ++ rest) by (rewrite <- !app_assoc; reflexivity).
    replace (length pre + (0 + length (field_text f)) + 1)%nat with (length (pre ++ field_text f ++ [46%Z])) by (rewrite !app_length; cbn; lia).
    replace (length ((field_text f ++ 46%Z :: tl) ++ suffix) - (0 + length (field_text f)) - 1)%nat with (length (tl ++ suffix)) by (rewrite !app_length; cbn [length]; lia).
    unfold tl. rewrite IH; try assumption; try discriminate; try lia.
    + rewrite upd3_upd3 by lia. reflexivity.
    + fold tl. rewrite !app_length in *. cbn [length] in Hfuel. lia.
Qed.
Lemma parse_spec L pre fs suffix rest : 9 < L ->
  fs <> [] -> Forall field_ok fs -> Forall (fun f => value 10 f <= 255) fs ->
  (suffix = [] \/ exists s, suffix = 45 :: s) -> ~ In 46 suffix ->
  (exists c r, suffix ++ rest = c :: r /\ not_digit c) ->
  parse L (pre ++ (dotted fs ++ suffix) ++ rest) (length pre) (length (dotted fs ++ suffix))
  = Ok (Ver (field_value fs 0) (field_value fs 1) (field_value fs 2) (match suffix with [] => true | _ => false end)).
Proof.
  intros HL Hne Hok Hsm Hs Hd Hr. unfold parse. rewrite <- app_assoc.
  rewrite parse_loop_spec by (try assumption; lia). f_equal. unfold with_normal, upd3, ver0. cbn [major minor revision is_normal].
  unfold field_value. rewrite !Z.add_0_l, !Z.sub_0_r. cbn [Z.leb Z.compare andb].
  assert (Hd0 : forall k : nat, (if Z.of_nat k <? zlen fs then value 10 (nth k fs []) else 0) = value 10 (nth k fs [])).
  { intros k. destruct (Z.ltb_spec (Z.of_nat k) (zlen fs)) as [_|G]; [reflexivity|]. rewrite nth_overflow by (unfold zlen in G; lia). reflexivity. }
  rewrite <- (Hd0 0%nat), <- (Hd0 1%nat), <- (Hd0 2%nat). reflexivity.
Qed.

(* the dotted pre-release: only the last token decides *)
Lemma parse_loop_prefix L : 9 < L -> forall fs fuel pre tl rest i v n,
  fs <> [] -> Forall field_ok fs -> Forall (fun f => value 10 f <= 255) fs -> 0 <= i ->
  (exists s t, tl = 45 :: s ++ 46 :: t /\ ~ In 46 s) -> n = length (dotted fs ++ tl) -> (n < fuel)%nat ->
  forall s t, tl = 45 :: s ++ 46 :: t -> ~ In 46 s ->
  exists fuel', (length t < fuel')%nat /\
  parse_loop L fuel (pre ++ dotted fs ++ tl ++ rest) (length pre) n i v =
  parse_loop L fuel' ((pre ++ dotted fs ++ 45 :: s ++ [46]) ++ t ++ rest) (length (pre ++ dotted fs ++ 45 :: s ++ [46])) (length t) (i + zlen fs) (upd3 v i fs).
Proof.
  intros HL. induction fs as [|f fs IH]; intros fuel pre tl rest i v n Hne Hok Hsm Hi Hex Hn Hfuel s t Et Hs; [congruence|].
  inversion Hok as [|? ? Hf Hok']; subst. inversion Hsm as [|? ? Hv Hsm']; subst.
  pose proof (value_range 10 ltac:(lia) f (proj2 Hf)) as Hrange.
  destruct fuel as [|fuel]; [lia|]. cbn [parse_loop].
  destruct fs as [|g fs].
  - cbn [dotted] in *.
    assert (Ev : firstn (length (field_text f ++ 45 :: s ++ 46 :: t)) (skipn (length pre) (pre ++ field_text f ++ (45 :: s ++ 46 :: t) ++ rest)) = (field_text f ++ 45 :: s) ++ 46 :: t).
    { rewrite skipn_app_len, app_assoc, firstn_app, Nat.sub_diag, firstn_O, app_nil_r, firstn_all, <- app_assoc. reflexivity. }
    rewrite Ev, find_if_at; [| |reflexivity].
    2:{ apply Forall_app. split; [apply field_text_not; [exact (proj2 Hf)|left; lia]|]. constructor; [reflexivity|]. apply Forall_forall. intros x Hx.
        destruct (Z.eqb_spec 46 x); [subst; contradiction|reflexivity]. }
    change ((45 :: s ++ 46 :: t) ++ rest) with (45 :: ((s ++ 46 :: t) ++ rest)).
    rewrite strtol_spec by (try assumption; left; lia). cbn [bind]. rewrite set_field_upd by lia.
    exists fuel. split; [rewrite app_length in Hfuel; cbn [length] in Hfuel; rewrite app_length in Hfuel; cbn [length] in Hfuel; lia|].
    rewrite zlen_cons, (zlen_nil (A := list Z)).
    replace (pre ++ field_text f ++ 45 :: (s ++ 46 :: t) ++ rest) with ((pre ++ field_text f ++ 45 :: s ++ [46]) ++ t ++ rest)
      by (rewrite <- !app_assoc; cbn [app]; rewrite <- !app_assoc; reflexivity).
    f_equal.
    + rewrite !app_length. cbn [length]. rewrite !app_length. cbn [length]. lia.
    + rewrite !app_length. cbn [length]. rewrite !app_length. cbn [length]. lia.
  - change (dotted (f :: g :: fs)) with (field_text f ++ 46 :: dotted (g :: fs)) in *.
    set (tl := dotted (g :: fs)) in *. set (sfx := 45 :: s ++ 46 :: t) in *.
    assert (Ev : firstn (length ((field_text f ++ 46 :: tl) ++ sfx)) (skipn (length pre) (pre ++ (field_text f ++ 46 :: tl) ++ sfx ++ rest)) = field_text f ++ 46 :: (tl ++ sfx)).
    { rewrite skipn_app_len, app_assoc, firstn_app, Nat.sub_diag, firstn_O, app_nil_r, firstn_all, <- app_assoc. reflexivity. }
    rewrite Ev. rewrite find_if_at; [|apply field_text_not; [exact (proj2 Hf)|left; lia]|reflexivity].
    replace (pre ++ (field_text f ++ 46 :: tl) ++ sfx ++ rest) with (pre ++ field_text f ++ 46 :: (tl ++ sfx ++ rest)) by (rewrite <- !app_assoc; reflexivity).
    rewrite strtol_spec by (try assumption; left; lia). cbn [bind]. rewrite set_field_upd by lia.
    replace (pre ++ field_text f ++ 46 :: tl ++ sfx ++ rest) with ((pre ++ field_text f ++ [46]) ++ tl ++ sfx ++ rest) by (rewrite <- !app_assoc; reflexivity).
    replace (length pre + (0 + length (field_text f)) + 1)%nat with (length (pre ++ field_text f ++ [46%Z])) by (rewrite !app_length; cbn; lia).
    replace (length ((field_text f ++ 46%Z :: tl) ++ sfx) - (0 + length (field_text f)) - 1)%nat with (length (tl ++ sfx)) by (rewrite !app_length; cbn [length]; lia).
    destruct (IH fuel (pre ++ field_text f ++ [46]) sfx rest (i + 1) (upd3 v i [f]) (length (tl ++ sfx))) with (s := s) (t := t) as (fuel' & Hf' & E);
      try assumption; try discriminate; try lia; try reflexivity.
    { fold tl. rewrite !app_length in *. cbn [length] in Hfuel. lia. }
    exists fuel'. split; [exact Hf'|]. fold tl in E. rewrite E. rewrite upd3_upd3 by lia.
    rewrite (zlen_cons f (g :: fs)). f_equal; [|f_equal|lia]; rewrite <- !app_assoc; reflexivity.
Qed.
Lemma parse_dotted_prerelease L pre a b c s t rest : 9 < L ->
  Forall field_ok [a; b; c] -> Forall (fun f => value 10 f <= 255) [a; b; c] -> ~ In 46 s -> ~ In 46 t -> ~ In 45 t ->
  (exists x, strtol L ((pre ++ dotted [a; b; c] ++ 45 :: s ++ [46]) ++ t ++ rest) (length (pre ++ dotted [a; b; c] ++ 45 :: s ++ [46])) = Ok x) ->
  let text := dotted [a; b; c] ++ 45 :: s ++ 46 :: t in
  parse L (pre ++ text ++ rest) (length pre) (length text) = Ok (Ver (value 10 a) (value 10 b) (value 10 c) true).
Proof.
  intros HL Hok Hsm Hs Ht1 Ht2 (x & Hx) text. unfold parse.
  assert (Etext : pre ++ text ++ rest = pre ++ dotted [a; b; c] ++ (45 :: s ++ 46 :: t) ++ rest) by (unfold text; rewrite <- app_assoc; reflexivity).
  rewrite Etext. destruct (parse_loop_prefix L HL [a; b; c] (S (length text)) pre (45 :: s ++ 46 :: t) rest 0 ver0 (length text)) with (s := s) (t := t) as (fuel' & Hf & ->);
    try assumption; try discriminate; try lia; try reflexivity.
  { exists s, t. auto. }
  destruct fuel' as [|fuel']; [lia|]. cbn [parse_loop]. rewrite Hx. cbn [bind].
  assert (Et : firstn (length t) (skipn (length (pre ++ dotted [a; b; c] ++ 45 :: s ++ [46])) ((pre ++ dotted [a; b; c] ++ 45 :: s ++ [46]) ++ t ++ rest)) = t).
  { rewrite skipn_app_len, firstn_app, Nat.sub_diag, firstn_O, app_nil_r, firstn_all. reflexivity. }
  rewrite Et. rewrite !find_if_none.
  2:{ apply Forall_forall. intros y Hy. destruct (Z.eqb_spec 45 y); [subst; contradiction|reflexivity]. }
  2:{ apply Forall_forall. intros y Hy. destruct (Z.eqb_spec 46 y); [subst; contradiction|reflexivity]. }
  change (0 + zlen [a; b; c]) with 3. unfold set_field. destruct (word 32 x >? 255); reflexivity.
Qed.
(* reading past the view *)
Lemma parse_total L : forall fuel mem0 post p n i v, (n < fuel)%nat -> (p + n <= length mem0)%nat ->
  exists r, parse_loop L fuel (mem0 ++ 0 :: post) p n i v = Ok r.
Proof.
  induction fuel as [|fuel IH]; intros mem0 post p n i v Hf Hp; [lia|]. cbn [parse_loop].
  destruct (strtol_terminated L (firstn p mem0) (skipn p mem0) post) as (x & Hx).
  rewrite app_assoc, firstn_skipn, firstn_length_le in Hx by lia. rewrite Hx. cbn [bind].
  pose proof (find_if_spec (Z.eqb 46) (firstn n (skipn p (mem0 ++ 0 :: post))) 0) as Hs.
  destruct (find_if (Z.eqb 46) (firstn n (skipn p (mem0 ++ 0 :: post))) 0) as [k|]; [|eauto].
  destruct Hs as (a & c & b & E & -> & _).
  apply (f_equal (@length Z)) in E. rewrite app_length in E. cbn [length] in E.
  pose proof (firstn_le_length n (skipn p (mem0 ++ 0 :: post))). apply IH; lia.
Qed.

(* ordering *)
Definition key (v : version) : list Z := [major v; minor v; revision v; if is_normal v then 1 else 0].
Ltac cases := repeat match goal with
  | |- context[?x =? ?y] => destruct (Z.eqb_spec x y)
  | |- context[?x <? ?y] => destruct (Z.ltb_spec x y)
  | |- context[?x >=? ?y] => destruct (Z.geb_spec x y)
  end.
Lemma ver_cmp_eq v w : ver_cmp v w = Eq <-> v = w.
Proof.
  unfold ver_cmp. destruct v as [a b c n], w as [a' b' c' n']. cbn [major minor revision is_normal].
  destruct n, n'; cases; cbn; split; intros HH; try discriminate; try congruence; injection HH; lia.
Qed.
Lemma ver_cmp_opp v w : ver_cmp w v = CompOpp (ver_cmp v w).
Proof.
  unfold ver_cmp. destruct v as [a b c n], w as [a' b' c' n']. cbn [major minor revision is_normal].
  destruct n, n'; cases; cbn; try reflexivity; lia.
Qed.
Lemma ver_cmp_lt v w : ver_cmp v w = Lt <->
  major v < major w \/ (major v = major w /\ (minor v < minor w \/ (minor v = minor w /\
  (revision v < revision w \/ (revision v = revision w /\ is_normal v = false /\ is_normal w = true))))).
Proof.
  unfold ver_cmp. destruct v as [a b c n], w as [a' b' c' n']. cbn [major minor revision is_normal].
  destruct n, n'; cases; cbn; split; intros HH; try discriminate; try congruence; try reflexivity; intuition (try lia; try discriminate).
Qed.
Lemma ver_cmp_trans u v w : ver_cmp u v = Lt -> ver_cmp v w = Lt -> ver_cmp u w = Lt.
Proof. rewrite !ver_cmp_lt. intros H1 H2. destruct (is_normal u), (is_normal v), (is_normal w); intuition (try lia; try discriminate). Qed.
Lemma ver_eq_iff v w : ver_eq v w = true <-> v = w.
Proof.
  unfold ver_eq. destruct v as [a b c n], w as [a' b' c' n']. cbn [major minor revision is_normal].
  rewrite !andb_true_iff, !Z.eqb_eq, eqb_true_iff. split; [intros [[[-> ->] ->] ->]; reflexivity|]. intros H; injection H; intuition congruence.
Qed.
Lemma is_later_iff v w : is_later v w = true <-> ver_cmp w v = Lt.
Proof. unfold is_later. rewrite (ver_cmp_opp v w). destruct (ver_cmp v w); cbn; split; congruence. Qed.
Lemma can_host_iff v w : can_host_version v w = true <-> major v = major w /\ minor w <= minor v.
Proof. unfold can_host_version. rewrite andb_true_iff, Z.eqb_eq, Z.geb_le. tauto. Qed.

Lemma set_field_0 v : 0 <= v <= 255 -> set_field ver0 0 v = Ver v 0 0 true.
Proof. intros H. unfold set_field. rewrite Z.gtb_ltb. destruct (Z.ltb_spec 255 v); [lia|reflexivity]. Qed.
Lemma parse_one_field L pre f rest x : Forall (fun d => 0 <= d < 10) f -> strtol L (pre ++ field_text f ++ rest) (length pre) = Ok x ->
  parse L (pre ++ field_text f ++ rest) (length pre) (length (field_text f)) =
  Ok (Ver (major (set_field ver0 0 (word 32 x))) (minor (set_field ver0 0 (word 32 x))) (revision (set_field ver0 0 (word 32 x))) true).
Proof.
  intros Hf Hx. unfold parse. cbn [parse_loop]. rewrite Hx. cbn [bind].
  rewrite skipn_app_len, firstn_app, Nat.sub_diag, firstn_O, app_nil_r, firstn_all.
  rewrite !find_if_none; [reflexivity| |]; apply field_text_not; auto; left; lia.
Qed.
Lemma field_text_app a b : field_text (a ++ b) = field_text a ++ field_text b.
Proof. apply map_app. Qed.
Lemma parse_overread L pre f e c r : 9 < L -> field_ok f -> Forall (fun d => 0 <= d < 10) e -> value 10 (f ++ e) <= 255 -> not_digit c ->
  parse L (pre ++ field_text f ++ (field_text e ++ c :: r)) (length pre) (length (field_text f)) = Ok (Ver (value 10 (f ++ e)) 0 0 true).
Proof.
  intros HL Hf He Hv Hc.
  assert (Hfe : Forall (fun d => 0 <= d < 10) (f ++ e)) by (apply Forall_app; split; [exact (proj2 Hf)|exact He]).
  pose proof (value_range 10 ltac:(lia) _ Hfe) as Hr.
  rewrite (parse_one_field L pre f _ (value 10 (f ++ e))); [|exact (proj2 Hf)|].
  - rewrite word_small by (change (2 ^ 32) with 4294967296; lia). rewrite set_field_0 by lia. reflexivity.
  - rewrite app_assoc with (l := field_text f), <- field_text_app. apply strtol_spec; try assumption.
    split; [|exact Hfe]. destruct Hf as [Hne _]. destruct f; [congruence|discriminate].
Qed.
Lemma strtol_digits_end ds : Forall (fun d => 0 <= d < 10) ds -> forall acc, strtol_digits (field_text ds) acc = UB OutOfBounds.
Proof.
  induction 1 as [|d ds Hd _ IH]; intros acc; cbn [field_text map strtol_digits]; [reflexivity|].
  assert (is_digit (48 + d) = true) as -> by (apply is_digit_true; lia). apply IH.
Qed.
Lemma parse_unterminated L pre f : field_ok f -> parse L (pre ++ field_text f) (length pre) (length (field_text f)) = UB OutOfBounds.
Proof.
  intros [Hne Hf]. unfold parse. cbn [parse_loop]. unfold strtol. rewrite skipn_app_len.
  assert (strtol_body (field_text f) = UB OutOfBounds) as ->; [|reflexivity].
  destruct f as [|d f]; [congruence|]. inversion Hf; subst. cbn [field_text map strtol_body].
  assert (is_space (48 + d) = false) as ->.
  { unfold is_space. destruct (Z.eqb_spec (48 + d) 32), (Z.leb_spec 9 (48 + d)), (Z.leb_spec (48 + d) 13); cbn; try lia; reflexivity. }
  destruct (Z.eqb_spec (48 + d) 45); [lia|]. destruct (Z.eqb_spec (48 + d) 43); [lia|].
  exact (strtol_digits_end (d :: f) Hf 0).
Qed.
Lemma parse_big_field L pre f c r : 9 < L -> field_ok f -> not_digit c ->
  let n := Z.min (value 10 f) (2 ^ (L - 1) - 1) mod 2 ^ 32 in
  parse L (pre ++ field_text f ++ c :: r) (length pre) (length (field_text f)) = Ok (Ver (if n <=? 255 then n else 0) 0 0 true).
Proof.
  intros HL Hf Hc n. pose proof (value_range 10 ltac:(lia) f (proj2 Hf)) as Hr.
  rewrite (parse_one_field L pre f _ (Z.min (value 10 f) (2 ^ (L - 1) - 1))); [|exact (proj2 Hf)|].
  - fold (word 32 (Z.min (value 10 f) (2 ^ (L - 1) - 1))) in n. fold n. pose proof (word_range 32 (Z.min (value 10 f) (2 ^ (L - 1) - 1)) ltac:(lia)) as Hn. fold n in Hn.
    destruct (Z.leb_spec n 255); [rewrite set_field_0 by lia; reflexivity|].
    unfold set_field. rewrite Z.gtb_ltb. destruct (Z.ltb_spec 255 n); [reflexivity|lia].
  - unfold strtol. rewrite skipn_app_len, body_spec by assumption. cbn [bind]. f_equal.
    assert (0 < 2 ^ (L - 1)) by (apply Z.pow_pos_nonneg; lia). lia.
Qed.
Lemma parse_wraps pre f c k m r : field_ok f -> not_digit c ->
  value 10 f = 2 ^ 32 * m + k -> 0 <= k <= 255 -> 0 <= m < 2 ^ 31 ->
  parse 64 (pre ++ field_text f ++ c :: r) (length pre) (length (field_text f)) = Ok (Ver k 0 0 true).
Proof.
  intros Hf Hc Hv Hk Hm. rewrite parse_big_field by (assumption || lia). rewrite Hv.
  change (2 ^ (64 - 1) - 1) with 9223372036854775807. change (2 ^ 32) with 4294967296. change (2 ^ 31) with 2147483648 in Hm.
  rewrite Z.min_l by lia. rewrite Z.add_comm, Z.mul_comm, Z.mod_add, Z.mod_small by lia.
  destruct (Z.leb_spec k 255); [reflexivity|lia].
Qed.
Lemma white_space c : white c -> is_space c = true.
Proof. unfold white, is_space. intros H. lia. Qed.
Lemma body_white ws r : Forall white ws -> strtol_body (ws ++ r) = strtol_body r.
Proof. induction 1 as [|c ws H _ IH]; [reflexivity|]. cbn [app strtol_body]. rewrite white_space by exact H. exact IH. Qed.
Lemma white_not ws k : Forall white ws -> 32 < k -> Forall (fun c => (k =? c) = false) ws.
Proof. intros H Hk. eapply Forall_impl; [|exact H]. unfold white. cbn. intros c Hc. lia. Qed.
Lemma parse_signed L pre ws f c r : 9 < L -> Forall white ws -> field_ok f -> not_digit c ->
  (let n := Z.min (value 10 f) (2 ^ (L - 1) - 1) mod 2 ^ 32 in let text := ws ++ 43 :: field_text f in
   parse L (pre ++ text ++ c :: r) (length pre) (length text) = Ok (Ver (if n <=? 255 then n else 0) 0 0 true)) /\
  (let n := (- Z.min (value 10 f) (2 ^ (L - 1))) mod 2 ^ 32 in let text := ws ++ 45 :: field_text f in
   parse L (pre ++ text ++ c :: r) (length pre) (length text) = Ok (Ver (if n <=? 255 then n else 0) 0 0 false)).
Proof.
  intros HL Hw Hf Hc. pose proof (value_range 10 ltac:(lia) f (proj2 Hf)) as Hr.
  assert (HP : 2 ^ 9 <= 2 ^ (L - 1)) by (apply Z.pow_le_mono_r; lia). change (2 ^ 9) with 512 in HP.
  assert (E : forall text, firstn (length text) (skipn (length pre) (pre ++ text ++ c :: r)) = text).
  { intros text. rewrite skipn_app_len, firstn_app, Nat.sub_diag, firstn_O, app_nil_r, firstn_all. reflexivity. }
  assert (S : forall n, 0 <= n -> set_field ver0 0 n = Ver (if n <=? 255 then n else 0) 0 0 true).
  { intros n Hn. unfold set_field. rewrite Z.gtb_ltb. destruct (Z.ltb_spec 255 n), (Z.leb_spec n 255); try lia; reflexivity. }
  split; intros n text; unfold parse; cbn [parse_loop]; rewrite E; unfold text.
  - rewrite (find_if_none (Z.eqb 46)), (find_if_none (Z.eqb 45)).
    2,3: apply Forall_app; split; [apply white_not; [exact Hw|lia]|constructor; [reflexivity|apply field_text_not; [exact (proj2 Hf)|unfold not_digit; lia]]].
    unfold strtol. rewrite skipn_app_len, <- app_assoc, body_white by exact Hw. cbn [app strtol_body is_space]. cbn [Z.eqb Pos.eqb orb andb Z.leb Z.compare Pos.compare Pos.compare_cont is_space].
    rewrite digits_spec by (exact Hc || exact (proj2 Hf)). cbn [bind]. fold (value 10 f).
    change (fold_left (fun a d => a * 10 + d) f 0) with (value 10 f).
    rewrite (Z.max_r (- 2 ^ (L - 1))) by lia. rewrite S by (apply word_range; lia). reflexivity.
  - rewrite (find_if_none (Z.eqb 46)).
    2: apply Forall_app; split; [apply white_not; [exact Hw|lia]|constructor; [reflexivity|apply field_text_not; [exact (proj2 Hf)|unfold not_digit; lia]]].
    rewrite (find_if_at (Z.eqb 45)) by (reflexivity || (apply white_not; [exact Hw|lia])).
    unfold strtol. rewrite skipn_app_len, <- app_assoc, body_white by exact Hw. cbn [app strtol_body]. cbn [Z.eqb Pos.eqb orb andb Z.leb Z.compare Pos.compare Pos.compare_cont is_space].
    rewrite digits_spec by (exact Hc || exact (proj2 Hf)). cbn [bind].
    change (fold_left (fun a d => a * 10 + d) f 0) with (value 10 f).
    replace (Z.max (- 2 ^ (L - 1)) (Z.min (- value 10 f) (2 ^ (L - 1) - 1))) with (- Z.min (value 10 f) (2 ^ (L - 1))) by lia.
    rewrite S by (apply word_range; lia). reflexivity.
Qed.
