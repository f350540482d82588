From Verif.Common Require Import Base Lemmas Lists.
From Verif.Spec Require Import TextSpec.
From Verif.Model Require Import Strings.

Lemma str_eq_true a b : str_eq a b = true <-> a = b.
Proof. unfold str_eq. destruct (list_eq_dec Z.eq_dec a b); split; congruence. Qed.
Lemma starts_with_true s p : starts_with s p = true <-> exists q, s = p ++ q.
Proof.
  unfold starts_with. rewrite str_eq_true. split.
  - intros E. exists (skipn (length p) s). rewrite <- E at 1. symmetry. apply firstn_skipn.
  - intros (q & ->). rewrite firstn_app, Nat.sub_diag, firstn_O, app_nil_r. apply firstn_all.
Qed.
Lemma starts_with_false s p : starts_with s p = false <-> forall q, s <> p ++ q.
Proof.
  destruct (starts_with s p) eqn:E.
  - apply starts_with_true in E as (q & E). split; [discriminate|]. intros H. exfalso. eapply H; eauto.
  - split; [|reflexivity]. intros _ q Hq. assert (starts_with s p = true) by (apply starts_with_true; eauto). congruence.
Qed.
Lemma ends_with_true s p : ends_with s p = true <-> exists q, s = q ++ p.
Proof.
  unfold ends_with. rewrite andb_true_iff, Nat.leb_le, str_eq_true. split.
  - intros [_ E]. exists (firstn (length s - length p) s). rewrite <- E at 2. symmetry. apply firstn_skipn.
  - intros (q & ->). rewrite app_length. split; [lia|]. replace (length q + length p - length p)%nat with (length q) by lia.
    rewrite skipn_app, Nat.sub_diag, skipn_all. reflexivity.
Qed.
Lemma occurs_cons f c s pre : occurs_after f (c :: s) (c :: pre) <-> occurs_after f s pre.
Proof. unfold occurs_after. cbn [app]. split; intros (q & E); exists q; congruence. Qed.
(* find_from returns the first occurrence *)
Lemma find_from_spec p s : forall i,
  match find_from p s i with
  | Some j => exists pre post, s = pre ++ p ++ post /\ j = (i + length pre)%nat /\
                (forall q, (length q < length pre)%nat -> ~ occurs_after p s q)
  | None => no_occurrence p s
  end.
Proof.
  induction s as [|c s IH]; intros i; cbn [find_from].
  - destruct (starts_with [] p) eqn:E.
    + apply starts_with_true in E as (q & E). exists [], q. cbn. splits; auto. intros q0 H; cbn in H; lia.
    + rewrite starts_with_false in E. intros [|x pre] (q & Hq); [eapply E; exact Hq|discriminate].
  - destruct (starts_with (c :: s) p) eqn:E.
    + apply starts_with_true in E as (q & E). exists [], q. cbn. splits; auto. intros q0 H; cbn in H; lia.
    + rewrite starts_with_false in E. specialize (IH (S i)). destruct (find_from p s (S i)) as [j|].
      * destruct IH as (pre & post & -> & -> & Hm). exists (c :: pre), post. cbn [length app]. splits; [reflexivity|lia|].
        intros [|x q] Hq (z & Hz); [eapply E; exact Hz|]. cbn [app] in Hz. injection Hz as <- Hz.
        apply (Hm q); [cbn in Hq; lia|]. exists z. exact Hz.
      * intros [|x pre] (z & Hz); [eapply E; exact Hz|]. cbn [app] in Hz. injection Hz as <- Hz.
        apply (IH pre). exists z. exact Hz.
Qed.

(* ---------------- contains_word ---------------- *)
Lemma transform_lower_ok s : Forall (fun c => 0 <= c) s -> transform_lower s = Ok (map lower s).
Proof.
  induction 1 as [|c s Hc _ IH]; [reflexivity|]. cbn [transform_lower map]. unfold char_tolower.
  destruct (Z.ltb_spec c 0); [lia|]. rewrite IH. reflexivity.
Qed.
Lemma transform_lower_bad s : (exists c, In c s /\ c < 0) -> transform_lower s = UB OutOfBounds.
Proof.
  induction s as [|x s IH]; intros (c & Hin & Hc); [destruct Hin|]. cbn [transform_lower]. unfold char_tolower.
  destruct (Z.ltb_spec x 0); [reflexivity|]. cbn [bind]. destruct Hin as [->|Hin]; [lia|]. rewrite IH by eauto. reflexivity.
Qed.
Lemma contains_word_spec name word : Forall (fun c => 0 <= c) name -> Forall (fun c => 0 <= c) word ->
  exists b, contains_word name word = Ok b /\ (b = true <-> word_in name word).
Proof.
  intros Hn Hw. unfold contains_word. rewrite !transform_lower_ok by assumption. cbn [bind].
  set (ln := map lower name). set (lw := map lower word). eexists. split; [reflexivity|].
  assert (H3 : forall b, (match str_find ln (32 :: lw ++ [32]) 0 with Some _ => true | None => false end) = b ->
     b = true <-> exists pre post, ln = pre ++ 32 :: lw ++ 32 :: post).
  { intros b <-. unfold str_find. cbn [Nat.leb skipn]. pose proof (find_from_spec (32 :: lw ++ [32]) ln 0) as Hf.
    destruct (find_from (32 :: lw ++ [32]) ln 0) as [j|].
    - destruct Hf as (pre & post & E & _). split; [|reflexivity]. intros _. exists pre, post. rewrite E. cbn [app]. rewrite <- app_assoc. reflexivity.
    - split; [discriminate|]. intros (pre & post & E). exfalso. apply (Hf pre). exists post. rewrite E. cbn [app]. rewrite <- app_assoc. reflexivity. }
  specialize (H3 _ eq_refl).
  destruct (str_eq ln lw) eqn:E1; [|destruct (ends_with ln (32 :: lw)) eqn:E2; [|destruct (starts_with ln (lw ++ [32])) eqn:E3]].
  - split; [|reflexivity]. intros _. apply str_eq_true in E1. exists [], []. rewrite app_nil_r. cbn [app]. split; [exact E1|auto].
  - split; [|reflexivity]. intros _. apply ends_with_true in E2 as (q & E2). exists (q ++ [32]), []. rewrite app_nil_r, <- app_assoc. split; [exact E2|eauto].
  - split; [|reflexivity]. intros _. apply starts_with_true in E3 as (q & E3). exists [], (32 :: q). rewrite <- app_assoc in E3. split; [exact E3|eauto].
  - rewrite H3. split.
    + intros (pre & post & E). exists (pre ++ [32]), (32 :: post). rewrite <- app_assoc. split; [exact E|split; right; eauto].
    + intros (pre & post & E & Hpre & Hpost). fold ln lw in E. destruct Hpre as [-> |(p & ->)], Hpost as [-> |(q & ->)].
      * exfalso. rewrite app_nil_r in E. cbn in E. apply str_eq_true in E. congruence.
      * exfalso. assert (starts_with ln (lw ++ [32]) = true) by (apply starts_with_true; exists q; rewrite <- app_assoc; exact E). congruence.
      * exfalso. rewrite app_nil_r, <- app_assoc in E. assert (ends_with ln (32 :: lw) = true) by (apply ends_with_true; exists p; exact E). congruence.
      * exists p, q. rewrite <- app_assoc in E. exact E.
Qed.

(* ---------------- less_ci / equal_ci ---------------- *)
Lemma equal_ci_iff a : forall b, equal_ci a b = true <-> map lower a = map lower b.
Proof.
  induction a as [|x a IH]; intros [|y b]; cbn [equal_ci map]; try (split; [discriminate|discriminate]); [tauto|].
  rewrite andb_true_iff, Z.eqb_eq, IH. split; [intros [-> ->]; reflexivity|]. intros E; injection E; auto.
Qed.
Lemma less_ci_irrefl a b : equal_ci a b = true -> less_ci a b = false.
Proof.
  revert b; induction a as [|x a IH]; intros [|y b]; cbn [equal_ci less_ci]; try discriminate; try reflexivity.
  rewrite andb_true_iff, Z.eqb_eq. intros [-> E]. rewrite Z.ltb_irrefl. apply IH; exact E.
Qed.
Lemma less_ci_trans a : forall b c, less_ci a b = true -> less_ci b c = true -> less_ci a c = true.
Proof.
  induction a as [|x a IH]; intros [|y b] [|z c]; cbn [less_ci]; try discriminate; try reflexivity.
  destruct (Z.ltb_spec (lower x) (lower y)), (Z.ltb_spec (lower y) (lower x)), (Z.ltb_spec (lower y) (lower z)),
    (Z.ltb_spec (lower z) (lower y)), (Z.ltb_spec (lower x) (lower z)), (Z.ltb_spec (lower z) (lower x)); try lia; try discriminate; try reflexivity; intros; eauto.
Qed.
Lemma less_ci_trichotomy a : forall b,
  (less_ci a b = true /\ less_ci b a = false /\ equal_ci a b = false) \/
  (less_ci a b = false /\ less_ci b a = true /\ equal_ci a b = false) \/
  (less_ci a b = false /\ less_ci b a = false /\ equal_ci a b = true).
Proof.
  induction a as [|x a IH]; intros [|y b]; cbn [less_ci equal_ci]; auto.
  destruct (Z.ltb_spec (lower x) (lower y)), (Z.ltb_spec (lower y) (lower x)), (Z.eqb_spec (lower x) (lower y)); try lia; cbn [andb]; auto.
Qed.

(* ---------------- replace_all ---------------- *)
Lemma replace_at pre f post r : str_replace (pre ++ f ++ post) (length pre) (length f) r = pre ++ r ++ post.
Proof.
  unfold str_replace. rewrite firstn_app, Nat.sub_diag, firstn_O, app_nil_r, firstn_all. do 2 f_equal.
  rewrite skipn_app. replace (length pre + length f - length pre)%nat with (length f) by lia.
  rewrite (skipn_all2 pre) by lia. cbn [app]. rewrite skipn_app, Nat.sub_diag, skipn_all. reflexivity.
Qed.
Lemma no_occ_nil f : f <> [] -> no_occurrence f [].
Proof. intros Hf pre (q & E). symmetry in E. apply app_eq_nil in E as [_ E]. apply app_eq_nil in E as [E _]. congruence. Qed.
(* [d] is what the loop has finished with, [s] what it still examines *)
Lemma replace_loop_spec f r : f <> [] -> (length r <= length f)%nat -> forall fuel d s,
  (length s < fuel)%nat ->
  exists t, replace_loop fuel (d ++ s) f r (length d) = Ok (d ++ t) /\ replaced f r (length f - length r) s t.
Proof.
  intros Hf Hr. induction fuel as [|fuel IH]; intros d s Hs; [lia|]. cbn [replace_loop]. unfold str_find.
  destruct (Nat.leb_spec (length d) (length (d ++ s))) as [_|H]; [|rewrite app_length in H; lia].
  rewrite skipn_app, Nat.sub_diag, skipn_all. cbn [app]. rewrite skipn_O.
  pose proof (find_from_spec f s (length d)) as Hfind. destruct (find_from f s (length d)) as [j|].
  - destruct Hfind as (pre & post & -> & -> & Hm).
    replace (d ++ pre ++ f ++ post) with ((d ++ pre) ++ f ++ post) by (rewrite <- app_assoc; reflexivity).
    rewrite <- app_length, replace_at.
    set (k := (length f - length r)%nat). destruct (le_lt_dec k (length post)) as [Hk|Hk].
    + destruct (IH ((d ++ pre) ++ r ++ firstn k post) (skipn k post)) as (t & E & Ht).
      { rewrite skipn_length. rewrite !app_length in Hs. destruct f; [congruence|cbn [length] in *; lia]. }
      exists (pre ++ r ++ firstn k post ++ t). split; [|apply rep_first; assumption].
      rewrite <- !app_assoc in E. rewrite firstn_skipn in E. rewrite <- !app_assoc.
      assert (El : length (d ++ pre ++ r ++ firstn k post) = (length (d ++ pre) + length f)%nat).
      { rewrite !app_length. rewrite firstn_length_le by exact Hk. unfold k. lia. }
      rewrite El in E. exact E.
    + assert (Hn : str_find (d ++ pre ++ r ++ post) f (length (d ++ pre) + length f) = None).
      { unfold str_find. destruct (Nat.leb_spec (length (d ++ pre) + length f) (length (d ++ pre ++ r ++ post))) as [H|_]; [|reflexivity].
        rewrite !app_length in H. lia. }
      exists (pre ++ r ++ firstn k post ++ []). split.
      * rewrite <- app_assoc. rewrite !app_length in Hs. destruct fuel as [|fuel]; [destruct f; [congruence|cbn [length] in Hs; lia]|].
        cbn [replace_loop]. rewrite Hn, app_nil_r, firstn_all2 by lia. reflexivity.
      * apply rep_first; [exact Hm|]. rewrite skipn_all2 by (unfold k in *; lia). apply rep_none. apply no_occ_nil; exact Hf.
  - exists s. split; [reflexivity|]. apply rep_none. exact Hfind.
Qed.
Lemma replace_all_spec s f r : f <> [] -> (length r <= length f)%nat ->
  exists t, replace_all s f r = Ok t /\ replaced f r (length f - length r) s t.
Proof.
  intros Hf Hr. destruct (replace_loop_spec f r Hf Hr (S (length s)) [] s) as (t & E & H); [lia|]. exists t. split; [exact E|exact H].
Qed.
Lemma first_occurrence_unique (f pre1 post1 pre2 post2 : list Z) : pre1 ++ f ++ post1 = pre2 ++ f ++ post2 ->
  (forall p, (length p < length pre1)%nat -> ~ occurs_after f (pre1 ++ f ++ post1) p) ->
  (forall p, (length p < length pre2)%nat -> ~ occurs_after f (pre2 ++ f ++ post2) p) -> pre1 = pre2 /\ post1 = post2.
Proof.
  intros E H1 H2.
  assert (Hl : length pre1 = length pre2).
  { destruct (lt_eq_lt_dec (length pre1) (length pre2)) as [[L|L]|L]; [|exact L|].
    - exfalso. apply (H2 pre1 L). exists post1. symmetry. exact E.
    - exfalso. apply (H1 pre2 L). exists post2. exact E. }
  assert (pre1 = pre2).
  { apply (f_equal (firstn (length pre1))) in E. rewrite firstn_app, Nat.sub_diag, firstn_O, app_nil_r, firstn_all in E.
    rewrite Hl, firstn_app, Nat.sub_diag, firstn_O, app_nil_r, firstn_all in E. exact E. }
  subst pre2. split; [reflexivity|]. apply app_inv_head in E. apply app_inv_head in E. exact E.
Qed.
Lemma replaced_fun f r k s t1 : replaced f r k s t1 -> forall t2, replaced f r k s t2 -> t1 = t2.
Proof.
  induction 1 as [s Hn|pre post t Hm _ IH]; intros t2 H2.
  - inversion H2 as [? _|pre post t Hm Ht]; subst; [reflexivity|]. exfalso. apply (Hn pre). exists post. reflexivity.
  - inversion H2 as [? Hn|pre2 post2 u Hm2 Ht E]; subst.
    + exfalso. apply (Hn pre). exists post. reflexivity.
    + destruct (first_occurrence_unique f pre2 post2 pre post E) as [-> ->]; [rewrite E in Hm2 |- *; exact Hm2|exact Hm|].
      rewrite (IH u Ht). reflexivity.
Qed.
(* growing replacement: the loop never ends *)
Lemma replace_loop_diverges f r u w : r = u ++ f ++ w -> (length f <= length u)%nat -> forall fuel str index,
  (exists pre post, str = pre ++ f ++ post /\ (index <= length pre)%nat) ->
  replace_loop fuel str f r index = OutOfFuel.
Proof.
  intros Hr Hu. induction fuel as [|fuel IH]; intros str index (pre & post & Es & Hi); [reflexivity|]. cbn [replace_loop].
  unfold str_find. destruct (Nat.leb_spec index (length str)) as [_|H]; [|rewrite Es, app_length in H; lia].
  pose proof (find_from_spec f (skipn index str) index) as Hf.
  destruct (find_from f (skipn index str) index) as [j|].
  - destruct Hf as (pre2 & post2 & E2 & -> & _). apply IH.
    assert (Es2 : str = (firstn index str ++ pre2) ++ f ++ post2) by (rewrite <- app_assoc, <- E2; symmetry; apply firstn_skipn).
    assert (Hl : length (firstn index str ++ pre2) = (index + length pre2)%nat).
    { rewrite app_length, firstn_length_le; [reflexivity|]. rewrite Es, app_length. lia. }
    remember (firstn index str ++ pre2) as P eqn:EP. clear EP. rewrite <- Hl, Es2, replace_at, Hr.
    exists (P ++ u), (w ++ post2). split; [rewrite <- !app_assoc; reflexivity|]. rewrite app_length. lia.
  - exfalso. apply (Hf (skipn index pre)). exists post. rewrite Es, skipn_app. replace (index - length pre)%nat with 0%nat by lia. reflexivity.
Qed.
Lemma replace_loop_empty r : forall fuel str index, (index <= length str)%nat -> replace_loop fuel str [] r index = OutOfFuel.
Proof.
  induction fuel as [|fuel IH]; intros str index Hi; [reflexivity|]. cbn [replace_loop]. unfold str_find.
  destruct (Nat.leb_spec index (length str)) as [_|H]; [|lia].
  assert (E : find_from [] (skipn index str) index = Some index).
  { destruct (skipn index str); cbn [find_from]; assert (starts_with (@nil Z) [] = true) by reflexivity.
    - reflexivity.
    - assert (starts_with (z :: l) [] = true) as -> by (apply starts_with_true; exists (z :: l); reflexivity). reflexivity. }
  rewrite E. cbn [length]. apply IH. unfold str_replace. rewrite !app_length, firstn_length_le, skipn_length by exact Hi. lia.
Qed.
(* deleting a character from a run of it *)
Lemma replaced_run c : forall n m, (m <= n)%nat -> replaced [c] [] 1 (repeat c m) (repeat c (Nat.div2 m)).
Proof.
  induction n as [|n IH]; intros m Hm.
  - assert (m = 0%nat) by lia. subst m. apply rep_none. apply no_occ_nil. discriminate.
  - destruct m as [|[|m]].
    + apply rep_none. apply no_occ_nil. discriminate.
    + cbn [repeat Nat.div2]. apply (rep_first [c] [] 1 [] [] []); [intros p H; cbn in H; lia|]. apply rep_none. apply no_occ_nil. discriminate.
    + cbn [repeat Nat.div2]. apply (rep_first [c] [] 1 [] (c :: repeat c m) (repeat c (Nat.div2 m))); [intros p H; cbn in H; lia|].
      cbn [skipn]. apply IH. lia.
Qed.
Lemma delete_run c n : replace_all (repeat c n) [c] [] = Ok (repeat c (Nat.div2 n)).
Proof.
  destruct (replace_all_spec (repeat c n) [c] []) as (t & E & H); [discriminate|cbn; lia|]. rewrite E. f_equal.
  apply (replaced_fun _ _ _ _ _ H). apply (replaced_run c n n). lia.
Qed.

(* ---------------- tokenize_string ---------------- *)
Lemma find_if_spec p s : forall i,
  match find_if p s i with
  | Some j => exists pre c post, s = pre ++ c :: post /\ j = (i + length pre)%nat /\ p c = true /\ Forall (fun c => p c = false) pre
  | None => Forall (fun c => p c = false) s
  end.
Proof.
  induction s as [|c s IH]; intros i; cbn [find_if]; [constructor|].
  destruct (p c) eqn:Ec.
  - exists [], c, s. cbn. splits; auto.
  - specialize (IH (S i)). destruct (find_if p s (S i)) as [j|].
    + destruct IH as (pre & d & post & -> & -> & Hd & Hpre). exists (c :: pre), d, post. cbn. splits; auto; lia.
    + constructor; assumption.
Qed.
Lemma is_in_true ds c : is_in ds c = true <-> In c ds.
Proof.
  unfold is_in. rewrite existsb_exists. split; [intros (x & Hx & E); apply Z.eqb_eq in E; congruence|].
  intros H. exists c. rewrite Z.eqb_refl. auto.
Qed.
Lemma is_in_false ds c : is_in ds c = false <-> ~ In c ds.
Proof. rewrite <- is_in_true. destruct (is_in ds c); split; congruence. Qed.
Lemma skipn_length_app {A} (a b : list A) : skipn (length a) (a ++ b) = b.
Proof. rewrite skipn_app, Nat.sub_diag, skipn_all. reflexivity. Qed.
Lemma token_loop_spec ds : forall fuel done rest tokens lp p, (length rest < fuel)%nat ->
  lp = find_if (fun c => negb (is_in ds c)) rest (length done) ->
  p = find_first_if (is_in ds) (done ++ rest) lp ->
  exists ts, token_loop fuel (done ++ rest) ds lp p tokens = Ok (tokens ++ ts) /\ runs (fun c => In c ds) rest ts.
Proof.
  induction fuel as [|fuel IH]; intros done rest tokens lp p Hl Hlp Hp; [lia|].
  pose proof (find_if_spec (fun c => negb (is_in ds c)) rest (length done)) as H1. rewrite <- Hlp in H1.
  destruct lp as [l|].
  - destruct H1 as (pre & c & post & -> & -> & Hc & Hpre).
    assert (Hpre' : Forall (fun c => In c ds) pre).
    { eapply Forall_impl; [|exact Hpre]. cbn. intros a Ha. apply negb_false_iff in Ha. apply is_in_true; exact Ha. }
    apply negb_true_iff in Hc.
    cbn [find_first_if] in Hp. rewrite <- app_length in *. rewrite (app_assoc done pre (c :: post)) in *. rewrite skipn_length_app in Hp.
    pose proof (find_if_spec (is_in ds) (c :: post) (length (done ++ pre))) as H2. rewrite <- Hp in H2.
    destruct p as [p|].
    + destruct H2 as (tok & e & post2 & E2 & -> & He & Htok). rewrite E2 in *. cbn [token_loop].
      replace (length (done ++ pre) + length tok - length (done ++ pre))%nat with (length tok) by lia.
      rewrite skipn_length_app. rewrite firstn_app, Nat.sub_diag, firstn_O, app_nil_r, firstn_all.
      assert (Hne : tok <> []) by (intros ->; cbn [app] in E2; injection E2 as -> _; congruence).
      rewrite <- (app_length (done ++ pre) tok).
      destruct (IH ((done ++ pre) ++ tok) (e :: post2) (tokens ++ [tok]) 
         (find_if (fun c => negb (is_in ds c)) (e :: post2) (length ((done ++ pre) ++ tok)))
         (find_first_if (is_in ds) (((done ++ pre) ++ tok) ++ e :: post2)
            (find_if (fun c => negb (is_in ds c)) (e :: post2) (length ((done ++ pre) ++ tok))))) as (ts & E & Hts); try reflexivity.
      { rewrite !app_length in Hl. destruct tok; [congruence|cbn [length] in *; lia]. }
      exists (tok :: ts). rewrite (app_assoc (done ++ pre) tok (e :: post2)) in *.
      assert (Ef : find_first_if (fun c0 => negb (is_in ds c0)) (((done ++ pre) ++ tok) ++ e :: post2) (Some (length ((done ++ pre) ++ tok)))
        = find_if (fun c => negb (is_in ds c)) (e :: post2) (length ((done ++ pre) ++ tok))).
      { cbn [find_first_if]. rewrite skipn_length_app. reflexivity. }
      rewrite Ef, E. split; [rewrite <- app_assoc; reflexivity|].
      apply runs_next; [exact Hpre'|exact Hne| | |exact Hts].
      * eapply Forall_impl; [|exact Htok]. cbn. intros a Ha. apply is_in_false; exact Ha.
      * right. exists e, post2. split; [reflexivity|]. apply is_in_true; exact He.
    + assert (Hf : (0 < fuel)%nat) by (rewrite app_length in Hl; cbn [length] in Hl; lia).
      destruct fuel as [|fuel]; [lia|]. cbn [find_first_if token_loop]. rewrite skipn_length_app.
      exists [c :: post]. split; [reflexivity|].
      rewrite <- (app_nil_r (c :: post)) at 1.
      apply runs_next; [exact Hpre'|discriminate| |left; reflexivity|apply runs_none; constructor].
      eapply Forall_impl; [|exact H2]. cbn. intros a Ha. apply is_in_false; exact Ha.
  - subst p. cbn [find_first_if token_loop]. exists []. rewrite app_nil_r. split; [reflexivity|]. apply runs_none.
    eapply Forall_impl; [|exact H1]. cbn. intros a Ha. apply negb_false_iff in Ha. apply is_in_true; exact Ha.
Qed.
Lemma tokenize_spec s tokens ds : exists ts, tokenize_string s tokens ds = Ok (tokens ++ ts) /\ runs (fun c => In c ds) s ts.
Proof.
  destruct (token_loop_spec ds (S (length s)) [] s tokens _ _ ltac:(lia) eq_refl eq_refl) as (ts & E & H). exists ts. split; [exact E|exact H].
Qed.
Lemma filter_none {A} (p : A -> bool) l : Forall (fun x => p x = false) l -> filter p l = [].
Proof. induction 1 as [|x l Hx _ IH]; cbn; [reflexivity|]. rewrite Hx. exact IH. Qed.
Lemma filter_all {A} (p : A -> bool) l : Forall (fun x => p x = true) l -> filter p l = l.
Proof. induction 1 as [|x l Hx _ IH]; cbn; [reflexivity|]. rewrite Hx, IH. reflexivity. Qed.
Lemma runs_accounts ds s ts : runs (fun c => In c ds) s ts ->
  concat ts = filter (fun c => negb (existsb (Z.eqb c) ds)) s /\ Forall (fun t => t <> [] /\ Forall (fun c => ~ In c ds) t) ts.
Proof.
  induction 1 as [s Hs|pre tok post ts Hpre Hne Htok _ _ [IH1 IH2]].
  - split; [|constructor]. symmetry. apply filter_none. eapply Forall_impl; [|exact Hs]. cbn. intros a Ha. apply negb_false_iff.
    change (is_in ds a = true). apply is_in_true; exact Ha.
  - split; [|constructor; auto]. cbn [concat]. rewrite !filter_app, IH1. rewrite (filter_none _ pre), (filter_all _ tok); [reflexivity| |].
    + eapply Forall_impl; [|exact Htok]. cbn. intros a Ha. apply negb_true_iff. change (is_in ds a = false). apply is_in_false; exact Ha.
    + eapply Forall_impl; [|exact Hpre]. cbn. intros a Ha. apply negb_false_iff. change (is_in ds a = true). apply is_in_true; exact Ha.
Qed.
Lemma less_ci_lex a : forall b, less_ci a b = true <->
    exists p, (exists x y a' b', map lower a = p ++ x :: a' /\ map lower b = p ++ y :: b' /\ x < y) \/
              (exists y b', map lower a = p /\ map lower b = p ++ y :: b').
Proof.
  induction a as [|x a IH]; intros [|y b]; cbn [less_ci map].
  - split; [discriminate|]. intros (p & [(u & v & a' & b' & E & _) | (v & b' & _ & E)]); destruct p; discriminate.
  - split; [|reflexivity]. intros _. exists []. right. exists (lower y), (map lower b). auto.
  - split; [discriminate|]. intros (p & [(u & v & a' & b' & _ & E & _) | (v & b' & _ & E)]); destruct p; discriminate.
  - destruct (Z.ltb_spec (lower x) (lower y)) as [H|H].
    { split; [|reflexivity]. intros _. exists []. left. exists (lower x), (lower y), (map lower a), (map lower b). auto. }
    destruct (Z.ltb_spec (lower y) (lower x)) as [H'|H'].
    + split; [discriminate|]. intros ([|c p] & [(u & v & a' & b' & E1 & E2 & Hl) | (v & b' & E1 & E2)]); cbn [app] in *; try discriminate.
      * injection E1 as E1 _. injection E2 as E2 _. lia.
      * injection E1 as E1 _. injection E2 as E2 _. lia.
      * injection E1 as E1 _. injection E2 as E2 _. lia.
    + assert (E : lower x = lower y) by lia. rewrite IH. split.
      * intros (p & [(u & v & a' & b' & E1 & E2 & Hl) | (v & b' & E1 & E2)]); exists (lower x :: p); cbn [app]; [left|right].
        -- exists u, v, a', b'. rewrite E1, E2, E. auto.
        -- exists v, b'. rewrite E1, E2, E. auto.
      * intros ([|c p] & [(u & v & a' & b' & E1 & E2 & Hl) | (v & b' & E1 & E2)]); cbn [app] in *; try discriminate.
        -- injection E1 as E1 _. injection E2 as E2 _. lia.
        -- injection E1 as _ E1. injection E2 as _ E2. exists p. left. exists u, v, a', b'. auto.
        -- injection E1 as _ E1. injection E2 as _ E2. exists p. right. exists v, b'. auto.
Qed.

(* an occurrence does not begin where its first character is missing *)
Lemma find_from_skip c f' u : ~ In c u -> forall s i,
  find_from (c :: f') (u ++ s) i = find_from (c :: f') s (i + length u).
Proof.
  induction u as [|x u IH]; intros Hc s i.
  - cbn [app length]. rewrite Nat.add_0_r. reflexivity.
  - cbn [app find_from]. assert (E : starts_with (x :: u ++ s) (c :: f') = false).
    { apply starts_with_false. intros q E. injection E as E _. apply Hc. left; exact E. }
    rewrite E, IH by (intros H; apply Hc; right; exact H). f_equal. cbn [length]. lia.
Qed.
Lemma replace_loop_longer c f' r : let f := c :: f' in (length f <= length r)%nat -> ~ In c (skipn (length f) r) -> forall fuel d u s,
  ~ In c u -> (length s < fuel)%nat ->
  exists t, replace_loop fuel (d ++ u ++ s) f r (length d) = Ok (d ++ u ++ t) /\ replaced f r 0 s t.
Proof.
  intros f Hr Hc. induction fuel as [|fuel IH]; intros d u s Hu Hs; [lia|]. cbn [replace_loop]. unfold str_find.
  destruct (Nat.leb_spec (length d) (length (d ++ u ++ s))) as [_|H]; [|rewrite app_length in H; lia].
  rewrite skipn_app, Nat.sub_diag, skipn_all. cbn [app]. rewrite skipn_O. unfold f at 1. rewrite find_from_skip by exact Hu. fold f.
  pose proof (find_from_spec f s (length d + length u)) as Hfind. destruct (find_from f s (length d + length u)) as [j|].
  - destruct Hfind as (pre & post & -> & -> & Hm).
    replace (d ++ u ++ pre ++ f ++ post) with ((d ++ u ++ pre) ++ f ++ post) by (rewrite <- !app_assoc; reflexivity).
    replace (length d + length u + length pre)%nat with (length (d ++ u ++ pre)) by (rewrite !app_length; lia).
    rewrite replace_at.
    destruct (IH ((d ++ u ++ pre) ++ firstn (length f) r) (skipn (length f) r) post Hc) as (t & E & Ht).
    { rewrite !app_length in Hs. cbn [f length] in Hs. lia. }
    exists (pre ++ r ++ firstn 0 post ++ t). split; [|apply rep_first; assumption].
    rewrite app_length, firstn_length_le in E by exact Hr. rewrite <- !app_assoc in E. rewrite (app_assoc (firstn (length f) r)), firstn_skipn in E.
    rewrite <- !app_assoc. rewrite E. rewrite (app_assoc (firstn (length f) r)), firstn_skipn. reflexivity.
  - exists s. split; [reflexivity|]. apply rep_none. exact Hfind.
Qed.
Lemma replace_all_longer s c f' r : let f := c :: f' in (length f <= length r)%nat -> ~ In c (skipn (length f) r) ->
  exists t, replace_all s f r = Ok t /\ replaced f r 0 s t.
Proof.
  intros f Hr Hc. destruct (replace_loop_longer c f' r Hr Hc (S (length s)) [] [] s) as (t & E & H); [intros []|lia|]. exists t. split; [exact E|exact H].
Qed.
