From Coq Require Import Floats.SpecFloat.
From Verif.Common Require Import Base Lemmas.
From Verif.Spec Require Import History DetectSpec.
From Verif.Model Require Import Debouncer Detect.
From Verif.Proofs Require Import History.

Ltac no_since := split; [discriminate|]; intros HH; exfalso; eapply since_nil; exact HH.

Lemma ago_snoc {A} (d : A) l x i : ago d (l ++ [x]) i = match i with O => x | S j => ago d l j end.
Proof. unfold ago. rewrite rev_app_distr. destruct i; reflexivity. Qed.
Lemma ago_nil {A} (d : A) i : ago d [] i = d.
Proof. unfold ago. destruct i; reflexivity. Qed.

(* ---------------- edges ---------------- *)
Lemma es_spec h : let s := after es_step es0 h in
  es_state s = ago false (since_reset h) 0 /\ es_last s = ago false (since_reset h) 1.
Proof.
  induction h as [|o h [I1 I2]] using rev_ind; cbv zeta in *; [split; reflexivity|].
  rewrite after_snoc. unfold since_reset in *. rewrite fold_left_app. cbn [fold_left].
  destruct o; cbn [es_step fst es_state es_last]; [|rewrite !ago_nil; split; reflexivity].
  rewrite !ago_snoc. split; [reflexivity|exact I1].
Qed.
Lemma rising_state bs : after rising_update false bs = ago false bs 0.
Proof. destruct bs as [|b bs] using rev_ind; [reflexivity|]. rewrite after_snoc, ago_snoc. reflexivity. Qed.
Lemma falling_state bs : after falling_update false bs = ago false bs 0.
Proof. destruct bs as [|b bs] using rev_ind; [reflexivity|]. rewrite after_snoc, ago_snoc. reflexivity. Qed.
Lemma rising_spec bs b : answer rising_update false bs b = true <-> b = true /\ ago false bs 0 = false.
Proof. unfold answer. rewrite rising_state. destruct b, (ago false bs 0); cbn; intuition congruence. Qed.
Lemma falling_spec bs b : answer falling_update false bs b = true <-> b = false /\ ago false bs 0 = true.
Proof. unfold answer. rewrite falling_state. destruct b, (ago false bs 0); cbn; intuition congruence. Qed.

(* ---------------- changes ---------------- *)
Lemma held_snoc {A} (v0 : A) h o : held v0 (h ++ [o]) = match o with VSet x => x | VChanged => held v0 h end.
Proof. unfold held. rewrite fold_left_app. reflexivity. Qed.
Lemma cd_spec h : let s := after cd_step cd0 h in
  cd_last s = held false h /\ (cd_changed s = true <-> since (changes false) asked h).
Proof.
  induction h as [|o h [I1 I2]] using rev_ind; cbv zeta in *; [split; [reflexivity|no_since]|].
  rewrite after_snoc, held_snoc, since_snoc, <- I2. unfold changes, asked. rewrite <- I1.
  destruct (after cd_step cd0 h) as [l c]. cbn [cd_last cd_changed cd_step]. destruct o as [b|].
  - cbn [fst cd_step cd_last]. destruct (Bool.eqb l b) eqn:E; cbn [negb cd_last cd_changed].
    + apply eqb_prop in E. subst b. split; [reflexivity|]. split; [intros ->; right; split; [reflexivity|discriminate]|].
      intros [(x & E & D) | [D _]]; [injection E as <-; congruence|exact D].
    + apply eqb_false_iff in E. split; [reflexivity|]. split; [intros _; left; exists b; split; congruence|reflexivity].
  - destruct c; cbn [fst cd_step cd_last cd_changed]; (split; [reflexivity|]); (split; [discriminate|]); intros [(x & E & _) | [D1 D2]]; congruence.
Qed.
Lemma cd_answer h : answer cd_step cd0 h VChanged = true <-> since (changes false) asked h.
Proof. destruct (cd_spec h) as [_ H]. cbv zeta in H. rewrite <- H. unfold answer. destruct (after cd_step cd0 h) as [l c]. destruct c; cbn; split; auto. Qed.

Lemma pa_spec v0 h : let s := after pa_step (pa_init v0) h in
  pa_val s = held v0 h /\ (pa_changed s = true <-> ~ In VChanged h \/ since (changes v0) asked h).
Proof.
  induction h as [|o h [I1 I2]] using rev_ind; cbv zeta in *; [split; [reflexivity|]; cbn; tauto|].
  rewrite after_snoc, held_snoc, since_snoc. unfold changes, asked. rewrite <- I1.
  assert (HI : In VChanged (h ++ [o]) <-> In VChanged h \/ o = VChanged).
  { rewrite in_app_iff. cbn. intuition. }
  rewrite HI. clear HI. unfold changes, asked in I2.
  destruct (after pa_step (pa_init v0) h) as [l c]. cbn [pa_val pa_changed pa_step] in *. destruct o as [x|].
  - cbn [fst pa_step pa_val]. destruct (Z.eqb_spec x l) as [->|E]; cbn [negb pa_val pa_changed].
    + split; [reflexivity|]. rewrite I2. split.
      * intros [H|H]; [left; intros [|]; [tauto|discriminate]|right; right; split; [exact H|discriminate]].
      * intros [H | [(y & E & D) | [H _]]]; [left; tauto|injection E as <-; congruence|right; exact H].
    + split; [reflexivity|]. split; [intros _; right; left; exists x; split; congruence|reflexivity].
  - cbn [fst pa_step pa_val pa_changed]. split; [reflexivity|]. split; [discriminate|].
    intros [H | [(y & E & D) | [_ H]]]; [exfalso; tauto|discriminate|congruence].
Qed.
Lemma pa_answer v0 h : answer pa_step (pa_init v0) h VChanged = true <-> ~ In VChanged h \/ since (changes v0) asked h.
Proof. destruct (pa_spec v0 h) as [_ H]. cbv zeta in H. rewrite <- H. unfold answer. destruct (after _ _ h) as [l c]. reflexivity. Qed.

Lemma query_snoc {A} (v0 z : A) h o : at_last_query v0 z (h ++ [o]) = match o with VSet x => at_last_query v0 z h | VChanged => held v0 h end.
Proof.
  unfold at_last_query, held. rewrite fold_left_app. cbn [fold_left].
  assert (E : forall (h : list (vop A)) (v q : A), fst (fold_left (fun '(v, q) o => match o with VSet x => (x, q) | VChanged => (v, v) end) h (v, q))
    = fold_left (fun v o => match o with VSet x => x | VChanged => v end) h v).
  { clear. induction h as [|o h IH]; intros v q; [reflexivity|]. cbn [fold_left]. destruct o; apply IH. }
  specialize (E h v0 z). destruct (fold_left _ h (v0, z)) as [v q]. cbn [fst] in E. subst v. destruct o; reflexivity.
Qed.
Lemma rp_spec v0 h : let s := after rp_step (rp_init v0) h in
  rp_var s = held v0 h /\ rp_last s = at_last_query v0 0 h.
Proof.
  induction h as [|o h [I1 I2]] using rev_ind; cbv zeta in *; [split; reflexivity|].
  rewrite after_snoc, held_snoc, query_snoc. destruct (after rp_step (rp_init v0) h) as [v l]. cbn [rp_var rp_last rp_step] in *.
  destruct o as [x|]; [cbn; auto|]. cbn [rp_step rp_var rp_last]. destruct (Z.eqb_spec v l); cbn; split; congruence.
Qed.
Lemma rp_answer v0 h : answer rp_step (rp_init v0) h VChanged = true <-> held v0 h <> at_last_query v0 0 h.
Proof.
  destruct (rp_spec v0 h) as [H1 H2]. cbv zeta in *. rewrite <- H1, <- H2. unfold answer. destruct (after _ _ h) as [v l]. cbn.
  destruct (Z.eqb_spec v l); cbn; split; congruence.
Qed.

(* ---------------- LatchedParam ---------------- *)
Lemma lp_spec num denom h : let s := after (lp_step num denom) lp0 h in let m := num / denom in
  lp_val s = latched m h /\ (lp_changed s = true <-> since (accepts m) did h).
Proof.
  cbv zeta. set (m := num / denom). induction h as [|o h [I1 I2]] using rev_ind; [split; [reflexivity|no_since]|].
  rewrite after_snoc, since_snoc, <- I2. unfold latched in *. rewrite fold_left_app. cbn [fold_left].
  unfold accepts, did, latched. rewrite <- I1.
  destruct (after (lp_step num denom) lp0 h) as [v c]. cbn [lp_val lp_changed lp_step]. destruct o as [x| |x].
  - cbn [lp_step lp_val]. unfold min_change. fold m. assert (E : (if x >=? v then x - v else v - x) = Z.abs (x - v)) by (rewrite Z.geb_leb; destruct (Z.leb_spec v x); lia).
    rewrite E, Z.geb_leb. destruct (Z.leb_spec m (Z.abs (x - v))) as [H|H]; cbn [fst lp_val lp_changed]; (split; [reflexivity|]).
    + split; [intros _; left; exists x; split; [reflexivity|exact H]|reflexivity].
    + split; [intros ->; right; split; [reflexivity|discriminate]|]. intros [(y & E' & D) | [D _]]; [injection E' as <-; lia|exact D].
  - destruct c; cbn [fst lp_step lp_val lp_changed]; (split; [reflexivity|]); (split; [discriminate|]); intros [(y & E & _) | [D1 D2]]; congruence.
  - cbn [fst lp_step lp_val lp_changed]. split; [reflexivity|]. split; [intros ->; right; split; [reflexivity|discriminate]|]. intros [(y & E' & D) | [D _]]; [discriminate|exact D].
Qed.
Lemma lp_answers num denom h x : let m := num / denom in
  (answer (lp_step num denom) lp0 h (LStore x) = true <-> m <= Z.abs (x - latched m h)) /\
  (answer (lp_step num denom) lp0 h LDid = true <-> since (accepts m) did h).
Proof.
  cbv zeta. destruct (lp_spec num denom h) as [H1 H2]. cbv zeta in *. rewrite <- H2, <- H1. unfold answer.
  destruct (after (lp_step num denom) lp0 h) as [v c]. cbn [lp_val lp_changed lp_step]. unfold min_change. split.
  - assert (E : (if x >=? v then x - v else v - x) = Z.abs (x - v)) by (rewrite Z.geb_leb; destruct (Z.leb_spec v x); lia).
    rewrite E, Z.geb_leb. destruct (Z.leb_spec (num / denom) (Z.abs (x - v))); cbn; split; auto; try lia; discriminate.
  - destruct c; cbn; split; auto.
Qed.

(* ---------------- Schmitt triggers ---------------- *)
Lemma SFcompare_trans_lt x y z : SFltb x y = true -> SFltb y z = true -> SFltb x z = true.
Proof.
  unfold SFltb.
  destruct x as [sx|sx| |sx mx ex], y as [sy|sy| |sy my ey], z as [sz|sz| |sz mz ez]; cbn;
    repeat match goal with |- context [if ?s then _ else _] => is_var s; destruct s end; try discriminate; try reflexivity; cbn;
    repeat match goal with |- context [Z.compare ?a ?b] => let E := fresh "E" in destruct (Z.compare_spec a b) as [E|E|E] end; subst; cbn; try discriminate; try reflexivity; try lia;
    repeat match goal with |- context [Pos.compare_cont Eq ?a ?b] => change (Pos.compare_cont Eq a b) with (Pos.compare a b); let E := fresh "E" in destruct (Pos.compare_spec a b) as [E|E|E] end;
    subst; cbn; try discriminate; try reflexivity; try lia.
Qed.
Lemma SFltb_leb x y : SFleb x y = true -> SFltb y x = false.
Proof.
  unfold SFltb, SFleb. destruct x as [sx|sx| |sx mx ex], y as [sy|sy| |sy my ey]; cbn;
    repeat match goal with |- context [if ?s then _ else _] => is_var s; destruct s end; try discriminate; try reflexivity; cbn;
    rewrite (Z.compare_antisym ex ey); destruct (Z.compare_spec ex ey); cbn; try discriminate; try reflexivity;
    change (Pos.compare_cont Eq mx my) with (Pos.compare mx my); change (Pos.compare_cont Eq my mx) with (Pos.compare my mx); rewrite (Pos.compare_antisym mx my); destruct (Pos.compare_spec mx my); cbn; try discriminate; reflexivity.
Qed.
Section Schmitt.
Variables low high : spec_float.
Hypothesis Hlh : SFleb low high = true.
Lemma not_both v : SFltb high v = true -> SFltb v low = true -> False.
Proof. intros H1 H2. pose proof (SFltb_leb _ _ Hlh). rewrite (SFcompare_trans_lt high v low H1 H2) in H. discriminate. Qed.
Notation step := (st_step low high).
Lemma st_spec h : let t := after step tog0 h in
  (is_high t = true <-> gate_high low high h) /\
  (got_rise t = true <-> since (gate_rises low high) (fun p o => o = SPressed \/ gate_falls low high p o) h) /\
  (got_fall t = true <-> since (gate_falls low high) (fun p o => o = SReleased \/ gate_rises low high p o) h).
Proof.
  induction h as [|o h (I1 & I2 & I3)] using rev_ind; cbv zeta in *; [splits; no_since|].
  rewrite after_snoc, !since_snoc, <- I2, <- I3. unfold gate_high in I1 |- *. rewrite since_snoc. unfold gate_rises, gate_falls. unfold gate_high. rewrite <- I1.
  destruct (after step tog0 h) as [l r f]. cbn [is_high got_rise got_fall st_step]. destruct o as [v| |].
  - cbn [fst st_step]. unfold st_process. cbn [is_high].
    assert (EA : above high h (SSample v) <-> SFltb high v = true).
    { unfold above. split; [intros (w & E & H); injection E as <-; exact H|eauto]. }
    assert (EB : below low h (SSample v) <-> SFltb v low = true).
    { unfold below. split; [intros (w & E & H); injection E as <-; exact H|eauto]. }
    rewrite EA, EB. pose proof (not_both v) as NB. destruct (SFltb high v), (SFltb v low); try (exfalso; apply NB; reflexivity);
      destruct l; cbn [negb andb register_rising_edge register_falling_edge is_high got_rise got_fall]; splits; intuition congruence.
  - assert (EA : ~ above high h SPressed) by (intros (w & E & H); discriminate).
    assert (EB : ~ below low h SPressed) by (intros (w & E & H); discriminate).
    cbn [st_step]. unfold is_just_pressed. cbn [got_rise]. destruct r; cbn [fst is_high got_rise got_fall]; splits; intuition congruence.
  - assert (EA : ~ above high h SReleased) by (intros (w & E & H); discriminate).
    assert (EB : ~ below low h SReleased) by (intros (w & E & H); discriminate).
    cbn [st_step]. unfold is_just_released. cbn [got_fall]. destruct f; cbn [fst is_high got_rise got_fall]; splits; intuition congruence.
Qed.
Lemma st_answers h :
  (answer step tog0 h SPressed = true <-> since (gate_rises low high) (fun p o => o = SPressed \/ gate_falls low high p o) h) /\
  (answer step tog0 h SReleased = true <-> since (gate_falls low high) (fun p o => o = SReleased \/ gate_rises low high p o) h).
Proof.
  destruct (st_spec h) as (_ & H2 & H3). cbv zeta in *. rewrite <- H2, <- H3. unfold answer.
  destruct (after step tog0 h) as [l r f]. destruct r, f; cbn; auto 10; split; split; auto; discriminate.
Qed.
Lemma rst_spec vs : after (rst_update low high) false vs = true <-> gate_high low high (map SSample vs).
Proof.
  induction vs as [|v vs IH] using rev_ind; [no_since|]. rewrite after_snoc, map_app. cbn [map]. unfold gate_high in *. rewrite since_snoc, <- IH.
  assert (EA : above high (map SSample vs) (SSample v) <-> SFltb high v = true).
  { unfold above. split; [intros (w & E & H); injection E as <-; exact H|eauto]. }
  assert (EB : below low (map SSample vs) (SSample v) <-> SFltb v low = true).
  { unfold below. split; [intros (w & E & H); injection E as <-; exact H|eauto]. }
  rewrite EA, EB. pose proof (not_both v) as NB.
  destruct (after (rst_update low high) false vs); unfold rst_update; destruct (SFltb high v), (SFltb v low); try (exfalso; apply NB; reflexivity); cbn; intuition congruence.
Qed.
Lemma rst_answer vs v : answer (rst_update low high) false vs v = true <-> gate_rises low high (map SSample vs) (SSample v).
Proof.
  unfold answer, gate_rises. rewrite <- rst_spec.
  assert (EA : above high (map SSample vs) (SSample v) <-> SFltb high v = true).
  { unfold above. split; [intros (w & E & H); injection E as <-; exact H|eauto]. }
  rewrite EA. destruct (after (rst_update low high) false vs); unfold rst_update; destruct (SFltb high v), (SFltb v low); cbn; intuition congruence.
Qed.
End Schmitt.
Lemma st_quiet low high t vs : Forall (fun v => SFltb high v = false /\ SFltb v low = false) vs ->
  after (st_step low high) t (map SSample vs) = t /\
  (forall last, after (rst_update low high) last vs = last /\ Forall (fun r => r = false) (snd (srun (rst_update low high) last vs))).
Proof.
  intros H. split.
  - induction vs as [|v vs IH] using rev_ind; [reflexivity|]. apply Forall_app in H as [H1 H2]. inversion H2 as [|? ? [A B]]; subst.
    rewrite map_app. cbn [map]. rewrite after_snoc, IH by exact H1. cbn [st_step fst]. unfold st_process. rewrite A, B, !andb_false_r. reflexivity.
  - intros last. unfold after. induction H as [|v vs [A B] H IH]; [cbn; auto|]. cbn [srun].
    assert (E : rst_update low high last v = (last, false)) by (unfold rst_update; rewrite A, B, !andb_false_r; reflexivity).
    rewrite E. destruct (srun (rst_update low high) last vs). cbn in *. destruct IH. auto.
Qed.
