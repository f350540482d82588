From Verif.Common Require Import Base Lemmas.
From Verif.Spec Require Import History ButtonSpec.
From Verif.Model Require Import Debouncer.
From Verif.Proofs Require Import History.

Lemma level_snoc h o : level (h ++ [o]) = level_step (level h) o.
Proof. unfold level. rewrite fold_left_app. reflexivity. Qed.

Lemma toggler_spec h : let t := after tog_step tog0 h in
  is_high t = level h /\ (got_rise t = true <-> press_pending h) /\ (got_fall t = true <-> release_pending h).
Proof.
  induction h as [|o h IH] using rev_ind; cbv zeta in *.
  - rewrite after_nil. cbn. splits; try reflexivity; (split; [discriminate|]); intros H; exfalso; eapply since_nil; exact H.
  - rewrite after_snoc, level_snoc. unfold press_pending, release_pending in *. rewrite !since_snoc.
    destruct IH as (IH1 & IH2 & IH3). rewrite <- IH2, <- IH3, <- IH1. clear.
    destruct (after tog_step tog0 h) as [l r f].
    destruct o as [b| | |b| | | | ]; cbn [tog_step fst is_high got_rise got_fall level_step];
      unfold register_state, is_just_pressed, is_just_released, set_state_no_events, clear_events, reset, register_rising_edge, register_falling_edge; cbn [is_high got_rise got_fall];
      repeat match goal with b : bool |- _ => destruct b end; cbn [Bool.eqb is_high got_rise got_fall fst Z.eqb negb];
      intuition (try discriminate; try congruence).
Qed.

Lemma transfer_spec t other :
  let (t', other') := transfer_events t other in
  is_high t' = is_high other /\ got_rise other' = false /\ got_fall other' = false /\ is_high other' = is_high other /\
  got_fall t' = got_fall t || got_fall other /\
  got_rise t' = got_rise t || (got_rise other && negb (got_fall other)).
Proof. destruct t as [l r f], other as [l' r' f']. destruct r, f, r', f'; cbn; auto 10. Qed.

(* ---------------- TogglerCounter ---------------- *)
Definition tc_run (bs : list Z) : tcounter := fold_left tc_register bs tc0.
Definition zb (b : bool) : Z := if b then 1 else 0.
Lemma tc_spec bs : let t := tc_run (map zb bs) in
  tc_tog t = after tog_step tog0 (map TReg bs) /\ tc_steady t = repeats bs mod 2 ^ 32.
Proof.
  cbv zeta. assert (H : let t := tc_run (map zb bs) in tc_tog t = after tog_step tog0 (map TReg bs) /\ tc_steady t = repeats bs mod 2 ^ 32 /\
    is_high (tc_tog t) = match rev bs with c :: _ => c | [] => false end).
  { cbv zeta. induction bs as [|b bs (IH1 & IH2 & IH3)] using rev_ind; [splits; reflexivity|].
    unfold tc_run in *. rewrite !map_app, fold_left_app. cbn [map fold_left]. rewrite after_snoc.
    set (t := fold_left tc_register (map zb bs) tc0) in *. rewrite <- IH1. unfold repeats in *. rewrite rev_app_distr. cbn [rev app repeats_rev].
    rewrite <- IH3. unfold tc_register. destruct t as [[l r f] c]. cbn [tc_tog tc_steady is_high got_rise got_fall tog_step fst] in *.
    unfold register_state. cbn [is_high got_rise got_fall].
    destruct b, l; cbn [zb Z.eqb Bool.eqb negb is_high tc_tog tc_steady]; rewrite ?IH2; splits; try reflexivity; unfold word; rewrite Zplus_mod_idemp_l; reflexivity. }
  destruct H as (H1 & H2 & _). auto.
Qed.
Lemma tc_big t x : 2 <= x -> let t' := tc_register t x in got_rise (tc_tog t') = true /\ is_high (tc_tog t') = true /\ tc_steady t' = 0.
Proof.
  intros Hx. unfold tc_register. destruct (Z.eqb_spec x (if is_high (tc_tog t) then 1 else 0)) as [E|_]; [destruct (is_high _); lia|].
  destruct (Z.eqb_spec x 0); [lia|]. cbn. auto.
Qed.

(* ---------------- Debouncer ---------------- *)
Section Deb.
Variables (Rising Falling : Z) (n : nat) (raw : bool).
Hypotheses (Hn : (n <= 32)%nat).
Let mask := 2 ^ Z.of_nat n - 1.
Notation step := (deb_step Rising Falling mask raw).

Lemma mask_ones : mask = Z.ones (Z.of_nat n).
Proof. unfold mask. rewrite Z.ones_equiv. lia. Qed.
Lemma recent_snoc bs b i : recent (bs ++ [b]) i = match i with O => b | S j => recent bs j end.
Proof. unfold recent. rewrite rev_app_distr. destruct i; reflexivity. Qed.

Definition holds (s : Z) (bs : list bool) : Prop :=
  0 <= s < 2 ^ Z.of_nat n /\ forall i, (i < n)%nat -> Z.testbit s (Z.of_nat i) = recent bs i.
Lemma testbit_zb b i : Z.testbit (zb b) i = b && (i =? 0).
Proof. destruct b; cbn [zb andb]; [|apply Z.bits_0]. destruct (Z.eqb_spec i 0) as [->|]; [reflexivity|]. destruct (Z_lt_dec i 0); [apply Z.testbit_neg_r; lia|]. change 1 with (2 ^ 0). apply Z.pow2_bits_false. lia. Qed.
Lemma holds_step s bs b : holds s bs ->
  holds (Z.land (Z.lor (word 32 (Z.shiftl s 1)) (zb b)) mask) (bs ++ [b]).
Proof.
  intros [Hs Hb]. rewrite mask_ones, Z.land_ones by lia. split; [apply Z.mod_pos_bound, Z.pow_pos_nonneg; lia|].
  intros i Hi. rewrite Z.mod_pow2_bits_low by lia. rewrite Z.lor_spec, testbit_zb. unfold word. rewrite Z.mod_pow2_bits_low by lia.
  rewrite recent_snoc. destruct i as [|j].
  - rewrite Z.shiftl_spec_low by lia. cbn. apply andb_true_r.
  - rewrite Z.shiftl_spec by lia. replace (Z.of_nat (S j) - 1) with (Z.of_nat j) by lia. rewrite Hb by lia.
    destruct (Z.eqb_spec (Z.of_nat (S j)) 0); [lia|]. rewrite andb_false_r, orb_false_r. reflexivity.
Qed.
Lemma holds_match s bs p : holds s bs -> ((s =? Z.land p mask) = true <-> matches n p bs).
Proof.
  intros [Hs Hb]. rewrite Z.eqb_eq, mask_ones, Z.land_ones by lia. unfold matches. split.
  - intros E i Hi. rewrite <- Hb by exact Hi. rewrite E. apply Z.mod_pow2_bits_low. lia.
  - intros H. apply Z.bits_inj'. intros k Hk. destruct (Z_lt_dec k (Z.of_nat n)).
    + rewrite Z.mod_pow2_bits_low by lia. replace k with (Z.of_nat (Z.to_nat k)) by lia. rewrite Hb, H by lia. reflexivity.
    + rewrite Z.mod_pow2_bits_high by lia. rewrite <- (Z.mod_small s (2 ^ Z.of_nat n)) by exact Hs. apply Z.mod_pow2_bits_high. lia.
Qed.
Lemma samples_snoc h o : samples (h ++ [o]) = samples h ++ match o with DReg b => [b] | _ => [] end.
Proof. unfold samples. rewrite flat_map_app. cbn. rewrite app_nil_r. reflexivity. Qed.

Lemma matches_dec p bs : matches n p bs \/ ~ matches n p bs.
Proof.
  destruct (forallb (fun i => Bool.eqb (recent bs i) (Z.testbit p (Z.of_nat i))) (seq 0 n)) eqn:E; [left|right].
  - intros i Hi. rewrite forallb_forall in E. apply eqb_prop, E, in_seq. lia.
  - intros H. assert (forallb (fun i => Bool.eqb (recent bs i) (Z.testbit p (Z.of_nat i))) (seq 0 n) = true); [|congruence].
    apply forallb_forall. intros i Hi. apply in_seq in Hi. rewrite H by lia. apply eqb_reflx.
Qed.
Lemma deb_spec h : let d := after step deb0 h in
  holds (deb_state d) (samples h) /\
  (got_rise (deb_tog d) = true <-> since (rises n Rising) (fun p o => o = DPressed \/ falls n Rising Falling p o) h) /\
  (got_fall (deb_tog d) = true <-> since (falls n Rising Falling) (fun p o => o = DReleased \/ rises n Rising p o) h) /\
  (raw = true -> (is_high (deb_tog d) = true <-> since (rises n Rising) (falls n Rising Falling) h)).
Proof.
  induction h as [|o h IH] using rev_ind; cbv zeta in *.
  - rewrite after_nil. cbn. splits.
    + assert (0 < 2 ^ Z.of_nat n) by (apply Z.pow_pos_nonneg; lia). split; [lia|]. intros i Hi. rewrite Z.bits_0. unfold recent. destruct i; reflexivity.
    + split; [discriminate|]. intros H; exfalso; eapply since_nil; exact H.
    + split; [discriminate|]. intros H; exfalso; eapply since_nil; exact H.
    + intros _. split; [discriminate|]. intros H; exfalso; eapply since_nil; exact H.
  - rewrite after_snoc, samples_snoc, !since_snoc. destruct IH as (I1 & I2 & I3 & I4). rewrite <- I2, <- I3.
    destruct (after step deb0 h) as [[l r f] s c]. cbn [deb_tog deb_state deb_steady got_rise got_fall is_high] in *.
    destruct o as [b| |].
    + cbn [deb_step fst]. change (if b then 1 else 0) with (zb b). pose proof (holds_step s (samples h) b I1) as Hs.
      unfold deb_register. cbn [deb_state deb_tog]. set (s' := Z.land (Z.lor (word 32 (Z.shiftl s 1)) (zb b)) mask) in *.
      pose proof (holds_match s' _ Rising Hs) as MR. pose proof (holds_match s' _ Falling Hs) as MF.
      assert (ER : rises n Rising h (DReg b) <-> (s' =? Z.land Rising mask) = true).
      { rewrite MR. unfold rises. split; [intros (b' & E & H); injection E as <-; exact H|]. intros H. exists b. auto. }
      assert (EF : falls n Rising Falling h (DReg b) <-> ((s' =? Z.land Falling mask) = true /\ (s' =? Z.land Rising mask) <> true)).
      { rewrite MF, MR. unfold falls. split; [intros (b' & E & H); injection E as <-; exact H|]. intros H. exists b. auto. }
      rewrite ER, EF. destruct (s' =? Z.land Rising mask) eqn:E1; [|destruct (s' =? Z.land Falling mask) eqn:E2];
        cbn [deb_state deb_tog register_rising_edge register_falling_edge got_rise got_fall is_high].
      * splits; [exact Hs|intuition congruence|intuition congruence|intros _; intuition congruence].
      * splits; [exact Hs|intuition congruence|intuition congruence|intros _; intuition congruence].
      * destruct raw; cbn [set_state_no_events got_rise got_fall is_high]; splits; try exact Hs; try (intuition congruence).
    + assert (ER : ~ rises n Rising h DPressed) by (intros (b & E & _); discriminate).
      assert (EF : ~ falls n Rising Falling h DPressed) by (intros (b & E & _); discriminate).
      rewrite app_nil_r. cbn [deb_step fst deb_tog]. unfold is_just_pressed. cbn [got_rise got_fall is_high].
      destruct r; cbn [fst deb_tog deb_state got_rise got_fall is_high]; splits; try exact I1; try (intuition congruence); intros Hr; specialize (I4 Hr); intuition congruence.
    + assert (ER : ~ rises n Rising h DReleased) by (intros (b & E & _); discriminate).
      assert (EF : ~ falls n Rising Falling h DReleased) by (intros (b & E & _); discriminate).
      rewrite app_nil_r. cbn [deb_step fst deb_tog]. unfold is_just_released. cbn [got_rise got_fall is_high].
      destruct f; cbn [fst deb_tog deb_state got_rise got_fall is_high]; splits; try exact I1; try (intuition congruence); intros Hr; specialize (I4 Hr); intuition congruence.
Qed.
Lemma deb_raw h : raw = false -> (0 < n)%nat -> Z.odd Rising = true -> Z.odd Falling = false ->
  is_high (deb_tog (after step deb0 h)) = recent (samples h) 0.
Proof.
  intros Hraw H0 HR HF. induction h as [|o h IH] using rev_ind; [reflexivity|].
  pose proof (deb_spec h) as (I1 & _). cbv zeta in I1. rewrite after_snoc, samples_snoc.
  destruct (after step deb0 h) as [[l r f] s c]. cbn [deb_tog deb_state is_high] in *. destruct o as [b| |].
  - cbn [deb_step fst]. change (if b then 1 else 0) with (zb b). pose proof (holds_step s (samples h) b I1) as Hs.
    rewrite recent_snoc. unfold deb_register. cbn [deb_state deb_tog]. set (s' := Z.land (Z.lor (word 32 (Z.shiftl s 1)) (zb b)) mask) in *.
    pose proof (holds_match s' _ Rising Hs) as MR. pose proof (holds_match s' _ Falling Hs) as MF.
    assert (HH : forall p, matches n p (samples h ++ [b]) -> b = Z.odd p).
    { intros p M. specialize (M 0%nat H0). rewrite recent_snoc in M. rewrite M. apply Z.bit0_odd. }
    destruct (s' =? Z.land Rising mask); [|destruct (s' =? Z.land Falling mask)]; cbn [deb_tog is_high register_rising_edge register_falling_edge].
    + rewrite (HH Rising), HR by (apply MR; reflexivity). reflexivity.
    + rewrite (HH Falling), HF by (apply MF; reflexivity). reflexivity.
    + rewrite Hraw. cbn. destruct b; reflexivity.
  - rewrite app_nil_r. cbn [deb_step fst deb_tog]. unfold is_just_pressed. cbn [got_rise]. destruct r; cbn; exact IH.
  - rewrite app_nil_r. cbn [deb_step fst deb_tog]. unfold is_just_released. cbn [got_fall]. destruct f; cbn; exact IH.
Qed.
End Deb.

(* default patterns: two edges are at least 11 samples apart *)
Lemma default_bits : forall i, (0 < i < 12)%nat -> Z.testbit 1 (Z.of_nat i) = false /\ Z.testbit 4294967294 (Z.of_nat i) = true.
Proof. intros i Hi. do 12 (destruct i as [|i]; [try lia; split; reflexivity|]). lia. Qed.
Definition default_edge (bs : list bool) : Prop := matches 12 1 bs \/ matches 12 4294967294 bs.
Lemma recent_app bs cs i : recent (bs ++ cs) (length cs + i) = recent bs i.
Proof. unfold recent. rewrite rev_app_distr, app_nth2; rewrite rev_length; [f_equal; lia|lia]. Qed.
Lemma default_spacing bs cs : default_edge bs -> cs <> [] -> default_edge (bs ++ cs) -> (11 <= length cs)%nat.
Proof.
  intros H1 Hne H2. destruct (Nat.le_gt_cases 11 (length cs)) as [|L]; [assumption|exfalso].
  assert (Hl : (0 < length cs)%nat) by (destruct cs; [congruence|cbn; lia]).
  assert (D : recent bs 0 <> recent bs 1).
  { destruct H1 as [H|H]; pose proof (H 0%nat ltac:(lia)) as A; pose proof (H 1%nat ltac:(lia)) as B; rewrite A, B; discriminate. }
  apply D. rewrite <- (recent_app bs cs 0), <- (recent_app bs cs 1).
  destruct H2 as [H|H]; rewrite (H (length cs + 0)%nat), (H (length cs + 1)%nat) by lia;
    destruct (default_bits (length cs + 0)) as [A1 A2], (default_bits (length cs + 1)) as [B1 B2]; try lia; congruence.
Qed.
(* a single glitch after 11 steady samples is an edge *)
Lemma default_glitch (bs : list bool) : matches 12 4294967294 (bs ++ repeat true 11 ++ [false]) /\ matches 12 1 (bs ++ repeat false 11 ++ [true]).
Proof.
  unfold matches, recent. split; intros i Hi; rewrite rev_app_distr, app_nth1 by (cbn; lia);
    do 12 (destruct i as [|i]; [reflexivity|]); lia.
Qed.

Lemma default_spacing_calls h1 o1 h2 o2 :
  (rises 12 1 h1 o1 \/ falls 12 1 4294967294 h1 o1) ->
  (rises 12 1 (h1 ++ o1 :: h2) o2 \/ falls 12 1 4294967294 (h1 ++ o1 :: h2) o2) -> 10 <= zlen (samples h2).
Proof.
  assert (D : forall h o, rises 12 1 h o \/ falls 12 1 4294967294 h o -> exists b, o = DReg b /\ default_edge (samples h ++ [b])).
  { intros h o [(b & E & H) | (b & E & H & _)]; exists b; (split; [exact E|]); [left|right]; exact H. }
  intros H1 H2. apply D in H1 as (b & -> & H1). apply D in H2 as (c & -> & H2).
  assert (E : samples (h1 ++ DReg b :: h2) ++ [c] = (samples h1 ++ [b]) ++ (samples h2 ++ [c])).
  { unfold samples. rewrite flat_map_app. cbn [flat_map]. rewrite <- !app_assoc. reflexivity. }
  rewrite E in H2. assert (L : (11 <= length (samples h2 ++ [c]))%nat) by (apply (default_spacing _ _ H1); [destruct (samples h2); discriminate|exact H2]).
  rewrite app_length in L. cbn in L. unfold zlen. lia.
Qed.
Lemma samples_regs bs : samples (map DReg bs) = bs.
Proof. induction bs as [|b bs IH]; [reflexivity|]. cbn. f_equal. exact IH. Qed.
Lemma default_glitch_calls raw h :
  let step := deb_step 1 4294967294 4095 raw in
  answer step deb0 (h ++ map DReg (repeat false 11) ++ [DReg true]) DPressed = true /\
  answer step deb0 (h ++ map DReg (repeat true 11) ++ [DReg false]) DReleased = true.
Proof.
  cbv zeta. unfold answer. change 4095 with (2 ^ Z.of_nat 12 - 1).
  set (step := deb_step 1 4294967294 (2 ^ Z.of_nat 12 - 1) raw).
  assert (HP : forall d, got_rise (deb_tog d) = true -> snd (step d DPressed) = true)
    by (intros [[l r f] s c]; cbn; intros ->; reflexivity).
  assert (HR : forall d, got_fall (deb_tog d) = true -> snd (step d DReleased) = true)
    by (intros [[l r f] s c]; cbn; intros ->; reflexivity).
  split.
  - apply HP. eapply (proj1 (proj2 (deb_spec 1 4294967294 12 raw ltac:(lia) _))). rewrite app_assoc. apply since_snoc. left. exists true. split; [reflexivity|].
    unfold samples. rewrite flat_map_app. fold samples. change (flat_map _ (map DReg (repeat false 11))) with (repeat false 11). rewrite <- app_assoc. apply default_glitch.
  - apply HR. eapply (proj1 (proj2 (proj2 (deb_spec 1 4294967294 12 raw ltac:(lia) _)))). rewrite app_assoc. apply since_snoc. left. exists false. split; [reflexivity|].
    unfold samples. rewrite flat_map_app. change (flat_map _ (map DReg (repeat true 11))) with (repeat true 11). rewrite <- app_assoc.
    split; [apply default_glitch|]. intros M. specialize (M 0%nat ltac:(lia)). rewrite app_assoc, recent_snoc in M. discriminate.
Qed.

(* reports of the three reading calls *)
Lemma deb_answers R F n raw h : (n <= 32)%nat -> let step := deb_step R F (2 ^ Z.of_nat n - 1) raw in
  (answer step deb0 h DPressed = true <-> since (rises n R) (fun p o => o = DPressed \/ falls n R F p o) h) /\
  (answer step deb0 h DReleased = true <-> since (falls n R F) (fun p o => o = DReleased \/ rises n R p o) h).
Proof.
  intros Hn step. destruct (deb_spec R F n raw Hn h) as (_ & H1 & H2 & _). fold step in H1, H2. unfold answer.
  rewrite <- H1, <- H2. destruct (after step deb0 h) as [[l r f] s c]. destruct r, f; cbn; split; split; auto; discriminate.
Qed.
Lemma deb_process_changes d b : (is_high (deb_tog d) = b -> deb_process d b = d) /\
  (if b then snd (is_just_released (deb_tog (deb_process d b))) = snd (is_just_released (deb_tog d))
   else snd (is_just_pressed (deb_tog (deb_process d b))) = snd (is_just_pressed (deb_tog d))).
Proof. destruct d as [[h r f] s y]; destruct b, h, r, f; split; try reflexivity; intros X; discriminate X. Qed.
Lemma deb_process_now d b : is_high (deb_tog d) = negb b ->
  is_high (deb_tog (deb_process d b)) = b /\
  (if b then snd (is_just_pressed (deb_tog (deb_process d b))) = true else snd (is_just_released (deb_tog (deb_process d b))) = true).
Proof. destruct d as [[l r f] s c]. cbn. intros ->. destruct b; cbn; auto. Qed.

(* the counter *)
Lemma samples_since_nil (edge : list dop -> dop -> Prop) : samples_since edge [] 0.
Proof. exists [], []. splits; try reflexivity; [|left; reflexivity]. intros p1 x p2 E. destruct p1; discriminate. Qed.
Lemma samples_since_edge (edge : list dop -> dop -> Prop) h x : edge h x -> samples_since edge (h ++ [x]) 0.
Proof. intros H. exists (h ++ [x]), []. rewrite app_nil_r. splits; try reflexivity; [|right; eauto]. intros p1 y p2 E. destruct p1; discriminate. Qed.
Lemma samples_since_more (edge : list dop -> dop -> Prop) h x k : ~ edge h x -> samples_since edge h k -> samples_since edge (h ++ [x]) (k + match x with DReg _ => 1 | _ => 0 end).
Proof.
  intros He (pre & post & -> & -> & Hp & Hl). exists pre, (post ++ [x]). rewrite <- app_assoc. splits; auto.
  - rewrite samples_snoc, zlen_app. destruct x; reflexivity.
  - intros p1 y p2 E. destruct (rev p2) as [|z q] eqn:R.
    + assert (p2 = []) by (rewrite <- (rev_involutive p2), R; reflexivity). subst p2. apply app_inj_tail in E as [-> ->]. exact He.
    + assert (p2 = rev q ++ [z]) by (rewrite <- (rev_involutive p2), R; reflexivity). subst p2.
      rewrite app_comm_cons, app_assoc in E. apply app_inj_tail in E as [E _]. exact (Hp p1 y (rev q) E).
Qed.
Lemma deb_count R F n raw h : (n <= 32)%nat ->
  exists k, samples_since (fun p o => rises n R p o \/ falls n R F p o) h k /\
    deb_steady (after (deb_step R F (2 ^ Z.of_nat n - 1) raw) deb0 h) = k mod 2 ^ 32.
Proof.
  intros Hn. set (step := deb_step R F (2 ^ Z.of_nat n - 1) raw). set (edge := fun p o => rises n R p o \/ falls n R F p o).
  induction h as [|o h (k & IH1 & IH2)] using rev_ind.
  - exists 0. split; [apply samples_since_nil|reflexivity].
  - rewrite after_snoc. destruct (deb_spec R F n raw Hn h) as (I1 & _). fold step in I1.
    destruct (after step deb0 h) as [[l r f] s c]. cbn [deb_state deb_tog deb_steady] in *. destruct o as [b| |].
    + unfold step. cbn [deb_step fst]. change (if b then 1 else 0) with (zb b). pose proof (holds_step n Hn s (samples h) b I1) as Hs.
      unfold deb_register. cbn [deb_state deb_tog deb_steady]. set (s' := Z.land (Z.lor (word 32 (Z.shiftl s 1)) (zb b)) _) in *.
      pose proof (holds_match n Hn s' _ R Hs) as MR. pose proof (holds_match n Hn s' _ F Hs) as MF.
      destruct (s' =? Z.land R _) eqn:E1; [|destruct (s' =? Z.land F _) eqn:E2]; cbn [deb_steady].
      * exists 0. split; [|reflexivity]. apply samples_since_edge. left. exists b. split; [reflexivity|]. apply MR; reflexivity.
      * exists 0. split; [|reflexivity]. apply samples_since_edge. right. exists b. splits; [reflexivity|apply MF; reflexivity|]. intros H. apply MR in H. discriminate.
      * exists (k + 1). split; [|rewrite IH2; unfold word; apply Zplus_mod_idemp_l].
        apply (samples_since_more edge h (DReg b)); [|exact IH1]. intros [(b' & E & H) | (b' & E & H & _)]; injection E as <-; [apply MR in H|apply MF in H]; discriminate.
    + exists (k + 0). split; [apply (samples_since_more edge h DPressed); [|exact IH1]; intros [(b' & E & H) | (b' & E & H & _)]; discriminate|].
      unfold step. cbn [deb_step fst deb_tog]. destruct (is_just_pressed _). cbn [fst deb_steady]. rewrite Z.add_0_r. exact IH2.
    + exists (k + 0). split; [apply (samples_since_more edge h DReleased); [|exact IH1]; intros [(b' & E & H) | (b' & E & H & _)]; discriminate|].
      unfold step. cbn [deb_step fst deb_tog]. destruct (is_just_released _). cbn [fst deb_steady]. rewrite Z.add_0_r. exact IH2.
Qed.
Lemma tog_answers h :
  (answer tog_step tog0 h TPressed = true <-> press_pending h) /\ (answer tog_step tog0 h TReleased = true <-> release_pending h).
Proof.
  destruct (toggler_spec h) as (_ & H1 & H2). cbv zeta in *. unfold answer. rewrite <- H1, <- H2.
  destruct (after tog_step tog0 h) as [l r f]. destruct r, f; cbn; split; split; auto; discriminate.
Qed.
Lemma deb_drop raw : exists h,
  since (rises 12 1) (fun _ o => o = DPressed) h /\
  answer (deb_step 1 4294967294 4095 raw) deb0 h DPressed = false.
Proof.
  exists (map DReg (repeat true 1 ++ repeat true 11 ++ repeat false 1)). split.
  - exists [], (DReg true), (map DReg (repeat true 11 ++ repeat false 1)). splits; [reflexivity| |].
    + exists true. split; [reflexivity|]. intros i Hi. do 12 (destruct i as [|i]; [reflexivity|]). lia.
    + intros p1 x p2 E ->. assert (In DPressed (map DReg (repeat true 11 ++ repeat false 1))) as HI by (rewrite E; apply in_elt).
      apply in_map_iff in HI as (b & Hb & _). discriminate.
  - destruct raw; vm_compute; reflexivity.
Qed.
Lemma edge_discards R F n raw h o : (n <= 32)%nat -> let step := deb_step R F (2 ^ Z.of_nat n - 1) raw in
  (rises n R h o -> answer step deb0 (h ++ [o]) DPressed = true /\ answer step deb0 (h ++ [o]) DReleased = false) /\
  (falls n R F h o -> answer step deb0 (h ++ [o]) DReleased = true /\ answer step deb0 (h ++ [o]) DPressed = false).
Proof.
  intros Hn step. destruct (deb_answers R F n raw (h ++ [o]) Hn) as [H1 H2]. fold step in H1, H2. rewrite since_snoc in H1, H2.
  assert (X : rises n R h o -> falls n R F h o -> False).
  { intros (b & E & M) (b' & E' & _ & M'). rewrite E in E'. injection E' as <-. auto. }
  split; intros H.
  - split; [apply H1; auto|]. apply not_true_is_false. intros A. apply H2 in A as [A | [_ A]]; [eauto|]. apply A. right. exact H.
  - split; [apply H2; auto|]. apply not_true_is_false. intros A. apply H1 in A as [A | [_ A]]; [eauto|]. apply A. right. exact H.
Qed.

Lemma transfer_moves t other t' other' : transfer_events t other = (t', other') ->
    is_high t' = is_high other /\ is_high other' = is_high other /\ got_rise other' = false /\ got_fall other' = false /\
    (~ (got_rise other = true /\ got_fall other = true) ->
     got_rise t' = got_rise t || got_rise other /\ got_fall t' = got_fall t || got_fall other).
Proof.
  destruct t as [l r f], other as [l' r' f']. intros E. injection E as <- <-.
  destruct r', f', r, f; cbn; splits; try reflexivity; intros HH; try (exfalso; apply HH; split; reflexivity); split; reflexivity.
Qed.
Lemma transfer_loses t other t' other' : got_rise other = true -> got_fall other = true -> got_rise t = false ->
    transfer_events t other = (t', other') -> got_rise t' = false /\ got_rise other' = false /\ got_fall t' = true.
Proof. destruct t as [l r f], other as [l' r' f']. intros E1 E2 E3 E. cbn in *. subst. injection E as <- <-. splits; reflexivity. Qed.
Lemma copy_alike t other : copy_state t other = other.
Proof. destruct other. reflexivity. Qed.
