From Coq Require Import QArith Lqa Floats.SpecFloat.
From Verif.Common Require Import Base Lemmas F32.
From Verif.Spec Require Import LedSpec.
From Verif.Model Require Import Color Oscs RgbLed.
From Verif.Proofs Require Import Color FlashFreq.
Open Scope Z_scope.

Lemma triangle_eq p : 0 <= p < 2 ^ 32 -> triangle_val p = if p <? 2 ^ 31 then 2 * p else 2 ^ 33 - 1 - 2 * p.
Proof.
  intros H. unfold triangle_val, max_. change (0xFFFFFFFF / 2) with (2 ^ 31 - 1). change 0xFFFFFFFF with (2 ^ 32 - 1).
  destruct (Z.gtb_spec p (2 ^ 31 - 1)), (Z.ltb_spec p (2 ^ 31)); try lia.
  - rewrite word_sub_r. unfold word. symmetry. apply Z.mod_unique with (-1); lia.
  - rewrite word_small; lia.
Qed.
Lemma triangle_bijective v : 0 <= v < 2 ^ 32 ->
  exists p, (0 <= p < 2 ^ 32 /\ triangle_val p = v) /\ forall q, 0 <= q < 2 ^ 32 -> triangle_val q = v -> q = p.
Proof.
  intros H. exists (if Z.even v then v / 2 else (2 ^ 33 - 1 - v) / 2).
  assert (HE : if Z.even v then v = 2 * (v / 2) else v = 2 * (v / 2) + 1).
  { destruct (Z.even v) eqn:E; [apply Z.even_spec in E as [k ->]; rewrite Z.mul_comm, Z.div_mul by lia; lia|].
    rewrite <- Z.negb_odd in E. apply negb_false_iff, Z.odd_spec in E as [k ->]. rewrite Z.mul_comm, Z.div_add_l by lia. change (1 / 2) with 0. lia. }
  destruct (Z.even v) eqn:E.
  - split; [split; [lia|]|]; [rewrite triangle_eq by lia; destruct (Z.ltb_spec (v / 2) (2 ^ 31)); lia|].
    intros q Hq. rewrite triangle_eq by lia. destruct (Z.ltb_spec q (2 ^ 31)); lia.
  - assert (HD : (2 ^ 33 - 1 - v) / 2 = 2 ^ 32 - 1 - v / 2) by (symmetry; apply Z.div_unique with 0; lia). rewrite HD.
    split; [split; [lia|]|]; [rewrite triangle_eq by lia; destruct (Z.ltb_spec (2 ^ 32 - 1 - v / 2) (2 ^ 31)); lia|].
    intros q Hq. rewrite triangle_eq by lia. destruct (Z.ltb_spec q (2 ^ 31)); lia.
Qed.
Lemma triangle_steps p : 0 <= p < 2 ^ 32 -> Z.abs (triangle_val ((p + 1) mod 2 ^ 32) - triangle_val p) <= 2.
Proof.
  intros H. assert (HM : 0 <= (p + 1) mod 2 ^ 32 < 2 ^ 32) by (apply Z.mod_pos_bound; lia).
  rewrite !triangle_eq by assumption. destruct (Z.eq_dec (p + 1) (2 ^ 32)) as [E|E].
  - rewrite E, Z.mod_same by lia. destruct (Z.ltb_spec 0 (2 ^ 31)), (Z.ltb_spec p (2 ^ 31)); lia.
  - rewrite Z.mod_small in * by lia. destruct (Z.ltb_spec (p + 1) (2 ^ 31)), (Z.ltb_spec p (2 ^ 31)); lia.
Qed.
Lemma updates_eq n s : 0 <= phase s < 2 ^ 32 ->
  Nat.iter n osc_update s = Osc ((phase s + Z.of_nat n * increment s) mod 2 ^ 32) (increment s).
Proof.
  intros H. induction n as [|n IH].
  - cbn [Nat.iter nat_rect]. rewrite Z.add_0_r, Z.mod_small by lia. destruct s. reflexivity.
  - change (Nat.iter (S n) osc_update s) with (osc_update (Nat.iter n osc_update s)). rewrite IH. unfold osc_update, word. cbn [phase increment]. rewrite Z.add_mod_idemp_l by lia. f_equal. f_equal. lia.
Qed.
Lemma down_eq n s : 0 <= phase s -> 0 <= increment s ->
  phase (Nat.iter n down_update s) = (if (increment s =? 0) && (0 <? Z.of_nat n) then 0 else Z.max 0 (phase s - Z.of_nat n * increment s)) /\
  increment (Nat.iter n down_update s) = increment s.
Proof.
  intros Hp Hi. induction n as [|n [IH1 IH2]].
  - change (Nat.iter 0 down_update s) with s. change (Z.of_nat 0) with 0. rewrite andb_false_r. lia.
  - change (Nat.iter (S n) down_update s) with (down_update (Nat.iter n down_update s)). generalize dependent (Nat.iter n down_update s). intros t IH1 IH2. unfold down_update. rewrite IH2, IH1.
    rewrite (proj2 (Z.ltb_lt 0 (Z.of_nat (S n)))), andb_true_r by lia.
    destruct (Z.eqb_spec (increment s) 0) as [E|E]; cbn [andb].
    + rewrite E. cbn. auto.
    + destruct (Z.gtb_spec (Z.max 0 (phase s - Z.of_nat n * increment s)) (increment s)); cbn [phase increment]; lia.
Qed.
Lemma down_zero n s : 0 <= phase s -> 0 < increment s -> (phase (Nat.iter n down_update s) = 0 <-> (phase s + increment s - 1) / increment s <= Z.of_nat n).
Proof.
  intros Hp Hi. rewrite (proj1 (down_eq n s Hp ltac:(lia))). destruct (Z.eqb_spec (increment s) 0); [lia|]. cbn [andb].
  pose proof (Z.div_mod (phase s + increment s - 1) (increment s) ltac:(lia)) as HD. pose proof (Z.mod_pos_bound (phase s + increment s - 1) (increment s) Hi) as HM.
  generalize dependent ((phase s + increment s - 1) / increment s). intros q HD. split; intros H.
  - assert (phase s <= Z.of_nat n * increment s) by lia. nia.
  - assert (phase s <= Z.of_nat n * increment s) by nia. lia.
Qed.
Lemma period_ms rate s ms : 0 <= ms < 1000 -> osc_set_period_ms rate s ms = UB DivByZero.
Proof. intros H. unfold osc_set_period_ms, osc_set_period_sec. rewrite Z.div_small by lia. reflexivity. Qed.
Lemma frequency_lag rate freq s : 0 < rate -> 0 <= freq -> freq * freq_units rate < 2 ^ 32 -> 0 <= phase s < 2 ^ 32 ->
  exists lag, phase (Nat.iter (Z.to_nat rate) osc_update (osc_set_frequency rate s freq)) = (phase s - lag) mod 2 ^ 32 /\
    lag = freq * (1 + (2 ^ 32 - 1) mod rate).
Proof.
  intros Hr Hf Hw Hp. eexists. split; [|reflexivity]. rewrite updates_eq by exact Hp. cbn [osc_set_frequency phase increment].
  assert (H0 : 0 <= freq_units rate) by (apply Z.div_pos; unfold max_; lia). rewrite word_small by nia.
  rewrite Z2Nat.id by lia. change (2 ^ 32 - 1) with max_. rewrite (Z.mod_eq max_ rate) by lia. change (max_ / rate) with (freq_units rate).
  replace (phase s + rate * (freq * freq_units rate)) with (phase s - freq * (1 + (max_ - rate * freq_units rate)) + freq * 2 ^ 32) by (unfold max_; lia).
  apply Z.mod_add. lia.
Qed.
Lemma sine_val_advances {R} (out : Z -> R) s : 0 <= phase s < 2 ^ 32 ->
  snd (sine_val out s) = out ((phase s + increment s) mod 2 ^ 32) /\
  snd (sine_val out (fst (sine_val out s))) = out ((phase s + 2 * increment s) mod 2 ^ 32) /\
  snd (sine_val out (osc_update s)) = out ((phase s + 2 * increment s) mod 2 ^ 32).
Proof.
  intros H. unfold sine_val, osc_update, word. cbn [fst snd phase increment]. rewrite !Z.add_mod_idemp_l by lia. splits; auto; f_equal; f_equal; lia.
Qed.

(** one shot *)
Lemma oneshot_q inc width n : (0 < inc)%Q -> exists w,
  Nat.iter n (fun s => fst (oneshot_update_q inc s)) width = w /\
  (snd (oneshot_update_q inc w) = true <-> (inject_Z (Z.of_nat n) * inc < width)%Q) /\
  ((inject_Z (Z.of_nat n) * inc < width)%Q -> (w == width - inject_Z (Z.of_nat n) * inc)%Q) /\ ((width <= inject_Z (Z.of_nat n) * inc)%Q -> (w <= 0)%Q).
Proof.
  intros Hi. assert (HS : forall w, snd (oneshot_update_q inc w) = true <-> (0 < w)%Q).
  { intros w. unfold oneshot_update_q. destruct (Qle_bool w 0) eqn:E; cbn.
    - apply Qle_bool_iff in E. split; [discriminate|]. intros. lra.
    - split; [|reflexivity]. intros _. destruct (Qlt_le_dec 0 w) as [L|L]; [exact L|]. apply Qle_bool_iff in L. congruence. }
  induction n as [|n (w & EW & H1 & H2 & H3)].
  - exists width. change (inject_Z (Z.of_nat 0)) with 0%Q. splits; auto; [rewrite HS; split; lra|intros; lra|intros; lra].
  - exists (fst (oneshot_update_q inc w)). split; [change (Nat.iter (S n) (fun s => fst (oneshot_update_q inc s)) width) with (fst (oneshot_update_q inc (Nat.iter n (fun s => fst (oneshot_update_q inc s)) width))); rewrite EW; reflexivity|].
    assert (EN : (inject_Z (Z.of_nat (S n)) == inject_Z (Z.of_nat n) + 1)%Q) by (rewrite Nat2Z.inj_succ; unfold Z.succ; rewrite inject_Z_plus; reflexivity).
    assert (HX : ((inject_Z (Z.of_nat (S n)) * inc < width)%Q -> (fst (oneshot_update_q inc w) == width - inject_Z (Z.of_nat (S n)) * inc)%Q) /\
                 ((width <= inject_Z (Z.of_nat (S n)) * inc)%Q -> (fst (oneshot_update_q inc w) <= 0)%Q)).
    { assert (EM : (inject_Z (Z.of_nat (S n)) * inc == inject_Z (Z.of_nat n) * inc + inc)%Q) by (rewrite EN; ring). rewrite EM. clear EM EN HS.
      unfold oneshot_update_q in *. destruct (Qle_bool w 0) eqn:E; cbn [fst snd negb] in *.
      - assert (HN : (width <= inject_Z (Z.of_nat n) * inc)%Q) by (destruct (Qlt_le_dec (inject_Z (Z.of_nat n) * inc) width) as [L|L]; [apply H1 in L; discriminate|exact L]).
        split; intros; [lra|apply H3; exact HN].
      - pose proof (proj1 H1 eq_refl) as HN. specialize (H2 HN). split; intros; lra. }
    destruct HX as [X1 X2]. splits; auto. rewrite HS. split; intros H.
    + destruct (Qlt_le_dec (inject_Z (Z.of_nat (S n)) * inc) width) as [L|L]; [exact L|]. specialize (X2 L). lra.
    + rewrite (X1 H). lra.
Qed.
Lemma oneshot_done inc width n : SFltb f32_zero width = false ->
  let w := Nat.iter n (fun s => fst (oneshot_update inc s)) width in w = width /\ snd (oneshot_update inc w) = false.
Proof.
  intros H. cbn zeta. assert (E : Nat.iter n (fun s => fst (oneshot_update inc s)) width = width).
  { induction n as [|n IH]; [reflexivity|]. change (fst (oneshot_update inc (Nat.iter n (fun s => fst (oneshot_update inc s)) width)) = width). rewrite IH. unfold oneshot_update. rewrite H. reflexivity. }
  rewrite E. split; [reflexivity|]. unfold oneshot_update. rewrite H. reflexivity.
Qed.
Lemma oneshot_running inc width : snd (oneshot_update inc width) = true <-> SFltb f32_zero width = true.
Proof. unfold oneshot_update. destruct (SFltb f32_zero width); cbn; split; auto. Qed.
Lemma oneshot_stuck : exists inc width, inc = fdiv f32_one (f32_of_int 48000) /\ width = f32_of_int 600 /\
  forall n, let w := Nat.iter n (fun s => fst (oneshot_update inc s)) width in w = width /\ snd (oneshot_update inc w) = true.
Proof.
  exists (fdiv f32_one (f32_of_int 48000)), (f32_of_int 600). splits; auto. intros n. cbv zeta.
  assert (E : forall n, Nat.iter n (fun s => fst (oneshot_update (fdiv f32_one (f32_of_int 48000)) s)) (f32_of_int 600) = f32_of_int 600).
  { induction n0 as [|m IH]; [reflexivity|]. cbn [Nat.iter nat_rect]. cbn [Nat.iter nat_rect] in IH. fold (@Nat.iter m). etransitivity; [|vm_compute; reflexivity].
    change (fst (oneshot_update (fdiv f32_one (f32_of_int 48000)) (Nat.iter m (fun s => fst (oneshot_update (fdiv f32_one (f32_of_int 48000)) s)) (f32_of_int 600))) = fst (oneshot_update (fdiv f32_one (f32_of_int 48000)) (f32_of_int 600))).
    f_equal. f_equal. exact IH. }
  rewrite E. split; [reflexivity|vm_compute; reflexivity].
Qed.

(** LEDs *)
Lemma led_iter n s : Nat.iter n led_update s = Led (Nat.iter n osc_update (l_fader s)) (Nat.iter n down_update (l_flasher s)) (l_base s) (l_breathe s) (l_flash s) (l_fade s) (l_cal s).
Proof.
  induction n as [|n IH]; [destruct s; reflexivity|]. change (Nat.iter (S n) led_update s) with (led_update (Nat.iter n led_update s)). rewrite IH. reflexivity.
Qed.
Definition flash_inc (rate ms : Z) := word 32 (1000 / ms * ((2 ^ 32 - 1) / rate)).
Definition steady (s : led) : Prop := l_fader s = Osc 0 0.
Lemma steady_fader n s : steady s -> Nat.iter n osc_update (l_fader s) = Osc 0 0.
Proof. unfold steady. intros ->. rewrite updates_eq; cbn [phase increment]; [|lia]. rewrite Z.mul_0_r. reflexivity. Qed.
Lemma flash_on rate ms c s n : 1 <= ms <= 2 ^ 24 -> 0 < rate -> (1 <= n)%nat ->
  exists s', led_step rate s (LFlash c (f32_of_int ms)) = Ok (s', None) /\
  let inc := word 32 (1000 / ms * ((2 ^ 32 - 1) / rate)) in
  (0 < inc -> Z.of_nat n * inc < 2 ^ 32 - 1 -> shown (Nat.iter n led_update s') = adjust c (l_cal s)) /\
  (inc = 0 \/ 2 ^ 32 - 1 <= Z.of_nat n * inc -> l_fader s = Osc 0 0 -> shown (Nat.iter n led_update s') = adjust (l_base s) (l_cal s)).
Proof.
  intros Hm Hr Hn. eexists. split.
  - cbn [led_step flash]. unfold flash. rewrite flash_freq_whole by exact Hm. cbn [bind]. reflexivity.
  - cbv zeta. change (freq_units rate) with ((2 ^ 32 - 1) / rate). set (inc := word 32 _). assert (HI : 0 <= inc < 2 ^ 32) by (apply Z.mod_pos_bound; lia).
    rewrite led_iter. cbn [l_fader l_flasher l_base l_breathe l_flash l_fade l_cal]. unfold shown. cbn [l_fader l_flasher l_base l_breathe l_flash l_fade l_cal].
    destruct (down_eq n (Osc max_ inc)) as [EP _]; cbn [phase increment]; [unfold max_; lia|lia|]. cbn [phase increment] in EP. rewrite EP. change max_ with (2 ^ 32 - 1). split.
    + intros H1 H2. destruct (Z.eqb_spec inc 0); [lia|]. cbn [andb]. rewrite Z.max_r by lia. destruct (Z.eqb_spec (2 ^ 32 - 1 - Z.of_nat n * inc) 0); [lia|]. reflexivity.
    + intros H1 HS. rewrite (steady_fader n s HS).
      assert (E0 : (if (inc =? 0) && (0 <? Z.of_nat n) then 0 else Z.max 0 (2 ^ 32 - 1 - Z.of_nat n * inc)) = 0).
      { destruct (Z.eqb_spec inc 0), (Z.ltb_spec 0 (Z.of_nat n)); cbn [andb]; lia. }
      rewrite E0. reflexivity.
Qed.
Lemma flash_divides ms c s n : 1 <= ms <= 1000 -> 1000 mod ms = 0 -> (1 <= n)%nat -> l_fader s = Osc 0 0 ->
  exists s', led_step 1000 s (LFlash c (f32_of_int ms)) = Ok (s', None) /\
    shown (Nat.iter n led_update s') = if Z.of_nat n <=? ms then adjust c (l_cal s) else adjust (l_base s) (l_cal s).
Proof.
  intros Hm HD Hn HS. destruct (flash_on 1000 ms c s n ltac:(lia) ltac:(lia) Hn) as (s' & E & H1 & H2). exists s'. split; [exact E|].
  change ((2 ^ 32 - 1) / 1000) with 4294967 in *. assert (HQ : 1 <= 1000 / ms <= 1000).
  { split; [apply Z.div_le_lower_bound; lia|]. apply Z.div_le_upper_bound; nia. }
  assert (HE : 1000 = ms * (1000 / ms)) by (pose proof (Z.div_mod 1000 ms ltac:(lia)); lia).
  rewrite word_small in * by lia. destruct (Z.leb_spec (Z.of_nat n) ms).
  - apply H1; [lia|]. assert (Z.of_nat n * (1000 / ms) <= 1000) by nia. lia.
  - apply H2; [|exact HS]. right. assert (1000 + 1000 / ms <= Z.of_nat n * (1000 / ms)) by nia. lia.
Qed.
Lemma flash_long rate ms c s n : 1000 < ms <= 2 ^ 24 -> 0 < rate -> (1 <= n)%nat -> l_fader s = Osc 0 0 ->
  exists s', led_step rate s (LFlash c (f32_of_int ms)) = Ok (s', None) /\ shown (Nat.iter n led_update s') = adjust (l_base s) (l_cal s).
Proof.
  intros Hm Hr Hn HS. destruct (flash_on rate ms c s n ltac:(lia) Hr Hn) as (s' & E & H1 & H2). exists s'. split; [exact E|].
  apply H2; [|exact HS]. left. rewrite Z.div_small by lia. reflexivity.
Qed.
Lemma flash_over_half ms c s n : 500 < ms <= 1000 -> (1 <= n)%nat -> l_fader s = Osc 0 0 ->
  exists s', led_step 1000 s (LFlash c (f32_of_int ms)) = Ok (s', None) /\
    shown (Nat.iter n led_update s') = if Z.of_nat n <=? 1000 then adjust c (l_cal s) else adjust (l_base s) (l_cal s).
Proof.
  intros Hm Hn HS. destruct (flash_on 1000 ms c s n ltac:(lia) ltac:(lia) Hn) as (s' & E & H1 & H2). exists s'. split; [exact E|].
  assert (HQ : 1000 / ms = 1) by (symmetry; apply Z.div_unique with (1000 - ms); lia). rewrite HQ in *.
  change (word 32 (1 * ((2 ^ 32 - 1) / 1000))) with 4294967 in *. destruct (Z.leb_spec (Z.of_nat n) 1000); [apply H1; lia|apply H2; [lia|exact HS]].
Qed.
Lemma quiet_run rate h s : Forall quiet h -> l_fader s = Osc 0 0 -> l_flasher s = Osc max_ max_ \/ l_flasher s = Osc 0 max_ ->
  exists s' outs, run (led_step rate) s h = Ok (s', outs) /\ l_fader s' = Osc 0 0 /\ (l_flasher s' = Osc max_ max_ \/ l_flasher s' = Osc 0 max_) /\
    l_base s' = base_after blend_half plus (l_base s) h /\ l_cal s' = cal_after (l_cal s) h.
Proof.
  intros HQ. revert s. induction HQ as [|o h Ho HQ IH]; intros s H1 H2; [exists s, []; auto|].
  assert (HX : exists s1 r, led_step rate s o = Ok (s1, r) /\ l_fader s1 = Osc 0 0 /\ (l_flasher s1 = Osc max_ max_ \/ l_flasher s1 = Osc 0 max_) /\
    l_base s1 = base_after blend_half plus (l_base s) [o] /\ l_cal s1 = cal_after (l_cal s) [o]).
  { destruct o; try (destruct Ho); cbn [led_step base_after cal_after fold_left]; do 2 eexists; (split; [reflexivity|]); cbn [l_fader l_flasher l_base l_cal led_update]; auto.
    rewrite H1. split; [reflexivity|]. split; [|auto]. right. destruct H2 as [->| ->]; reflexivity. }
  destruct HX as (s1 & r & E & A1 & A2 & A3 & A4). destruct (IH s1 A1 A2) as (s' & outs & E' & B1 & B2 & B3 & B4).
  exists s', (r :: outs). cbn [run]. rewrite E. cbn [bind]. rewrite E'. cbn [bind]. splits; auto; [rewrite B3, A3; reflexivity|rewrite B4, A4; reflexivity].
Qed.
Lemma quiet_shows rate h : Forall quiet h -> exists s outs s', run (led_step rate) led0 h = Ok (s, outs) /\
  led_step rate s LUpdate = Ok (s', Some (adjust (base_after blend_half plus (RGB 0 0 0) h) (cal_after (RGB 128 128 128) h))).
Proof.
  intros HQ. destruct (quiet_run rate h led0 HQ eq_refl (or_introl eq_refl)) as (s & outs & E & A1 & A2 & A3 & A4).
  exists s, outs. eexists. split; [exact E|]. cbn [led_step]. f_equal. f_equal. f_equal.
  unfold shown, led_update. cbn [l_fader l_flasher l_base l_breathe l_flash l_fade l_cal]. rewrite A1, A3, A4.
  destruct A2 as [->| ->]; reflexivity.
Qed.

Lemma set_phase_run n s p : 0 <= p < 2 ^ 32 ->
  Nat.iter n osc_update (osc_set_phase s p) = Osc ((p + Z.of_nat n * increment s) mod 2 ^ 32) (increment s).
Proof. intros H. rewrite updates_eq by exact H. reflexivity. Qed.
Lemma new_frequency rate freq : osc_new rate freq = osc_set_frequency rate (Osc 0 0) freq.
Proof. reflexivity. Qed.
Lemma new_lag rate freq : 0 < rate -> 0 <= freq -> freq * freq_units rate < 2 ^ 32 ->
  phase (osc_new rate freq) = 0 /\
  phase (Nat.iter (Z.to_nat rate) osc_update (osc_new rate freq)) = (- (freq * (1 + (2 ^ 32 - 1) mod rate))) mod 2 ^ 32.
Proof.
  intros H1 H2 H3. split; [reflexivity|]. rewrite new_frequency.
  destruct (frequency_lag rate freq (Osc 0 0) H1 H2 H3 ltac:(cbn; lia)) as (lag & E & ->). rewrite E. cbn [phase]. f_equal; lia.
Qed.
Lemma period_lag rate sec s : 0 < rate -> 0 < sec -> 0 <= phase s < 2 ^ 32 ->
  exists s', osc_set_period_sec rate s sec = Ok s' /\ phase s' = phase s /\
    phase (Nat.iter (Z.to_nat (rate * sec)) osc_update s') = (phase s - (1 + (2 ^ 32 - 1) mod (rate * sec))) mod 2 ^ 32.
Proof.
  intros Hr Hs Hp. unfold osc_set_period_sec. destruct (Z.eqb_spec sec 0); [lia|]. eexists. split; [reflexivity|]. split; [reflexivity|].
  rewrite updates_eq by exact Hp. cbn [phase increment]. rewrite Z2Nat.id by nia. unfold freq_units. rewrite Z.div_div by lia.
  change (2 ^ 32 - 1) with max_. rewrite (Z.mod_eq max_ (rate * sec)) by nia.
  replace (phase s + rate * sec * (max_ / (rate * sec))) with (phase s - (1 + (max_ - rate * sec * (max_ / (rate * sec)))) + 1 * 2 ^ 32) by (unfold max_; lia).
  apply Z.mod_add. lia.
Qed.
Lemma period_stops rate sec s n : 0 < rate -> 2 ^ 32 <= rate * sec -> 0 <= phase s < 2 ^ 32 -> 0 < sec ->
  exists s', osc_set_period_sec rate s sec = Ok s' /\ Nat.iter n osc_update s' = s' /\ phase s' = phase s.
Proof.
  intros Hr Hs Hp H0. unfold osc_set_period_sec. destruct (Z.eqb_spec sec 0); [lia|]. eexists. split; [reflexivity|]. split; [|reflexivity].
  rewrite updates_eq by exact Hp. cbn [phase increment]. unfold freq_units. rewrite Z.div_div by lia. rewrite Z.div_small by (unfold max_; lia).
  f_equal. rewrite Z.mul_0_r, Z.add_0_r. apply Z.mod_small. exact Hp.
Qed.
Lemma period_ms_seconds rate s ms : 0 <= ms -> osc_set_period_ms rate s ms = osc_set_period_ms rate s (ms - ms mod 1000).
Proof.
  intros H. unfold osc_set_period_ms. f_equal. rewrite Z.mod_eq by lia. replace (ms - (ms - 1000 * (ms / 1000))) with ((ms / 1000) * 1000) by lia.
  rewrite Z.div_mul by lia. reflexivity.
Qed.
