(* Fading and breathing of an RGB LED. *)
From Coq Require Import Reals Lra Lia ZArith Floats.SpecFloat.
From Flocq Require Import Core.
From Verif.Common Require Import Base Lemmas F32 F32Order F32Real F32Arith.
From Verif.Spec Require Import LedSpec.
From Verif.Model Require Import Color Oscs RgbLed.
From Verif.Proofs Require Import TableF Color FlashFreq Oscs.
Open Scope Z_scope.

Lemma mk_color r g b : is_color (mk r g b).
Proof. unfold is_color, byte, mk, word. cbn [red green blue]. splits; apply Z.mod_pos_bound; lia. Qed.
Lemma adjust_color c a : is_color (adjust c a).
Proof. apply mk_color. Qed.

(* what a history leaves behind *)
Record reached (h : list ledop) (s : led) : Prop := {
  r_base : l_base s = base_after blend_half plus (RGB 0 0 0) h;
  r_cal : l_cal s = cal_after (RGB 128 128 128) h;
  r_base_color : is_color (l_base s);
  r_cal_color : is_color (l_cal s);
  r_breathe_color : is_color (l_breathe s);
  r_phase : 0 <= phase (l_fader s) < 2 ^ 32;
  r_still : Forall not_breathing h -> l_fader s = Osc 0 0;
  r_dark : Forall not_flashing h -> l_flasher s = Osc max_ max_ \/ l_flasher s = Osc 0 max_ }.
Lemma reached_snoc rate h s o s1 r : proper o -> led_step rate s o = Ok (s1, r) -> reached h s -> reached (h ++ [o]) s1.
Proof.
  intros Ho E [A1 A2 A3 A4 A5 A6 A7 A8].
  assert (S1 : l_base s1 = match o with LBase d => d | LBlend d => blend_half (l_base s) d | LAdd d => plus (l_base s) d | _ => l_base s end /\
    l_cal s1 = match o with LCal d => d | _ => l_cal s end /\ l_breathe s1 = match o with LBreathe d _ => d | _ => l_breathe s end).
  { destruct o; cbn [led_step] in E; unfold flash in E; try (destruct (flash_freq ms); [|discriminate E|discriminate E]); try (destruct (f32_to_uint _ _); [|discriminate E|discriminate E]); cbn [bind] in E; injection E as <- <-; cbn; auto. }
  destruct S1 as (B1 & B2 & B3). constructor.
  - rewrite B1. unfold base_after. rewrite fold_left_app. cbn [fold_left]. fold (base_after blend_half plus (RGB 0 0 0) h). rewrite <- A1. destruct o; reflexivity.
  - rewrite B2. unfold cal_after. rewrite fold_left_app. cbn [fold_left]. fold (cal_after (RGB 128 128 128) h). rewrite <- A2. destruct o; reflexivity.
  - rewrite B1. destruct o; try assumption; apply mk_color.
  - rewrite B2. destruct o; assumption.
  - rewrite B3. destruct o; assumption.
  - destruct o; cbn [led_step] in E; unfold flash in E; try (destruct (flash_freq ms); [|discriminate E|discriminate E]); try (destruct (f32_to_uint _ _); [|discriminate E|discriminate E]); cbn [bind] in E; injection E as <- <-; cbn [l_fader phase]; try assumption; [lia|].
    unfold led_update, osc_update. cbn [l_fader phase]. apply Z.mod_pos_bound. lia.
  - intros HF. apply Forall_app in HF. destruct HF as [HF HO]. inversion HO as [|? ? HO1 _]; subst. specialize (A7 HF).
    destruct o; try (destruct HO1); cbn [led_step] in E; unfold flash in E; try (destruct (flash_freq ms); [|discriminate E|discriminate E]); cbn [bind] in E; injection E as <- <-; cbn [l_fader]; try assumption; try reflexivity.
    cbn [led_update l_fader]. rewrite A7. reflexivity.
  - intros HF. apply Forall_app in HF. destruct HF as [HF HO]. inversion HO as [|? ? HO1 _]; subst. specialize (A8 HF).
    destruct o; try (destruct HO1); cbn [led_step] in E; try (destruct (f32_to_uint _ _); [|discriminate E|discriminate E]); cbn [bind] in E; injection E as <- <-; cbn [l_flasher]; try assumption.
    cbn [led_update l_flasher]. right. destruct A8 as [->| ->]; reflexivity.
Qed.
Lemma reached_all rate h s outs : Forall proper h -> run (led_step rate) led0 h = Ok (s, outs) -> reached h s.
Proof.
  revert s outs. induction h as [|o h IH] using rev_ind; intros s outs HP E.
  - injection E as <- <-. constructor; try reflexivity; unfold is_color, byte; cbn; try lia; auto.
  - apply Forall_app in HP. destruct HP as [HP HO]. inversion HO; subst. rewrite run_app in E. destruct (run (led_step rate) led0 h) as [[s0 o0]| |] eqn:E0; cbn [bind] in E; try discriminate E.
    cbn [run] in E. destruct (led_step rate s0 o) as [[s1 r1]| |] eqn:E1; cbn [bind] in E; try discriminate E. injection E as <- <-. eapply reached_snoc; eauto.
Qed.

(* n updates *)
Lemma iter_succ_r {A} (f : A -> A) n x : Nat.iter (S n) f x = Nat.iter n f (f x).
Proof. induction n as [|n IH]; [reflexivity|]. change (Nat.iter (S (S n)) f x) with (f (Nat.iter (S n) f x)). rewrite IH. reflexivity. Qed.
Lemma run_len {S O R} (step : S -> O -> outcome (S * R)) ops s s' rs : run step s ops = Ok (s', rs) -> length rs = length ops.
Proof.
  revert s rs. induction ops as [|o ops IH]; intros s rs E; cbn [run] in E; [injection E as <- <-; reflexivity|].
  destruct (step s o) as [[s1 r]| |]; cbn [bind] in E; try discriminate E. destruct (run step s1 ops) as [[s2 r2]| |] eqn:E2; cbn [bind] in E; try discriminate E. injection E as <- <-. cbn. f_equal. eapply IH; eauto.
Qed.
Definition course (s : led) (n : nat) : list color := map (fun i => shown (Nat.iter (S i) led_update s)) (seq 0 n).
Lemma run_updates rate n s : run (led_step rate) s (repeat LUpdate n) = Ok (Nat.iter n led_update s, map Some (course s n)).
Proof.
  revert s. induction n as [|n IH]; intros s; [reflexivity|]. cbn [repeat run led_step bind]. rewrite IH. cbn [bind]. f_equal. f_equal.
  - rewrite <- iter_succ_r. reflexivity.
  - unfold course. cbn [seq map]. f_equal. rewrite <- seq_shift, !map_map. apply map_ext. intros i. do 2 f_equal. rewrite <- iter_succ_r. reflexivity.
Qed.
Lemma course_nth s n i x : nth_error (course s n) i = Some x -> (i < n)%nat /\ x = shown (Nat.iter (S i) led_update s).
Proof.
  unfold course. intros H. assert (L : (i < n)%nat) by (rewrite <- (seq_length n 0), <- (map_length (fun i => shown (Nat.iter (S i) led_update s))); apply nth_error_Some; congruence).
  split; [exact L|]. rewrite (map_nth_error _ i (seq 0 n) (d := i)) in H; [congruence|]. rewrite nth_error_nth' with (d := O) by (rewrite seq_length; exact L). rewrite seq_nth by exact L. reflexivity.
Qed.
Lemma course_len s n : length (course s n) = n.
Proof. unfold course. rewrite map_length, seq_length. reflexivity. Qed.

(* the way between two colours *)
Lemma part_between k a b : 0 <= k <= 256 -> between a b (part_way k a b).
Proof.
  intros Hk. assert (H : forall x y, within x y ((x * (256 - k) + y * k) / 256)).
  { intros x y. unfold within. split; [apply Z.div_le_lower_bound; [lia|]; destruct (Z.min_spec x y) as [[? ->]|[? ->]]; nia|apply Z.div_le_upper_bound; [lia|]; destruct (Z.max_spec x y) as [[? ->]|[? ->]]; nia]. }
  unfold between, part_way, each2. cbn [red green blue]. splits; apply H.
Qed.
Lemma part_closer k m a b : 0 <= m <= k -> k <= 256 -> between a (part_way k a b) (part_way m a b).
Proof.
  intros Hk Hm. assert (H : forall x y, within x ((x * (256 - k) + y * k) / 256) ((x * (256 - m) + y * m) / 256)).
  { intros x y. unfold within. destruct (Z.le_gt_cases x y) as [L|L].
    - assert (A : x <= (x * (256 - m) + y * m) / 256) by (apply Z.div_le_lower_bound; nia).
      assert (B : (x * (256 - m) + y * m) / 256 <= (x * (256 - k) + y * k) / 256) by (apply Z.div_le_mono; nia). lia.
    - assert (A : (x * (256 - m) + y * m) / 256 <= x) by (apply Z.div_le_upper_bound; nia).
      assert (B : (x * (256 - k) + y * k) / 256 <= (x * (256 - m) + y * m) / 256) by (apply Z.div_le_mono; nia). lia. }
  unfold between, part_way, each2. cbn [red green blue]. splits; apply H.
Qed.
Lemma part_zero a b : part_way 0 a b = a.
Proof. destruct a as [r g bl]. unfold part_way, each2. cbn [red green blue]. f_equal; match goal with |- (?x * (256 - 0) + _ * 0) / 256 = _ => replace (x * (256 - 0) + _ * 0) with (x * 256) by lia; apply Z.div_mul; lia end. Qed.
Lemma part_color k a b : 0 <= k <= 256 -> is_color a -> is_color b -> is_color (part_way k a b).
Proof.
  intros Hk (A1 & A2 & A3) (B1 & B2 & B3). destruct (part_between k a b Hk) as (P1 & P2 & P3). unfold is_color, byte, within in *. splits; lia.
Qed.
Lemma adjust_between k a b x : is_color a -> is_color b -> is_color x -> is_color k -> between a b x -> between (adjust a k) (adjust b k) (adjust x k).
Proof.
  intros Ha Hb Hx Hk (P1 & P2 & P3). rewrite !adjust_spec by assumption.
  assert (H : forall c x y z, 0 <= c -> within x y z -> within (Z.min (x * c / 128) 255) (Z.min (y * c / 128) 255) (Z.min (z * c / 128) 255)).
  { intros c u v w Hc Hw. assert (M : forall p q, p <= q -> Z.min (p * c / 128) 255 <= Z.min (q * c / 128) 255) by (intros p q Hpq; apply Z.min_le_compat_r, Z.div_le_mono; nia).
    unfold within in *. destruct (Z.le_gt_cases u v); [pose proof (M u w ltac:(lia)); pose proof (M w v ltac:(lia))|pose proof (M v w ltac:(lia)); pose proof (M w u ltac:(lia))]; lia. }
  destruct Hk as (K1 & K2 & K3). unfold byte in *. unfold between, each2. cbn [red green blue]. splits; apply H; try lia; assumption.
Qed.

(* C143: fade *)
Definition left_phase (inc : Z) (n : nat) : Z := if (inc =? 0) && (0 <? Z.of_nat n) then 0 else Z.max 0 (2 ^ 32 - 1 - Z.of_nat n * inc).
Lemma left_range inc n : 0 <= inc -> 0 <= left_phase inc n < 2 ^ 32.
Proof. intros H. unfold left_phase. destruct (_ && _); nia. Qed.
Lemma left_mono inc n m : 0 <= inc -> (n <= m)%nat -> left_phase inc m <= left_phase inc n.
Proof. intros H L. unfold left_phase. destruct (Z.eqb_spec inc 0), (Z.ltb_spec 0 (Z.of_nat n)), (Z.ltb_spec 0 (Z.of_nat m)); cbn [andb]; nia. Qed.
Lemma fade_shown s inc c n : l_fader s = Osc 0 0 -> is_color (l_base s) -> is_color c -> 0 <= inc ->
  shown (Nat.iter n led_update (Led (l_fader s) (Osc max_ inc) (l_base s) (l_breathe s) c true (l_cal s))) =
  adjust (part_way (left_phase inc n / 2 ^ 24) (l_base s) c) (l_cal s).
Proof.
  intros HS HB HC HI. rewrite led_iter. cbn [l_fader l_flasher l_base l_breathe l_flash l_fade l_cal]. rewrite (steady_fader n s HS). unfold shown. cbn [l_fader l_flasher l_base l_breathe l_flash l_fade l_cal].
  destruct (down_eq n (Osc max_ inc)) as [EP _]; cbn [phase increment]; [unfold max_; lia|lia|]. cbn [phase increment] in EP. rewrite EP. change max_ with (2 ^ 32 - 1). fold (left_phase inc n).
  pose proof (left_range inc n HI) as R. destruct (Z.eqb_spec (left_phase inc n) 0) as [E|E]; cbn [negb].
  - rewrite E. change (0 / 2 ^ 24) with 0. rewrite part_zero. reflexivity.
  - rewrite blend32_spec by assumption. reflexivity.
Qed.
Lemma fade_course rate h s outs c ms n : Forall proper h -> Forall not_breathing h -> run (led_step rate) led0 h = Ok (s, outs) ->
  is_color c -> 1 <= ms <= 2 ^ 24 -> 0 < rate ->
  let base := base_after blend_half plus (RGB 0 0 0) h in let cal := cal_after (RGB 128 128 128) h in
  let inc := word 32 (1000 / ms * ((2 ^ 32 - 1) / rate)) in
  exists s' cols, run (led_step rate) led0 (h ++ LFade c (f32_of_int ms) :: repeat LUpdate n) = Ok (s', outs ++ None :: map Some cols) /\
    length cols = n /\ Forall (between (adjust base cal) (adjust c cal)) cols /\
    (forall i j x y, (i <= j)%nat -> nth_error cols i = Some x -> nth_error cols j = Some y -> between (adjust base cal) x y) /\
    (forall i x, nth_error cols i = Some x -> 0 < inc ->
       x = adjust (part_way (Z.max 0 (2 ^ 32 - 1 - (Z.of_nat i + 1) * inc) / 2 ^ 24) base c) cal) /\
    (forall i x, nth_error cols i = Some x -> inc = 0 \/ 2 ^ 32 - 1 <= (Z.of_nat i + 1) * inc -> x = adjust base cal).
Proof.
  intros HP HN E HC Hm Hr base cal inc. destruct (reached_all rate h s outs HP E) as [A1 A2 A3 A4 A5 A6 A7 _]. specialize (A7 HN). fold base in A1. fold cal in A2.
  assert (HI : 0 <= inc < 2 ^ 32) by (apply Z.mod_pos_bound; lia).
  set (s1 := Led (l_fader s) (Osc max_ inc) (l_base s) (l_breathe s) c true (l_cal s)).
  assert (ES : led_step rate s (LFade c (f32_of_int ms)) = Ok (s1, None)).
  { cbn [led_step]. unfold flash. rewrite flash_freq_whole by exact Hm. reflexivity. }
  exists (Nat.iter n led_update s1), (course s1 n). split.
  { rewrite run_app, E. cbn [bind run]. rewrite ES. cbn [bind]. rewrite run_updates. reflexivity. }
  assert (SH : forall i, shown (Nat.iter i led_update s1) = adjust (part_way (left_phase inc i / 2 ^ 24) base c) cal) by (intros i; rewrite <- A1, <- A2; apply fade_shown; auto; lia).
  assert (KR : forall i, 0 <= left_phase inc i / 2 ^ 24 <= 256) by (intros i; pose proof (left_range inc i ltac:(lia)); split; [apply Z.div_pos; lia|apply Z.div_le_upper_bound; lia]).
  rewrite A1 in A3. rewrite A2 in A4.
  split; [apply course_len|]. split; [|split; [|split]].
  - apply Forall_forall. intros x Hx. apply In_nth_error in Hx. destruct Hx as [i Hx]. apply course_nth in Hx. destruct Hx as [_ ->]. rewrite SH.
    apply adjust_between; auto using part_color, part_between.
  - intros i j x y L Hx Hy. apply course_nth in Hx, Hy. destruct Hx as [_ ->], Hy as [_ ->]. rewrite !SH. apply adjust_between; auto using part_color.
    apply part_closer; [|apply KR]. split; [apply KR|]. apply Z.div_le_mono; [lia|]. apply left_mono; lia.
  - intros i x Hx H0. apply course_nth in Hx. destruct Hx as [_ ->]. rewrite SH. unfold left_phase. destruct (Z.eqb_spec inc 0); [lia|]. cbn [andb]. replace (Z.of_nat (S i)) with (Z.of_nat i + 1) by lia. reflexivity.
  - intros i x Hx H0. apply course_nth in Hx. destruct Hx as [_ ->]. rewrite SH. assert (E0 : left_phase inc (S i) = 0).
    { unfold left_phase. destruct (Z.eqb_spec inc 0); cbn [andb]; [destruct (Z.ltb_spec 0 (Z.of_nat (S i))); lia|]. lia. }
    rewrite E0. change (0 / 2 ^ 24) with 0. rewrite part_zero. reflexivity.
Qed.

(* breathing *)
Lemma dark_after f n : f = Osc max_ max_ \/ f = Osc 0 max_ -> phase (Nat.iter (S n) down_update f) = 0.
Proof.
  intros H. assert (P : 0 <= phase f /\ increment f = max_ /\ phase f <= max_) by (destruct H as [->| ->]; cbn; unfold max_; lia). destruct P as (P1 & P2 & P3).
  destruct (down_eq (S n) f P1 ltac:(rewrite P2; unfold max_; lia)) as [-> _]. rewrite P2. change (max_ =? 0) with false. cbn [andb]. unfold max_ in *. nia.
Qed.
Definition tri (p : Z) : Z := if p <? 2 ^ 31 then 2 * p else 2 ^ 33 - 1 - 2 * p.
Lemma breathe_shown s n : phase (Nat.iter n down_update (l_flasher s)) = 0 -> is_color (l_base s) -> is_color (l_breathe s) -> 0 <= phase (l_fader s) < 2 ^ 32 ->
  shown (Nat.iter n led_update s) = adjust (part_way (tri ((phase (l_fader s) + Z.of_nat n * increment (l_fader s)) mod 2 ^ 32) / 2 ^ 24) (l_base s) (l_breathe s)) (l_cal s).
Proof.
  intros HD HB HC HR. rewrite led_iter. unfold shown. cbn [l_fader l_flasher l_base l_breathe l_flash l_fade l_cal]. rewrite HD. cbn [Z.eqb negb].
  rewrite updates_eq by exact HR. cbn [phase]. set (p := _ mod _). assert (Hp : 0 <= p < 2 ^ 32) by (apply Z.mod_pos_bound; lia). rewrite triangle_eq by exact Hp. fold (tri p).
  assert (T : 0 <= tri p < 2 ^ 32) by (unfold tri; destruct (Z.ltb_spec p (2 ^ 31)); lia).
  destruct (Z.eqb_spec (tri p) 0) as [E0|E0]; cbn [negb].
  - rewrite E0. change (0 / 2 ^ 24) with 0. rewrite part_zero. reflexivity.
  - rewrite blend32_spec by assumption. reflexivity.
Qed.
Lemma breathe_course rate h c freq inc n : Forall proper h -> Forall quiet h -> is_color c ->
  f32_to_uint 32 (fmul freq (f32_of_int ((2 ^ 32 - 1) / rate))) = Ok inc ->
  let base := base_after blend_half plus (RGB 0 0 0) h in let cal := cal_after (RGB 128 128 128) h in
  exists s' outs cols, run (led_step rate) led0 (h ++ LBreathe c freq :: repeat LUpdate n) = Ok (s', outs ++ None :: map Some cols) /\
    length outs = length h /\ length cols = n /\ Forall (between (adjust base cal) (adjust c cal)) cols /\
    (forall i x, nth_error cols i = Some x ->
       let p := (Z.of_nat i + 1) * inc mod 2 ^ 32 in
       x = adjust (part_way ((if p <? 2 ^ 31 then 2 * p else 2 ^ 33 - 1 - 2 * p) / 2 ^ 24) base c) cal).
Proof.
  intros HP HQ HC HF base cal.
  assert (N1 : Forall not_breathing h) by (eapply Forall_impl; [|exact HQ]; intros []; cbn; auto).
  assert (N2 : Forall not_flashing h) by (eapply Forall_impl; [|exact HQ]; intros []; cbn; auto).
  destruct (quiet_run rate h led0 HQ eq_refl (or_introl eq_refl)) as (s & outs & E & _).
  destruct (reached_all rate h s outs HP E) as [A1 A2 A3 A4 A5 A6 A7 A8]. specialize (A7 N1). specialize (A8 N2). fold base in A1. fold cal in A2.
  set (s1 := Led (Osc (phase (l_fader s)) inc) (l_flasher s) (l_base s) c (l_flash s) (l_fade s) (l_cal s)).
  assert (ES : led_step rate s (LBreathe c freq) = Ok (s1, None)).
  { cbn [led_step]. change (freq_units rate) with ((2 ^ 32 - 1) / rate). rewrite HF. reflexivity. }
  exists (Nat.iter n led_update s1), outs, (course s1 n). split; [rewrite run_app, E; cbn [bind run]; rewrite ES; cbn [bind]; rewrite run_updates; reflexivity|].
  assert (SH : forall i, shown (Nat.iter (S i) led_update s1) = adjust (part_way (tri ((Z.of_nat i + 1) * inc mod 2 ^ 32) / 2 ^ 24) base c) cal).
  { intros i. rewrite <- A1, <- A2. rewrite (breathe_shown s1 (S i)); try assumption; [|apply dark_after; exact A8]. unfold s1. cbn [l_fader l_base l_breathe l_cal phase increment]. rewrite A7. cbn [phase]. rewrite Z.add_0_l. replace (Z.of_nat (S i)) with (Z.of_nat i + 1) by lia. reflexivity. }
  rewrite A1 in A3. rewrite A2 in A4.
  split; [apply (run_len _ _ _ _ _ E)|]. split; [apply course_len|]. split.
  - apply Forall_forall. intros x Hx. apply In_nth_error in Hx. destruct Hx as [i Hx]. apply course_nth in Hx. destruct Hx as [_ ->]. rewrite SH.
    assert (KR : 0 <= tri ((Z.of_nat i + 1) * inc mod 2 ^ 32) / 2 ^ 24 <= 256).
    { set (p := _ mod _). assert (Hp : 0 <= p < 2 ^ 32) by (apply Z.mod_pos_bound; lia). unfold tri. destruct (Z.ltb_spec p (2 ^ 31)); (split; [apply Z.div_pos; lia|apply Z.div_le_upper_bound; lia]). }
    apply adjust_between; auto using part_color, part_between.
  - intros i x Hx p. apply course_nth in Hx. destruct Hx as [_ ->]. rewrite SH. reflexivity.
Qed.
Lemma flash_over_breathing rate h s outs c ms n : Forall proper h -> Forall not_flashing h -> run (led_step rate) led0 h = Ok (s, outs) ->
  1 <= ms <= 2 ^ 24 -> 0 < rate ->
  let inc := word 32 (1000 / ms * ((2 ^ 32 - 1) / rate)) in
  exists s1 s2 cols plain, run (led_step rate) led0 (h ++ LFlash c (f32_of_int ms) :: repeat LUpdate n) = Ok (s1, outs ++ None :: map Some cols) /\
    run (led_step rate) led0 (h ++ repeat LUpdate n) = Ok (s2, outs ++ map Some plain) /\ length cols = n /\ length plain = n /\
    (forall i x y, nth_error cols i = Some x -> nth_error plain i = Some y ->
       x = if (0 <? inc) && ((Z.of_nat i + 1) * inc <? 2 ^ 32 - 1) then adjust c (cal_after (RGB 128 128 128) h) else y).
Proof.
  intros HP HN E Hm Hr inc. destruct (reached_all rate h s outs HP E) as [A1 A2 A3 A4 A5 A6 A7 A8]. specialize (A8 HN).
  assert (HI : 0 <= inc < 2 ^ 32) by (apply Z.mod_pos_bound; lia).
  set (s1 := Led (l_fader s) (Osc max_ inc) (l_base s) (l_breathe s) c false (l_cal s)).
  assert (ES : led_step rate s (LFlash c (f32_of_int ms)) = Ok (s1, None)).
  { cbn [led_step]. unfold flash. rewrite flash_freq_whole by exact Hm. reflexivity. }
  exists (Nat.iter n led_update s1), (Nat.iter n led_update s), (course s1 n), (course s n).
  split; [rewrite run_app, E; cbn [bind run]; rewrite ES; cbn [bind]; rewrite run_updates; reflexivity|].
  split; [rewrite run_app, E; cbn [bind]; rewrite run_updates; reflexivity|]. split; [apply course_len|]. split; [apply course_len|].
  intros i x y Hx Hy. apply course_nth in Hx, Hy. destruct Hx as [_ ->], Hy as [_ ->]. rewrite <- A2.
  rewrite !led_iter. unfold shown, s1. cbn [l_fader l_flasher l_base l_breathe l_flash l_fade l_cal]. rewrite (dark_after _ i A8).
  destruct (down_eq (S i) (Osc max_ inc)) as [EP _]; cbn [phase increment]; [unfold max_; lia|lia|]. cbn [phase increment] in EP. rewrite EP. change max_ with (2 ^ 32 - 1).
  replace (Z.of_nat (S i)) with (Z.of_nat i + 1) by lia.
  destruct (Z.eqb_spec inc 0), (Z.ltb_spec 0 inc), (Z.ltb_spec ((Z.of_nat i + 1) * inc) (2 ^ 32 - 1)), (Z.ltb_spec 0 (Z.of_nat i + 1)); try lia; cbn [andb]; try reflexivity.
  - destruct (Z.eqb_spec (Z.max 0 (2 ^ 32 - 1 - (Z.of_nat i + 1) * inc)) 0); [lia|]. reflexivity.
  - rewrite Z.max_l by lia. reflexivity.
Qed.
Lemma breathe_never_full rate h c freq inc n : Forall proper h -> Forall quiet h -> Forall (fun o => match o with LCal _ => False | _ => True end) h -> is_color c ->
  f32_to_uint 32 (fmul freq (f32_of_int ((2 ^ 32 - 1) / rate))) = Ok inc -> red (base_after blend_half plus (RGB 0 0 0) h) < red c ->
  exists s' outs cols, run (led_step rate) led0 (h ++ LBreathe c freq :: repeat LUpdate n) = Ok (s', outs ++ None :: map Some cols) /\
    length outs = length h /\ length cols = n /\ Forall (fun x => red x < red c) cols.
Proof.
  intros HP HQ HL HC EF HR. destruct (breathe_course rate h c freq inc n HP HQ HC EF) as (s2 & o2 & cols & E2 & L2 & L3 & _ & HX). exists s2, o2, cols. splits; auto.
  apply Forall_forall. intros x Hx. apply In_nth_error in Hx. destruct Hx as [i Hx]. rewrite (HX i x Hx). clear HX Hx.
  assert (CAL : cal_after (RGB 128 128 128) h = RGB 128 128 128).
  { clear -HL. induction HL as [|o h Ho HL IH]; [reflexivity|]. unfold cal_after in *. cbn [fold_left]. destruct o; try exact IH. destruct Ho. }
  rewrite CAL. set (p := _ mod _). assert (Hp : 0 <= p < 2 ^ 32) by (apply Z.mod_pos_bound; lia).
  set (k := _ / 2 ^ 24). assert (Hk : 0 <= k < 256) by (unfold k; destruct (Z.ltb_spec p (2 ^ 31)); (split; [apply Z.div_pos; lia|apply Z.div_lt_upper_bound; lia])).
  destruct (quiet_run rate h led0 HQ eq_refl (or_introl eq_refl)) as (s & o & E0 & _). destruct (reached_all rate h s o HP E0) as [A1 _ A3 _ _ _ _ _]. rewrite A1 in A3.
  rewrite adjust_128 by (apply part_color; [lia|exact A3|exact HC]). unfold part_way, each2. cbn [red]. apply Z.div_lt_upper_bound; [lia|]. nia.
Qed.

(* the increment breathe computes from a whole number of Hz *)
Lemma int_near n : (0 <= n < 2 ^ 32)%Z -> finite_f32 (f32_of_int n) /\ (Rabs (fval (f32_of_int n) - IZR n) <= / 16777216 * IZR n /\ 0 <= fval (f32_of_int n))%R.
Proof.
  intros Hn. assert (R : (0 <= IZR n <= 4294967296)%R) by (split; apply IZR_le; lia). unfold f32_of_int. destruct (f32_of_val n 0) as [A B].
  { change (bpow radix2 0) with 1%R. rewrite Rmult_1_r. apply RN_pow_bound. apply (small_le_127 32); [lia|]. change (IZR (2 ^ 32)) with 4294967296%R. apply Rabs_le. lra. }
  change (bpow radix2 0) with 1%R in A. rewrite Rmult_1_r in A. split; [split; [apply f32_of_valid|exact B]|]. rewrite A. split; [|rewrite <- RN_0; apply RN_le; lra].
  destruct (Z.eq_dec n 0) as [->|Hz]; [rewrite RN_0, Rminus_0_r, Rabs_R0; lra|].
  pose proof (RN_rel (IZR n)) as Q. rewrite (Rabs_pos_eq (IZR n)) in Q by lra. apply Q. apply Rle_trans with (bpow radix2 0); [apply bpow_le; lia|]. change (bpow radix2 0) with 1%R. apply IZR_le. lia.
Qed.
Lemma product_near (e x y X Y P : R) : (0 <= e <= / 16 -> 0 <= x -> 0 <= y -> Rabs (X - x) <= e * x -> Rabs (Y - y) <= e * y -> Rabs (P - X * Y) <= e * (X * Y) -> Rabs (P - x * y) <= 4 * e * (x * y))%R.
Proof.
  intros He Hx Hy HX HY HP. apply Rabs_le_inv in HX, HY, HP.
  assert (X1 : ((1 - e) * x <= X <= (1 + e) * x)%R) by lra. assert (Y1 : ((1 - e) * y <= Y <= (1 + e) * y)%R) by lra.
  assert (XY : (0 <= x * y)%R) by (apply Rmult_le_pos; assumption).
  assert (X0 : (0 <= (1 - e) * x)%R) by (apply Rmult_le_pos; lra). assert (Y0 : (0 <= (1 - e) * y)%R) by (apply Rmult_le_pos; lra).
  assert (L : ((1 - e) * x * ((1 - e) * y) <= X * Y)%R) by (apply Rmult_le_compat; lra).
  assert (U : (X * Y <= (1 + e) * x * ((1 + e) * y))%R) by (apply Rmult_le_compat; lra).
  replace ((1 - e) * x * ((1 - e) * y))%R with ((1 - e) * (1 - e) * (x * y))%R in L by ring. replace ((1 + e) * x * ((1 + e) * y))%R with ((1 + e) * (1 + e) * (x * y))%R in U by ring.
  set (q := (x * y)%R) in *. set (w := (X * Y)%R) in *. clearbody q w. clear - He XY L U HP.
  assert (A : (P <= (1 + e) * w)%R) by lra. assert (B : ((1 - e) * w <= P)%R) by lra.
  assert (A2 : ((1 + e) * w <= (1 + e) * ((1 + e) * (1 + e) * q))%R) by (apply Rmult_le_compat_l; lra).
  assert (B2 : ((1 - e) * ((1 - e) * (1 - e) * q) <= (1 - e) * w)%R) by (apply Rmult_le_compat_l; lra).
  assert (E3 : ((1 + e) * ((1 + e) * (1 + e)) <= 1 + 4 * e)%R) by nra. assert (E4 : (1 - 4 * e <= (1 - e) * ((1 - e) * (1 - e)))%R) by nra.
  assert (A3 : ((1 + e) * ((1 + e) * (1 + e)) * q <= (1 + 4 * e) * q)%R) by (apply Rmult_le_compat_r; assumption).
  assert (B3 : ((1 - 4 * e) * q <= (1 - e) * ((1 - e) * (1 - e)) * q)%R) by (apply Rmult_le_compat_r; assumption).
  apply Rabs_le. lra.
Qed.
Lemma breathe_inc f rate : 0 <= f -> 2 * f <= rate -> 0 < rate < 2 ^ 31 ->
  exists inc, f32_to_uint 32 (fmul (f32_of_int f) (f32_of_int ((2 ^ 32 - 1) / rate))) = Ok inc /\
    Z.abs (inc - f * ((2 ^ 32 - 1) / rate)) <= f * ((2 ^ 32 - 1) / rate) / 2 ^ 22 + 1.
Proof.
  intros Hf H2 Hr. set (u := (2 ^ 32 - 1) / rate). assert (Hu : 0 <= u < 2 ^ 32) by (unfold u; split; [apply Z.div_pos; lia|apply Z.div_lt_upper_bound; nia]).
  assert (Hp : 0 <= f * u <= 2 ^ 31). { split; [nia|]. assert (rate * u <= 2 ^ 32 - 1) by (unfold u; apply Z.mul_div_le; lia). nia. }
  destruct (int_near f ltac:(lia)) as (F1 & N1 & P1). destruct (int_near u ltac:(lia)) as (F2 & N2 & P2).
  assert (R1 : (0 <= IZR f <= 1073741824)%R) by (split; apply IZR_le; lia). assert (R2 : (0 <= IZR u <= 4294967296)%R) by (split; apply IZR_le; lia).
  assert (RP : (0 <= IZR f * IZR u <= 2147483648)%R) by (rewrite <- mult_IZR; split; apply IZR_le; lia).
  set (X := fval (f32_of_int f)) in *. set (Y := fval (f32_of_int u)) in *.
  assert (PB : (Rabs (X * Y) <= IZR (2 ^ 32))%R).
  { pose proof (product_near (/ 16777216) (IZR f) (IZR u) X Y (X * Y)) as Q. destruct (Rabs_le_inv _ _ (Q ltac:(lra) ltac:(lra) ltac:(lra) N1 N2 ltac:(rewrite Rminus_diag_eq, Rabs_R0 by reflexivity; apply Rmult_le_pos; [lra|apply Rmult_le_pos; assumption]))) as [_ Q2].
    rewrite Rabs_pos_eq by (apply Rmult_le_pos; assumption). change (IZR (2 ^ 32)) with 4294967296%R. lra. }
  destruct (fmul_b _ _ F1 F2) as [FP EP]; [apply (small_le_127 32); [lia|exact PB]|]. fold X Y in EP.
  assert (NP : (Rabs (RN (X * Y) - X * Y) <= / 16777216 * (X * Y))%R).
  { destruct (Z.eq_dec f 0) as [E|E]; [|destruct (Z.eq_dec u 0) as [E2|E2]].
    - assert (EX : X = 0%R) by (unfold X; rewrite E; reflexivity). rewrite EX, Rmult_0_l, RN_0, Rminus_0_r, Rabs_R0. lra.
    - assert (EX : Y = 0%R) by (unfold Y; rewrite E2; reflexivity). rewrite EX, Rmult_0_r, RN_0, Rminus_0_r, Rabs_R0. lra.
    - assert (G1 : (/ 2 <= X)%R) by (apply Rabs_le_inv in N1; assert (1 <= IZR f)%R by (apply IZR_le; lia); lra).
      assert (G2 : (/ 2 <= Y)%R) by (apply Rabs_le_inv in N2; assert (1 <= IZR u)%R by (apply IZR_le; lia); lra).
      assert (G : (/ 4 <= X * Y)%R) by (replace (/ 4)%R with (/ 2 * / 2)%R by field; apply Rmult_le_compat; lra).
      pose proof (RN_rel (X * Y)) as Q. rewrite (Rabs_pos_eq (X * Y)) in Q by lra. apply Q. apply Rle_trans with (bpow radix2 (-2)); [apply bpow_le; lia|exact G]. }
  pose proof (product_near (/ 16777216)%R _ _ _ _ _ ltac:(lra) (proj1 R1) (proj1 R2) N1 N2 NP) as HD. rewrite <- mult_IZR in HD, RP. rewrite <- EP in HD, NP. clear PB.
  set (P := fval (fmul (f32_of_int f) (f32_of_int u))) in *.
  assert (P0 : (0 <= P)%R) by (rewrite EP, <- RN_0; apply RN_le, Rmult_le_pos; assumption).
  exists (Zfloor P). pose proof (Zfloor_lb P) as L. pose proof (Zfloor_ub P) as U. apply Rabs_le_inv in HD.
  assert (Z1 : 0 <= Zfloor P) by (apply Zfloor_lub; exact P0). split.
  - apply cast_val; [apply FP|apply Ztrunc_floor; exact P0|]. split; [exact Z1|]. apply lt_IZR. change (IZR (2 ^ 32)) with 4294967296%R. lra.
  - set (m := f * u) in *. set (z := Zfloor P) in *. clearbody m z.
    assert (B : (IZR (Z.abs (z - m) * 2 ^ 22) <= IZR (m + 2 ^ 22))%R).
    { rewrite mult_IZR, plus_IZR, abs_IZR, minus_IZR. change (IZR (2 ^ 22)) with 4194304%R. assert (Rabs (IZR z - IZR m) <= IZR m / 4194304 + 1)%R by (apply Rabs_le; lra). lra. }
    apply le_IZR in B. clear - B. replace (m / 2 ^ 22 + 1) with ((m + 1 * 2 ^ 22) / 2 ^ 22) by (apply Z.div_add; lia). apply Z.div_le_lower_bound; lia.
Qed.
Lemma breathe_negative f rate s c : -(2 ^ 24) <= f < 0 -> 0 < rate < 2 ^ 31 -> led_step rate s (LBreathe c (f32_of_int f)) = UB BadCast.
Proof.
  intros Hf Hr. cbn [led_step]. change (freq_units rate) with ((2 ^ 32 - 1) / rate). set (u := (2 ^ 32 - 1) / rate).
  assert (Hu : 1 <= u < 2 ^ 32) by (unfold u; split; [apply Z.div_le_lower_bound; lia|apply Z.div_lt_upper_bound; nia]).
  destruct (int_b f ltac:(lia)) as [F1 E1]. destruct (int_near u ltac:(lia)) as (F2 & N2 & P2). assert (R1 : (-16777216 <= IZR f <= -1)%R) by (split; apply IZR_le; lia). assert (R2 : (1 <= IZR u <= 4294967296)%R) by (split; apply IZR_le; lia).
  assert (Y1 : (1 <= fval (f32_of_int u) <= 4294967600)%R).
  { split; [|apply Rabs_le_inv in N2; lra]. unfold f32_of_int. destruct (f32_of_val u 0) as [A _].
    { change (bpow radix2 0) with 1%R. rewrite Rmult_1_r. apply RN_pow_bound. apply (small_le_127 32); [lia|]. change (IZR (2 ^ 32)) with 4294967296%R. apply Rabs_le. lra. }
    rewrite A. change (bpow radix2 0) with 1%R. rewrite Rmult_1_r. rewrite <- (RN_id 1) by (apply (in_int 1); lia). apply RN_le. lra. }
  set (Y := fval (f32_of_int u)) in *. assert (PR : (-72057594054705152 * 2 <= IZR f * Y <= -1)%R).
  { split.
    - assert ((- IZR f) * Y <= 16777216 * 4294967600)%R by (apply Rmult_le_compat; lra). lra.
    - assert (1 * 1 <= (- IZR f) * Y)%R by (apply Rmult_le_compat; lra). lra. }
  destruct (fmul_b _ _ F1 F2) as [FP EP]; [apply (small_le_127 58); [lia|]; rewrite E1; fold Y; change (IZR (2 ^ 58)) with 288230376151711744%R; apply Rabs_le; lra|]. rewrite E1 in EP. fold Y in EP.
  assert (PN : (fval (fmul (f32_of_int f) (f32_of_int u)) <= -1)%R) by (rewrite EP, <- (RN_id (-1)) by (apply (in_int (-1)); lia); apply RN_le; lra).
  unfold f32_to_uint. rewrite trunc_val by apply FP. assert (T : Ztrunc (fval (fmul (f32_of_int f) (f32_of_int u))) <= -1).
  { rewrite <- (Ztrunc_IZR (-1)). apply Ztrunc_le. exact PN. }
  destruct (Z.leb_spec 0 (Ztrunc (fval (fmul (f32_of_int f) (f32_of_int u))))); [lia|]. reflexivity.
Qed.
