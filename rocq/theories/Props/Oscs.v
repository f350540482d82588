(* C67, C83, C106-C108: oscillators and LEDs. *)
From Coq Require Import QArith Floats.SpecFloat.
From Verif.Common Require Import Base F32.
From Verif.Spec Require Import LedSpec.
From Verif.Model Require Import Color Oscs RgbLed.
From Verif.Proofs Require Oscs.
Open Scope Z_scope.

(** C67. *)
Theorem C67_phase :
  forall n s, 0 <= phase s < 2 ^ 32 ->
    Nat.iter n osc_update s = Osc ((phase s + Z.of_nat n * increment s) mod 2 ^ 32) (increment s).
Proof. exact Oscs.updates_eq. Qed.
Print Assumptions C67_phase.
Theorem C67_set_phase :
  forall n s p, 0 <= p < 2 ^ 32 ->
    Nat.iter n osc_update (osc_set_phase s p) = Osc ((p + Z.of_nat n * increment s) mod 2 ^ 32) (increment s).
Proof. exact Oscs.set_phase_run. Qed.
Print Assumptions C67_set_phase.
Theorem C67_triangle :
  forall p, 0 <= p < 2 ^ 32 -> triangle_val p = if p <? 2 ^ 31 then 2 * p else 2 ^ 33 - 1 - 2 * p.
Proof. exact Oscs.triangle_eq. Qed.
Print Assumptions C67_triangle.
Theorem C67_triangle_takes_each_value_once :
  forall v, 0 <= v < 2 ^ 32 ->
    exists p, (0 <= p < 2 ^ 32 /\ triangle_val p = v) /\ forall q, 0 <= q < 2 ^ 32 -> triangle_val q = v -> q = p.
Proof. exact Oscs.triangle_bijective. Qed.
Print Assumptions C67_triangle_takes_each_value_once.
Theorem C67_triangle_has_no_jumps :
  forall p, 0 <= p < 2 ^ 32 -> Z.abs (triangle_val ((p + 1) mod 2 ^ 32) - triangle_val p) <= 2.
Proof. exact Oscs.triangle_steps. Qed.
Print Assumptions C67_triangle_has_no_jumps.
Theorem C67_down_counter :
  forall n s, 0 <= phase s -> 0 <= increment s ->
    phase (Nat.iter n down_update s) =
      (if (increment s =? 0) && (0 <? Z.of_nat n) then 0 else Z.max 0 (phase s - Z.of_nat n * increment s)) /\
    increment (Nat.iter n down_update s) = increment s.
Proof. exact Oscs.down_eq. Qed.
Print Assumptions C67_down_counter.
Theorem C67_down_counter_ends :
  forall n s, 0 <= phase s -> 0 < increment s ->
    (phase (Nat.iter n down_update s) = 0 <-> (phase s + increment s - 1) / increment s <= Z.of_nat n).
Proof. exact Oscs.down_zero. Qed.
Print Assumptions C67_down_counter_ends.
Theorem C67_period_below_one_second_refuted :
  forall rate s ms, 0 <= ms < 1000 -> osc_set_period_ms rate s ms = UB DivByZero.
Proof. exact Oscs.period_ms. Qed.
Print Assumptions C67_period_below_one_second_refuted.
Example C67_hypotheses_met :
  phase (Nat.iter 3 osc_update (Osc 0xFFFFFFF0 7)) = 5 /\ triangle_val 0x80000000 = 0xFFFFFFFF /\
  phase (Nat.iter 3 down_update (Osc 10 3)) = 1 /\ phase (Nat.iter 4 down_update (Osc 10 3)) = 0 /\ (10 + 3 - 1) / 3 = 4.
Proof. repeat split; reflexivity. Qed.

(** C83.  [l_fader s = Osc 0 0] says the LED is not breathing. *)
Theorem C83_quiet_led_shows_base_colour :
  forall rate h, Forall quiet h -> exists s outs s',
    run (led_step rate) led0 h = Ok (s, outs) /\
    led_step rate s LUpdate = Ok (s', Some (adjust (base_after blend_half plus (RGB 0 0 0) h) (cal_after (RGB 128 128 128) h))).
Proof. exact Oscs.quiet_shows. Qed.
Print Assumptions C83_quiet_led_shows_base_colour.
Theorem C83_flash_shown :
  forall rate ms c s n, 1 <= ms <= 2 ^ 24 -> 0 < rate -> (1 <= n)%nat ->
    exists s', led_step rate s (LFlash c (f32_of_int ms)) = Ok (s', None) /\
    let inc := word 32 (1000 / ms * ((2 ^ 32 - 1) / rate)) in
    (0 < inc -> Z.of_nat n * inc < 2 ^ 32 - 1 -> shown (Nat.iter n led_update s') = adjust c (l_cal s)) /\
    (inc = 0 \/ 2 ^ 32 - 1 <= Z.of_nat n * inc -> l_fader s = Osc 0 0 -> shown (Nat.iter n led_update s') = adjust (l_base s) (l_cal s)).
Proof. exact Oscs.flash_on. Qed.
Print Assumptions C83_flash_shown.
Theorem C83_flash_of_a_divisor_of_a_second :
  forall ms c s n, 1 <= ms <= 1000 -> 1000 mod ms = 0 -> (1 <= n)%nat -> l_fader s = Osc 0 0 ->
    exists s', led_step 1000 s (LFlash c (f32_of_int ms)) = Ok (s', None) /\
      shown (Nat.iter n led_update s') = if Z.of_nat n <=? ms then adjust c (l_cal s) else adjust (l_base s) (l_cal s).
Proof. exact Oscs.flash_divides. Qed.
Print Assumptions C83_flash_of_a_divisor_of_a_second.
Theorem C83_flash_over_half_a_second_refuted :
  forall ms c s n, 500 < ms <= 1000 -> (1 <= n)%nat -> l_fader s = Osc 0 0 ->
    exists s', led_step 1000 s (LFlash c (f32_of_int ms)) = Ok (s', None) /\
      shown (Nat.iter n led_update s') = if Z.of_nat n <=? 1000 then adjust c (l_cal s) else adjust (l_base s) (l_cal s).
Proof. exact Oscs.flash_over_half. Qed.
Print Assumptions C83_flash_over_half_a_second_refuted.
Theorem C83_flash_over_a_second_refuted :
  forall rate ms c s n, 1000 < ms <= 2 ^ 24 -> 0 < rate -> (1 <= n)%nat -> l_fader s = Osc 0 0 ->
    exists s', led_step rate s (LFlash c (f32_of_int ms)) = Ok (s', None) /\
      shown (Nat.iter n led_update s') = adjust (l_base s) (l_cal s).
Proof. exact Oscs.flash_long. Qed.
Print Assumptions C83_flash_over_a_second_refuted.
Example C83_hypotheses_met :
  Forall quiet [LBase (RGB 10 20 30); LUpdate; LAdd (RGB 250 5 0); LNoBreathe; LUpdate] /\ 1000 mod 250 = 0 /\
  (exists s', led_step 1000 led0 (LFlash (RGB 9 8 7) (f32_of_int 250)) = Ok (s', None) /\
     shown (Nat.iter 250 led_update s') = adjust (RGB 9 8 7) (RGB 128 128 128) /\ shown (Nat.iter 251 led_update s') = RGB 0 0 0) /\
  adjust (RGB 9 8 7) (RGB 128 128 128) <> RGB 0 0 0.
Proof.
  split; [repeat constructor|]. split; [reflexivity|]. split; [|discriminate].
  eexists. split; [reflexivity|]. split; vm_compute; reflexivity.
Qed.

(** C106. *)
Theorem C106_sine_val_advances_refuted :
  forall (R : Type) (out : Z -> R) s, 0 <= phase s < 2 ^ 32 ->
    snd (sine_val out s) = out ((phase s + increment s) mod 2 ^ 32) /\
    snd (sine_val out (fst (sine_val out s))) = out ((phase s + 2 * increment s) mod 2 ^ 32) /\
    snd (sine_val out (osc_update s)) = out ((phase s + 2 * increment s) mod 2 ^ 32).
Proof. exact @Oscs.sine_val_advances. Qed.
Print Assumptions C106_sine_val_advances_refuted.
Example C106_hypotheses_met : snd (sine_val (fun p => p) (fst (sine_val (fun p => p) (Osc 100 5)))) = 110.
Proof. reflexivity. Qed.

(** C107: the n-th call of update(), counted from 0, is true exactly if n increments are less than
    the width. *)
Theorem C107_one_shot :
  forall inc width n, (0 < inc)%Q -> exists w,
    Nat.iter n (fun s => fst (oneshot_update_q inc s)) width = w /\
    (snd (oneshot_update_q inc w) = true <-> (inject_Z (Z.of_nat n) * inc < width)%Q) /\
    ((inject_Z (Z.of_nat n) * inc < width)%Q -> (w == width - inject_Z (Z.of_nat n) * inc)%Q) /\
    ((width <= inject_Z (Z.of_nat n) * inc)%Q -> (w <= 0)%Q).
Proof. exact Oscs.oneshot_q. Qed.
Print Assumptions C107_one_shot.
(** In single precision: update() is true exactly while the remaining width is positive, and once it is
    false it stays false until the next start. *)
Theorem C107_one_block :
  forall inc width, (snd (oneshot_update inc width) = true <-> SFltb f32_zero width = true) /\
    (snd (oneshot_update inc width) = false -> forall n, snd (oneshot_update inc (Nat.iter n (fun s => fst (oneshot_update inc s)) width)) = false).
Proof.
  intros inc width. split; [apply Oscs.oneshot_running|]. intros H n. apply Oscs.oneshot_done. destruct (SFltb f32_zero width) eqn:E; [|reflexivity]. apply (Oscs.oneshot_running inc) in E. congruence.
Qed.
Print Assumptions C107_one_block.
(** In single precision a pulse of 600 s at 48 kHz never ends. *)
Theorem C107_long_pulse_never_ends_refuted :
  exists inc width, inc = fdiv f32_one (f32_of_int 48000) /\ width = f32_of_int 600 /\
    forall n, let w := Nat.iter n (fun s => fst (oneshot_update inc s)) width in w = width /\ snd (oneshot_update inc w) = true.
Proof. exact Oscs.oneshot_stuck. Qed.
Print Assumptions C107_long_pulse_never_ends_refuted.
Example C107_hypotheses_met :
  snd (oneshot_update_q (1 # 4) (Nat.iter 3 (fun s => fst (oneshot_update_q (1 # 4) s)) (1 # 1))) = true /\
  snd (oneshot_update_q (1 # 4) (Nat.iter 4 (fun s => fst (oneshot_update_q (1 # 4) s)) (1 # 1))) = false.
Proof. split; reflexivity. Qed.

(** C108. *)
Theorem C108_frequency :
  forall rate freq s, 0 < rate -> 0 <= freq -> freq * freq_units rate < 2 ^ 32 -> 0 <= phase s < 2 ^ 32 ->
    exists lag, phase (Nat.iter (Z.to_nat rate) osc_update (osc_set_frequency rate s freq)) = (phase s - lag) mod 2 ^ 32 /\
      lag = freq * (1 + (2 ^ 32 - 1) mod rate).
Proof. exact Oscs.frequency_lag. Qed.
Print Assumptions C108_frequency.
Theorem C108_constructor :
  forall rate freq, 0 < rate -> 0 <= freq -> freq * freq_units rate < 2 ^ 32 ->
    phase (osc_new rate freq) = 0 /\
    phase (Nat.iter (Z.to_nat rate) osc_update (osc_new rate freq)) = (- (freq * (1 + (2 ^ 32 - 1) mod rate))) mod 2 ^ 32.
Proof. exact Oscs.new_lag. Qed.
Print Assumptions C108_constructor.
(** A period in seconds: after rate * sec updates the phase is back, but for the stated lag. *)
Theorem C108_period :
  forall rate sec s, 0 < rate -> 0 < sec -> 0 <= phase s < 2 ^ 32 ->
    exists s', osc_set_period_sec rate s sec = Ok s' /\ phase s' = phase s /\
      phase (Nat.iter (Z.to_nat (rate * sec)) osc_update s') = (phase s - (1 + (2 ^ 32 - 1) mod (rate * sec))) mod 2 ^ 32.
Proof. exact Oscs.period_lag. Qed.
Print Assumptions C108_period.
(** A period in milliseconds is cut to whole seconds; a period of 2^32 updates or more stops the oscillator. *)
Theorem C108_period_ms_in_whole_seconds_refuted :
  forall rate s ms, 0 <= ms -> osc_set_period_ms rate s ms = osc_set_period_ms rate s (ms - ms mod 1000).
Proof. exact Oscs.period_ms_seconds. Qed.
Print Assumptions C108_period_ms_in_whole_seconds_refuted.
Theorem C108_long_period_stops_refuted :
  forall rate sec s n, 0 < rate -> 2 ^ 32 <= rate * sec -> 0 <= phase s < 2 ^ 32 -> 0 < sec ->
    exists s', osc_set_period_sec rate s sec = Ok s' /\ Nat.iter n osc_update s' = s' /\ phase s' = phase s.
Proof. exact Oscs.period_stops. Qed.
Print Assumptions C108_long_period_stops_refuted.
Example C108_hypotheses_met :
  7 * freq_units 1000 < 2 ^ 32 /\ phase (Nat.iter 1000 osc_update (osc_set_frequency 1000 (Osc 5000 0) 7)) = 5000 - 7 * 296 /\
  (2 ^ 32 - 1) mod 1000 = 295 /\ osc_new 1000 7 = Osc 0 30064769 /\
  osc_set_period_sec 1000 (Osc 5 0) 3 = Ok (Osc 5 1431655) /\ osc_set_period_ms 1000 (Osc 5 0) 3999 = Ok (Osc 5 1431655) /\
  osc_set_period_sec 48000 (Osc 5 0) 90000 = Ok (Osc 5 0).
Proof. split; [reflexivity|]. split; [vm_compute; reflexivity|]. repeat split; reflexivity. Qed.
