(* C143: fading and breathing of an RGB LED. *)
From Coq Require Import Floats.SpecFloat.
From Verif.Common Require Import Base F32.
From Verif.Spec Require Import LedSpec.
From Verif.Model Require Import Color Oscs RgbLed.
From Verif.Proofs Require LedAnim.
Open Scope Z_scope.

(** C143.  [inc] is what an update takes off a 32-bit countdown.  A fade starts near its colour,
    only moves towards the base colour, and ends there. *)
Theorem C143_fade_returns_to_base :
  forall rate h s outs c ms n, Forall proper h -> Forall not_breathing h -> run (led_step rate) led0 h = Ok (s, outs) ->
    is_color c -> 1 <= ms <= 2 ^ 24 -> 0 < rate ->
    let base := base_after blend_half plus (RGB 0 0 0) h in let cal := cal_after (RGB 128 128 128) h in
    let inc := word 32 (1000 / ms * ((2 ^ 32 - 1) / rate)) in
    exists s' cols, run (led_step rate) led0 (h ++ LFade c (f32_of_int ms) :: repeat LUpdate n) = Ok (s', outs ++ None :: map Some cols) /\
      length cols = n /\ Forall (between (adjust base cal) (adjust c cal)) cols /\
      (forall i j x y, (i <= j)%nat -> nth_error cols i = Some x -> nth_error cols j = Some y -> between (adjust base cal) x y) /\
      (forall i x, nth_error cols i = Some x -> 0 < inc ->
         x = adjust (part_way (Z.max 0 (2 ^ 32 - 1 - (Z.of_nat i + 1) * inc) / 2 ^ 24) base c) cal) /\
      (forall i x, nth_error cols i = Some x -> inc = 0 \/ 2 ^ 32 - 1 <= (Z.of_nat i + 1) * inc -> x = adjust base cal).
Proof. exact LedAnim.fade_course. Qed.
Print Assumptions C143_fade_returns_to_base.
(** Breathing follows a triangle between the base colour and the breathing colour. *)
Theorem C143_breathing_follows_a_triangle :
  forall rate h c freq inc n, Forall proper h -> Forall quiet h -> is_color c ->
    f32_to_uint 32 (fmul freq (f32_of_int ((2 ^ 32 - 1) / rate))) = Ok inc ->
    let base := base_after blend_half plus (RGB 0 0 0) h in let cal := cal_after (RGB 128 128 128) h in
    exists s' outs cols, run (led_step rate) led0 (h ++ LBreathe c freq :: repeat LUpdate n) = Ok (s', outs ++ None :: map Some cols) /\
      length outs = length h /\ length cols = n /\ Forall (between (adjust base cal) (adjust c cal)) cols /\
      (forall i x, nth_error cols i = Some x ->
         let p := (Z.of_nat i + 1) * inc mod 2 ^ 32 in
         x = adjust (part_way ((if p <? 2 ^ 31 then 2 * p else 2 ^ 33 - 1 - 2 * p) / 2 ^ 24) base c) cal).
Proof. exact LedAnim.breathe_course. Qed.
Print Assumptions C143_breathing_follows_a_triangle.
(** Up to half the update rate, [freq] Hz advance the phase by [freq] times the units of 1 Hz. *)
Theorem C143_breathing_frequency :
  forall freq rate, 0 <= freq -> 2 * freq <= rate -> 0 < rate < 2 ^ 31 ->
    exists inc, f32_to_uint 32 (fmul (f32_of_int freq) (f32_of_int ((2 ^ 32 - 1) / rate))) = Ok inc /\
      Z.abs (inc - freq * ((2 ^ 32 - 1) / rate)) <= freq * ((2 ^ 32 - 1) / rate) / 2 ^ 22 + 1.
Proof. exact LedAnim.breathe_inc. Qed.
Print Assumptions C143_breathing_frequency.
(** A flash hides the breathing and leaves it undisturbed. *)
Theorem C143_flash_leaves_breathing_alone :
  forall rate h s outs c ms n, Forall proper h -> Forall not_flashing h -> run (led_step rate) led0 h = Ok (s, outs) ->
    1 <= ms <= 2 ^ 24 -> 0 < rate ->
    let inc := word 32 (1000 / ms * ((2 ^ 32 - 1) / rate)) in
    exists s1 s2 cols plain, run (led_step rate) led0 (h ++ LFlash c (f32_of_int ms) :: repeat LUpdate n) = Ok (s1, outs ++ None :: map Some cols) /\
      run (led_step rate) led0 (h ++ repeat LUpdate n) = Ok (s2, outs ++ map Some plain) /\ length cols = n /\ length plain = n /\
      (forall i x y, nth_error cols i = Some x -> nth_error plain i = Some y ->
         x = if (0 <? inc) && ((Z.of_nat i + 1) * inc <? 2 ^ 32 - 1) then adjust c (cal_after (RGB 128 128 128) h) else y).
Proof. exact LedAnim.flash_over_breathing. Qed.
Print Assumptions C143_flash_leaves_breathing_alone.
(** What does not hold: breathing reaches its colour; a negative frequency is accepted. *)
Theorem C143_full_colour_never_shown_refuted :
  forall rate h c freq inc n, Forall proper h -> Forall quiet h -> Forall (fun o => match o with LCal _ => False | _ => True end) h -> is_color c ->
    f32_to_uint 32 (fmul freq (f32_of_int ((2 ^ 32 - 1) / rate))) = Ok inc -> red (base_after blend_half plus (RGB 0 0 0) h) < red c ->
    exists s' outs cols, run (led_step rate) led0 (h ++ LBreathe c freq :: repeat LUpdate n) = Ok (s', outs ++ None :: map Some cols) /\
      length outs = length h /\ length cols = n /\ Forall (fun x => red x < red c) cols.
Proof. exact LedAnim.breathe_never_full. Qed.
Print Assumptions C143_full_colour_never_shown_refuted.
Theorem C143_negative_frequency_refuted :
  forall freq rate s c, - 2 ^ 24 <= freq < 0 -> 0 < rate < 2 ^ 31 -> led_step rate s (LBreathe c (f32_of_int freq)) = UB BadCast.
Proof. exact LedAnim.breathe_negative. Qed.
Print Assumptions C143_negative_frequency_refuted.
Example C143_hypotheses_met :
  let h := [LBase (RGB 0 100 40); LUpdate] in
  Forall proper h /\ Forall quiet h /\ Forall not_breathing h /\ Forall not_flashing h /\
  (match run (led_step 8) led0 (h ++ LFade (RGB 200 0 40) (f32_of_int 1000) :: repeat LUpdate 9) with
   | Ok (_, outs) => map (option_map red) (skipn 3 outs) = map Some [175; 150; 125; 100; 75; 50; 25; 0; 0]
   | _ => False end) /\
  (match run (led_step 8) led0 (h ++ LBreathe (RGB 200 0 40) (f32_of_int 1) :: repeat LUpdate 9) with
   | Ok (_, outs) => map (option_map red) (skipn 3 outs) = map Some [50; 100; 150; 199; 149; 99; 49; 0; 50]
   | _ => False end).
Proof.
  cbv zeta. split; [repeat constructor; unfold byte; cbn; lia|]. do 3 (split; [repeat constructor|]). split; vm_compute; reflexivity.
Qed.
