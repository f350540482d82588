From Coq Require Import Reals Lra Lia ZArith Floats.SpecFloat.
From Flocq Require Import Core.
From Verif.Common Require Import Base F32 F32Order F32Real.
From Verif.Model Require Import Table MathTables MathLookup Oscs.
From Verif.Proofs Require SinTable SinNeg Pow2 Pow2Neg Pow2Big LogTable TanTable TanHigh TanTop TanNeg ExpTable Exp10Table OscsFloat.
Open Scope R_scope.

(** C122.  sin, sin01, cos and cos_close against the mathematical functions.  [fuel] is the number
    of turns the wrap loop may take. *)
Theorem C122_sin :
  forall fuel x, finite_f32 x -> 0 <= fval x <= IZR (2 ^ 23) -> fval x <= IZR (Z.of_nat fuel) ->
    exists r, tsin fuel x = Ok r /\ finite_f32 r /\ Rabs (fval r) <= 1 /\ Rabs (fval r - sin (fval x)) <= 22 / 10 ^ 7 + 9 / 10 ^ 8 * fval x.
Proof. exact SinTable.sin_correct. Qed.
Print Assumptions C122_sin.
Theorem C122_sin01 :
  forall fuel x, finite_f32 x -> 0 <= fval x < IZR (2 ^ 21) -> fval x < IZR (Z.of_nat fuel + 1) ->
    exists r, sin01 fuel x = Ok r /\ finite_f32 r /\ Rabs (fval r) <= 1 /\ Rabs (fval r - sin (2 * PI * fval x)) <= 22 / 10 ^ 7.
Proof. exact SinTable.sin01_correct. Qed.
Print Assumptions C122_sin01.
Theorem C122_cos :
  forall fuel x, finite_f32 x -> - (157 / 100) <= fval x <= IZR (2 ^ 23) -> fval x <= IZR (Z.of_nat fuel) ->
    exists r c, tcos fuel x = Ok r /\ cos_close fuel x = Ok c /\ finite_f32 r /\ finite_f32 c /\ Rabs (fval r) <= 1 /\ Rabs (fval c) <= 1 /\
      Rabs (fval r - cos (fval x)) <= 23 / 10 ^ 7 + 16 / 10 ^ 8 * Rabs (fval x) /\ Rabs (fval c - cos (fval x)) <= 32 / 10 ^ 4 + 16 / 10 ^ 8 * Rabs (fval x).
Proof. exact SinTable.cos_correct. Qed.
Print Assumptions C122_cos.
(** Just below these ranges the first interval of the table is extended to the left: still accurate, down to
    where the conversion becomes undefined (next theorems). *)
Theorem C122_small_negative :
  forall fuel x, finite_f32 x ->
    (- / 2048 < fval x <= 0 -> exists r, sin01 fuel x = Ok r /\ finite_f32 r /\ Rabs (fval r - sin (2 * PI * fval x)) <= 9 / 10 ^ 7) /\
    (- (30679 / 10 ^ 7) <= fval x <= 0 -> exists r, tsin fuel x = Ok r /\ finite_f32 r /\ Rabs (fval r - sin (fval x)) <= 10 / 10 ^ 7) /\
    (- (15738 / 10 ^ 4) <= fval x <= - (157 / 100) -> exists r c, tcos fuel x = Ok r /\ cos_close fuel x = Ok c /\ finite_f32 r /\ finite_f32 c /\
       Rabs (fval r - cos (fval x)) <= 26 / 10 ^ 7 /\ Rabs (fval c - cos (fval x)) <= 32 / 10 ^ 4).
Proof. intros fuel x Hx. split; [apply SinNeg.sin01_below|split; [apply SinNeg.sin_below|apply SinNeg.cos_below]]; exact Hx. Qed.
Print Assumptions C122_small_negative.
(** "sin(x), for any x" does not hold: a negative, a large or a non finite argument is undefined *)
Theorem C122_sin_for_any_x_refuted :
  forall fuel x, (finite_f32 x /\ fval x <= - (30680 / 10 ^ 7)) \/ (finite_f32 x /\ IZR (2 ^ 24) <= fval x) \/ ffinite x = false -> tsin fuel x = UB BadCast.
Proof. intros fuel x [[A B]|[[A B]|A]]; [apply SinTable.sin_neg_ub|apply SinTable.sin_large_ub|apply (SinTable.sin_not_finite_ub fuel x A)]; assumption. Qed.
Print Assumptions C122_sin_for_any_x_refuted.
Theorem C122_sin01_for_any_x_refuted :
  forall fuel x, (finite_f32 x /\ fval x <= - / 2048) \/ (finite_f32 x /\ IZR (2 ^ 21) <= fval x) \/ ffinite x = false -> sin01 fuel x = UB BadCast.
Proof. intros fuel x [[A B]|[[A B]|A]]; [apply SinTable.sin01_neg_ub|apply SinTable.sin01_large_ub|apply (SinTable.sin_not_finite_ub fuel x A)]; assumption. Qed.
Print Assumptions C122_sin01_for_any_x_refuted.
Theorem C122_cos_for_any_x_refuted :
  forall fuel x, (finite_f32 x /\ fval x <= - (15739 / 10 ^ 4)) \/ ffinite x = false -> tcos fuel x = UB BadCast /\ cos_close fuel x = UB BadCast.
Proof. intros fuel x [[A B]|A]; [apply SinTable.cos_neg_ub; assumption|apply (SinTable.sin_not_finite_ub fuel x A)]. Qed.
Print Assumptions C122_cos_for_any_x_refuted.
Example C122_hypotheses_met : finite_f32 (f32_of 3 (-1)) /\ exists r, tsin 2 (f32_of 3 (-1)) = Ok r /\ SFltb r (f32_of 1022 (-10)) = true /\ SFltb (f32_of 1021 (-10)) r = true /\ exists s, tsin 2 (f32_of (-1) (-10)) = Ok s /\ SFltb s (f32_of (-1023) (-20)) = true.
Proof. split; [split; vm_compute; reflexivity|]. eexists. split; [vm_compute; reflexivity|]. split; [vm_compute; reflexivity|]. split; [vm_compute; reflexivity|]. eexists. split; [vm_compute; reflexivity|vm_compute; reflexivity]. Qed.

(** C123.  pow2 and setPitchMultiple. *)
Theorem C123_pow2 :
  forall fuel x, finite_f32 x -> 0 <= fval x <= 127 -> fval x <= 5 * IZR (Z.of_nat fuel) ->
    exists r, pow2 fuel x = Ok r /\ finite_f32 r /\ Rabs (fval r - Rpower 2 (fval x)) <= (16 / 10 ^ 7 + 5 / 10 ^ 8 * fval x) * Rpower 2 (fval x).
Proof. exact Pow2.pow2_correct. Qed.
Print Assumptions C123_pow2.
(** just below 0 the first interval of the table is extended *)
Theorem C123_pow2_small_negative :
  forall fuel x, finite_f32 x -> - (24425 / 10 ^ 7) <= fval x <= 0 ->
    exists r, pow2 fuel x = Ok r /\ finite_f32 r /\ Rabs (fval r - Rpower 2 (fval x)) <= 11 / 10 ^ 6.
Proof. exact Pow2Neg.pow2_below. Qed.
Print Assumptions C123_pow2_small_negative.
Theorem C123_pow2_negative_refuted : forall fuel x, finite_f32 x -> fval x <= - (2443 / 10 ^ 6) -> pow2 fuel x = UB BadCast.
Proof. exact Pow2.pow2_negative_ub. Qed.
Print Assumptions C123_pow2_negative_refuted.
(** beyond 127 the result overflows to infinity at 2^128, up to the last argument for which the loop ends *)
Theorem C123_pow2_overflow :
  forall fuel x, finite_f32 x -> 127 <= fval x <= 83886088 -> fval x <= 5 * IZR (Z.of_nat fuel) ->
    exists r, pow2 fuel x = Ok r /\ (1280002 / 10000 <= fval x -> r = S754_infinity false) /\
      (fval x <= 1280002 / 10000 -> r = S754_infinity false \/ (finite_f32 r /\ Rabs (fval r - Rpower 2 (fval x)) <= (16 / 10 ^ 7 + 5 / 10 ^ 8 * fval x) * Rpower 2 (fval x))).
Proof. exact Pow2Big.pow2_overflow. Qed.
Print Assumptions C123_pow2_overflow.
(** from the next float on, no number of turns ends the loop *)
Theorem C123_pow2_terminates_refuted :
  forall x, (finite_f32 x /\ 83886096 <= fval x) \/ x = S754_infinity false \/ x = S754_nan -> forall fuel, pow2 fuel x = OutOfFuel.
Proof. intros x [[A B]|[-> | ->]] fuel; [apply Pow2Big.pow2_stuck; assumption|apply Pow2.pow2_special|apply Pow2.pow2_special]. Qed.
Print Assumptions C123_pow2_terminates_refuted.
Theorem C123_pitch_multiple :
  forall v, finite_f32 v -> let target := Rpower 2 (5 * Rmax (-1) (Rmin 1 (fval v))) in
    exists r, setPitchMultiple v = Ok r /\ finite_f32 r /\ / 32 <= fval r <= 32 /\ (0 <= fval v -> 1 <= fval r) /\ (fval v <= 0 -> fval v < 0 -> fval r <= 1) /\ Rabs (fval r - target) <= 16 / 10 ^ 7 * target.
Proof. exact Pow2.pitch_multiple. Qed.
Print Assumptions C123_pitch_multiple.
Theorem C123_pitch_multiple_special : setPitchMultiple (S754_infinity false) = Ok (f32_of_int 32) /\ setPitchMultiple (S754_infinity true) = Ok (f32_of 1 (-5)) /\ setPitchMultiple S754_nan = UB BadCast.
Proof. exact Pow2.pitch_infinite. Qed.
Print Assumptions C123_pitch_multiple_special.
Example C123_hypotheses_met : pow2 40 (f32_of_int 130) = Ok (S754_infinity false) /\ pow2 2 (f32_of_int 10) = Ok (f32_of_int 1024) /\ setPitchMultiple (f32_of_int (-1)) = Ok (f32_of 1 (-5)) /\ (exists r, pow2 0 (f32_of (-1) (-10)) = Ok r /\ SFltb r (f32_of 4094 (-12)) = true /\ SFltb (f32_of 4093 (-12)) r = true).
Proof. split; [vm_compute; reflexivity|]. split; [vm_compute; reflexivity|]. split; [vm_compute; reflexivity|]. eexists. split; [vm_compute; reflexivity|]. split; vm_compute; reflexivity. Qed.

(** C124.  audioFreqToNorm: 20 Hz to 20 kHz onto 0 to 1, logarithmically. *)
Theorem C124_freq_to_norm :
  forall v, finite_f32 v -> let f := Rmax 20 (Rmin 20000 (fval v)) in let target := ln (f / 20) / ln 1000 in
    exists r, audioFreqToNorm v = Ok r /\ finite_f32 r /\ 0 <= fval r <= 1 /\ fval r <= target + 3 / 10 ^ 6 /\ target - 6 / 1000 <= fval r /\ target - (3 / 10 ^ 6 + 6 / (f * f)) <= fval r.
Proof. exact LogTable.freq_norm. Qed.
Print Assumptions C124_freq_to_norm.
Theorem C124_freq_special :
  audioFreqToNorm (S754_infinity false) = audioFreqToNorm (f32_of_int 20000) /\ audioFreqToNorm (S754_infinity true) = audioFreqToNorm (f32_of_int 20) /\ audioFreqToNorm S754_nan = UB BadCast.
Proof. exact LogTable.freq_special. Qed.
Print Assumptions C124_freq_special.
Example C124_hypotheses_met : finite_f32 (f32_of_int 632) /\ exists r, audioFreqToNorm (f32_of_int 632) = Ok r /\ SFltb (f32_of 499 (-10)) r = true /\ SFltb r (f32_of 513 (-10)) = true.
Proof. split; [split; vm_compute; reflexivity|]. eexists. split; [vm_compute; reflexivity|]. split; vm_compute; reflexivity. Qed.

(** C125.  tan and tan_close. *)
Theorem C125_tan :
  forall fuel x, finite_f32 x -> 0 <= fval x <= 1 ->
    exists r c, ttan fuel x = Ok r /\ tan_close fuel x = Ok c /\ finite_f32 r /\ finite_f32 c /\ Rabs (fval r - tan (fval x)) <= 12 / 10 ^ 6 /\ Rabs (fval c - tan (fval x)) <= 54 / 10 ^ 4.
Proof. exact TanTable.tan_correct. Qed.
Print Assumptions C125_tan.
(** closer to the pole the table is coarser *)
Theorem C125_tan_to_1_4 :
  forall fuel x, finite_f32 x -> 0 <= fval x <= 14 / 10 ->
    exists r c, ttan fuel x = Ok r /\ tan_close fuel x = Ok c /\ finite_f32 r /\ finite_f32 c /\ Rabs (fval r - tan (fval x)) <= 3 / 10 ^ 4 /\ Rabs (fval c - tan (fval x)) <= 56 / 10 ^ 3.
Proof. exact TanHigh.hi_tan_correct. Qed.
Print Assumptions C125_tan_to_1_4.
Theorem C125_tan_to_1_5 :
  forall fuel x, finite_f32 x -> 0 <= fval x <= 15 / 10 ->
    exists r c, ttan fuel x = Ok r /\ tan_close fuel x = Ok c /\ finite_f32 r /\ finite_f32 c /\ Rabs (fval r - tan (fval x)) <= 44 / 10 ^ 4 /\ Rabs (fval c - tan (fval x)) <= 355 / 10 ^ 3.
Proof. exact TanTop.top_tan_correct. Qed.
Print Assumptions C125_tan_to_1_5.
Theorem C125_tan_sign_refuted :
  forall fuel x, finite_f32 x -> 15695 / 10000 <= fval x <= 15707 / 10000 -> 0 < tan (fval x) /\ exists r, ttan fuel x = Ok r /\ finite_f32 r /\ fval r <= - (10 ^ 6).
Proof. exact TanTable.tan_wrong_sign. Qed.
Print Assumptions C125_tan_sign_refuted.
Theorem C125_tan_small_negative :
  forall fuel x, finite_f32 x -> - (15339 / 10 ^ 7) <= fval x <= 0 ->
    exists r, ttan fuel x = Ok r /\ tan_close fuel x = Ok f32_zero /\ finite_f32 r /\ Rabs (fval r - tan (fval x)) <= 12 / 10 ^ 6.
Proof. exact TanNeg.tan_below. Qed.
Print Assumptions C125_tan_small_negative.
Theorem C125_tan_negative_refuted : forall fuel x, finite_f32 x -> fval x <= - (1534 / 10 ^ 6) -> ttan fuel x = UB BadCast /\ tan_close fuel x = UB BadCast.
Proof. exact TanTable.tan_neg_ub. Qed.
Print Assumptions C125_tan_negative_refuted.
Example C125_hypotheses_met : finite_f32 (f32_of 1607 (-10)) /\ exists r, ttan 0 (f32_of 1607 (-10)) = Ok r /\ SFltb r (f32_of_int (-1000000)) = true /\ exists s, ttan 0 (f32_of (-1) (-10)) = Ok s /\ SFltb s (f32_of (-1023) (-20)) = true.
Proof. split; [split; vm_compute; reflexivity|]. eexists. split; [vm_compute; reflexivity|]. split; [vm_compute; reflexivity|]. eexists. split; [vm_compute; reflexivity|vm_compute; reflexivity]. Qed.

(** C126.  The tables read directly. *)
Theorem C126_exp5 :
  forall ph, finite_f32 ph -> 0 <= fval ph <= 1 ->
    exists r, Finterp exp5Table ph = Ok r /\ finite_f32 r /\ 1 <= fval r <= 32 /\ Rabs (fval r - Rpower 2 (5 * fval ph)) <= 15 / 10 ^ 7 * Rpower 2 (5 * fval ph).
Proof. exact ExpTable.exp5_interp. Qed.
Print Assumptions C126_exp5.
Theorem C126_exp10 :
  forall ph, finite_f32 ph -> 0 <= fval ph <= 1 ->
    exists r, Finterp exp10Table ph = Ok r /\ finite_f32 r /\ 1 <= fval r <= 1024 /\ Rabs (fval r - Rpower 2 (10 * fval ph)) <= 3 / 10 ^ 6 * Rpower 2 (10 * fval ph).
Proof. exact Exp10Table.exp10_interp. Qed.
Print Assumptions C126_exp10.
(** pow9Table holds the power 8.8 of the position *)
Theorem C126_pow9_entries :
  forall i, (0 < i < 2048)%Z -> exists d, znth pow9Table i = Some d /\ finite_f32 d /\ 0 <= fval d <= 1 /\ Rabs (fval d - Rpower (IZR i / 2047) (88 / 10)) <= 62 / 10 ^ 8.
Proof. exact TanTable.pow_entry. Qed.
Print Assumptions C126_pow9_entries.
Theorem C126_pow9_is_ninth_power_refuted : exists d, znth pow9Table 1024 = Some d /\ finite_f32 d /\ fval d >= (1024 / 2047) ^ 9 + 28 / 10 ^ 5.
Proof. exact TanTable.pow_not_nine. Qed.
Print Assumptions C126_pow9_is_ninth_power_refuted.
Example C126_hypotheses_met : zlen exp5Table = 2048%Z /\ zlen exp10Table = 2048%Z /\ zlen pow9Table = 2048%Z /\ Finterp exp10Table f32_one = Ok (f32_of_int 1024).
Proof. repeat split; vm_compute; reflexivity. Qed.

(** C127.  The float outputs of the oscillators. *)
Theorem C127_ramp :
  forall s, let p := ((phase s + increment s) mod 2 ^ 32)%Z in
    exists r, phase_process_float s = (Osc p (increment s), r) /\ finite_f32 r /\ 0 <= fval r <= 1 /\ Rabs (fval r - IZR p / IZR (2 ^ 32)) <= / 33554432.
Proof.
  intros s p. destruct (OscsFloat.phase_float p (Z.mod_pos_bound (phase s + increment s) (2 ^ 32) eq_refl)) as (A & B & C & _). exists (phase_to_float p). repeat split; try reflexivity; try assumption; try apply A; apply B.
Qed.
Print Assumptions C127_ramp.
(** the output is exactly 1 for the last 128 phases, so it is not below 1 *)
Theorem C127_ramp_below_one_refuted : forall p, (0 <= p < 2 ^ 32)%Z -> (fval (phase_to_float p) = 1 <-> (2 ^ 32 - 128 <= p)%Z).
Proof. intros p Hp. apply (OscsFloat.phase_float p Hp). Qed.
Print Assumptions C127_ramp_below_one_refuted.
Theorem C127_triangle :
  forall s, let p := ((phase s + increment s) mod 2 ^ 32)%Z in
    exists r, triangle_process_float s = (Osc p (increment s), r) /\ finite_f32 r /\ 0 <= fval r <= 1 /\
      Rabs (fval r - (if (p <? 2 ^ 31)%Z then 2 * (IZR p / IZR (2 ^ 32)) else 2 - 2 * (IZR p / IZR (2 ^ 32)))) <= 4 / 10 ^ 8.
Proof. exact OscsFloat.triangle_out. Qed.
Print Assumptions C127_triangle.
Theorem C127_sine :
  forall fuel s, (1 <= fuel)%nat -> let p := ((phase s + increment s) mod 2 ^ 32)%Z in let w := sin (2 * PI * (IZR p / IZR (2 ^ 32))) in
    exists r u n, sine_process_bipolar fuel s = Ok (Osc p (increment s), r) /\ sine_process_unipolar fuel s = Ok (Osc p (increment s), u) /\ sine_process fuel s = Ok (Osc p (increment s), n) /\
      finite_f32 r /\ Rabs (fval r) <= 1 /\ Rabs (fval r - w) <= 24 / 10 ^ 7 /\
      finite_f32 u /\ 0 <= fval u <= 1 /\ Rabs (fval u - (/ 2 + w / 2)) <= 13 / 10 ^ 7 /\
      (0 <= n <= 4294967040)%Z /\ Rabs (IZR n - IZR (2 ^ 32) * (/ 2 + w / 2)) <= 6200.
Proof. exact OscsFloat.sine_out. Qed.
Print Assumptions C127_sine.
Example C127_hypotheses_met : phase_process_float (Osc (2 ^ 31) (2 ^ 31 - 1)) = (Osc (2 ^ 32 - 1) (2 ^ 31 - 1), f32_one) /\ sine_process 1 (Osc 0 (2 ^ 30)) = Ok (Osc (2 ^ 30) (2 ^ 30), 4294967040%Z).
Proof. split; vm_compute; reflexivity. Qed.

(** C128.  Setting a frequency as a float and a period in milliseconds. *)
Theorem C128_frequency :
  forall rate s freq, (1 <= rate < 2 ^ 31)%Z -> finite_f32 freq -> let want := fval freq * IZR (freq_units rate) in
    (0 <= want <= IZR (2 ^ 32 - 1024) -> exists n, triangle_set_frequency_f rate s freq = Ok (Osc (phase s) n) /\ (0 <= n < 2 ^ 32)%Z /\ Rabs (IZR n - want) <= 1 + 2 / 10 ^ 7 * want) /\
    (IZR (2 ^ 32 + 1024) <= want -> triangle_set_frequency_f rate s freq = UB BadCast) /\
    (want <= -2 -> triangle_set_frequency_f rate s freq = UB BadCast).
Proof. exact OscsFloat.triangle_freq. Qed.
Print Assumptions C128_frequency.
Theorem C128_period :
  forall rate s ms, (1 <= rate < 2 ^ 31)%Z -> (0 < ms < 2 ^ 32)%Z -> let want := IZR (freq_units rate) * 1000 / IZR ms in
    want <= IZR (2 ^ 32 - 4096) -> exists n, down_set_period_ms rate s ms = Ok (Osc (phase s) n) /\ (0 <= n < 2 ^ 32)%Z /\ Rabs (IZR n - want) <= 1 + 3 / 10 ^ 7 * want.
Proof. intros rate s ms Hr Hm. apply (OscsFloat.down_period rate s ms Hr Hm). Qed.
Print Assumptions C128_period.
(** a period that is too long expires at once, and one shorter than an update is undefined *)
Theorem C128_long_period_refuted :
  forall rate s ms, (1 <= rate < 2 ^ 31)%Z -> (0 < ms < 2 ^ 32)%Z -> IZR (freq_units rate) * 1000 / IZR ms <= 9999 / 10000 ->
    down_set_period_ms rate s ms = Ok (Osc (phase s) 0) /\ phase (down_update (Osc (phase s) 0)) = 0%Z.
Proof. intros rate s ms Hr Hm H. split; [apply (OscsFloat.down_period rate s ms Hr Hm); exact H|reflexivity]. Qed.
Print Assumptions C128_long_period_refuted.
Theorem C128_short_period_refuted :
  forall rate s ms, (1 <= rate < 2 ^ 31)%Z -> (ms = 0 \/ 0 < ms < 2 ^ 32 /\ ms * rate <= 999 /\ rate <= 10 ^ 6)%Z -> down_set_period_ms rate s ms = UB BadCast.
Proof. exact OscsFloat.down_short. Qed.
Print Assumptions C128_short_period_refuted.
Example C128_hypotheses_met : down_set_period_ms 1000 (Osc 0 0) 500 = Ok (Osc 0 8589934) /\ down_set_period_ms 48000 (Osc 0 0) 90000000 = Ok (Osc 0 0) /\ triangle_set_frequency_f 48000 (Osc 0 0) (f32_of_int 440) = Ok (Osc 0 39370320).
Proof. repeat split; vm_compute; reflexivity. Qed.
