(* util/oscs.hh. *)
From Coq Require Import QArith Floats.SpecFloat.
From Verif.Common Require Import Base F32.
Open Scope Z_scope.

(* max_ and freq_units; lines 82-83, 122-124, 207-209; UpdateRateHz is a positive int *)
Definition max_ : Z := 0xFFFFFFFF.
Definition freq_units (rate : Z) : Z := max_ / rate.
(* TriangleOscillator, lines 28-86, and PhaseAccum, lines 89-127 *)
Record osc := Osc { phase : Z; increment : Z }.
Definition osc_new (rate freq : Z) : osc := Osc 0 (word 32 (freq * freq_units rate)).
Definition osc_update (s : osc) : osc := Osc (word 32 (phase s + increment s)) (increment s).
Definition osc_set_frequency (rate : Z) (s : osc) (freq : Z) : osc := Osc (phase s) (word 32 (freq * freq_units rate)).
Definition osc_set_phase (s : osc) (p : Z) : osc := Osc p (increment s).
(* val, lines 42-44 *)
Definition triangle_val (p : Z) : Z := if p >? max_ / 2 then word 32 (max_ - word 32 (p * 2)) else word 32 (p * 2).
(* set_period_ms, set_period_sec; lines 57-62 *)
Definition osc_set_period_sec (rate : Z) (s : osc) (sec : Z) : outcome osc :=
  if sec =? 0 then UB DivByZero else Ok (Osc (phase s) (freq_units rate / sec)).
Definition osc_set_period_ms (rate : Z) (s : osc) (ms : Z) : outcome osc := osc_set_period_sec rate s (ms / 1000).
(* PhaseAccum::process, lines 103-106, as called by SineOscillator::process and val, lines
   143-160: the table value is a function [out] of the phase *)
Definition sine_val {R} (out : Z -> R) (s : osc) : osc * R := let s' := osc_update s in (s', out (phase s')).

(* DownCounter::update, lines 182-190 *)
Definition down_update (s : osc) : osc :=
  let p := if increment s =? 0 then 0 else phase s in
  if p >? increment s then Osc (p - increment s) (increment s) else Osc 0 (increment s).

(* OneShot, lines 214-245: the state is pulse_width_; in single precision and in exact arithmetic *)
Definition oneshot_update (increment_ width : f32) : f32 * bool :=
  if SFltb f32_zero width then (fsub width increment_, true) else (width, false).
Definition oneshot_update_q (increment_ width : Q) : Q * bool :=
  if negb (Qle_bool width 0) then ((width - increment_)%Q, true) else (width, false).
