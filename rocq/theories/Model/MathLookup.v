(* The table based functions of util/math.hh and the single precision outputs of util/oscs.hh. *)
From Coq Require Import Floats.SpecFloat.
From Verif.Common Require Import Base F32.
From Verif.Model Require Import Table MathTables MathFloat Audio Oscs.
Open Scope Z_scope.

(* M_PIF, math.hh line 17: the float closest to pi *)
Definition M_PIF : f32 := f32_of 13176795 (-22).
Definition two_pi : f32 := fmul (f32_of_int 2) M_PIF.
(* 0.25f *)
Definition quarter : f32 := f32_of 1 (-2).

(* setPitchMultiple, math.hh lines 252-262 *)
Definition setPitchMultiple (val : f32) : outcome f32 :=
  if SFleb f32_zero val then Finterp exp5Table (constrain_f val f32_zero f32_one)
  else
    let* d := Finterp exp5Table (constrain_f (fmul val (f32_of_int (-1))) f32_zero f32_one) in
    Ok (fdiv f32_one d).
(* map_value with five floats, lines 19-23 *)
Definition map_value_f (x in_min in_max out_min out_max : f32) : f32 :=
  fadd (fdiv (fmul (fsub x in_min) (fsub out_max out_min)) (fsub in_max in_min)) out_min.
(* audioFreqToNorm, lines 264-271 *)
Definition audioFreqToNorm (input : f32) : outcome f32 :=
  let input := constrain_f input (f32_of_int 20) (f32_of_int 20000) in
  let* temp1 := Finterp logTable (map_value_f input (f32_of_int 20) (f32_of_int 20000) f32_zero f32_one) in
  Ok (fdiv (fsub temp1 (micro 2995730)) (micro 6907760)).
(* pow2, lines 274-288; the loop runs as long as the fuel lasts *)
Fixpoint pow2_loop (fuel : nat) (x res : f32) : outcome f32 :=
  if SFltb x f32_one then let* d := Finterp exp5Table x in Ok (fmul res d)
  else match fuel with
       | O => OutOfFuel
       | S f => pow2_loop f (fsub x f32_one) (fmul res (f32_of_int 32))
       end.
Definition pow2 (fuel : nat) (x : f32) : outcome f32 := pow2_loop fuel (fdiv x (f32_of_int 5)) f32_one.
(* sin, sin01, cos, cos_close, tan, tan_close; lines 291-314; [fuel] bounds the turns of the
   loop that brings the index below the table size *)
Definition tsin (fuel : nat) (x : f32) : outcome f32 := Finterp_wrap fuel sinTable (fdiv x two_pi).
Definition sin01 (fuel : nat) (x : f32) : outcome f32 := Finterp_wrap fuel sinTable x.
Definition tcos (fuel : nat) (x : f32) : outcome f32 := Finterp_wrap fuel sinTable (fadd (fdiv x two_pi) quarter).
Definition cos_close (fuel : nat) (x : f32) : outcome f32 := Fclosest_wrap fuel sinTable (fadd (fdiv x two_pi) quarter).
Definition ttan (fuel : nat) (x : f32) : outcome f32 := Finterp_wrap fuel tanTable (fdiv x M_PIF).
Definition tan_close (fuel : nat) (x : f32) : outcome f32 := Fclosest_wrap fuel tanTable (fdiv x M_PIF).

(* oscs.hh: TriangleOscillator::process_float, lines 53-55 *)
Definition triangle_process_float (s : osc) : osc * f32 :=
  let s' := osc_update s in (s', fdiv (f32_of_int (triangle_val (phase s'))) (f32_of_int 4294967295)).
(* TriangleOscillator::set_frequency(float), lines 73-75 *)
Definition triangle_set_frequency_f (rate : Z) (s : osc) (freq : f32) : outcome osc :=
  let* inc := f32_to_uint 32 (fmul freq (f32_of_int (freq_units rate))) in Ok (Osc (phase s) inc).
(* PhaseAccum::process_float, lines 110-112 and 123 *)
Definition phase_to_float (p : Z) : f32 := fmul (f32_of_int p) (fdiv f32_one (f32_of_int 4294967295)).
Definition phase_process_float (s : osc) : osc * f32 := let s' := osc_update s in (s', phase_to_float (phase s')).
(* SineOscillator::process_bipolar, process_unipolar, process; lines 148-160 *)
Definition sine_process_bipolar (fuel : nat) (s : osc) : outcome (osc * f32) :=
  let '(s', p) := phase_process_float s in let* r := Finterp_wrap fuel sinTable p in Ok (s', r).
Definition sine_process_unipolar (fuel : nat) (s : osc) : outcome (osc * f32) :=
  let* p := sine_process_bipolar fuel s in let '(s', r) := p in Ok (s', fadd (fmul r (f32_of 1 (-1))) (f32_of 1 (-1))).
Definition sine_process (fuel : nat) (s : osc) : outcome (osc * Z) :=
  let* p := sine_process_unipolar fuel s in let '(s', u) := p in
  let* n := f32_to_uint 32 (fmul u (f32_of_int 4294967040)) in Ok (s', n).
(* DownCounter::set_period_ms, lines 199-201 *)
Definition down_set_period_ms (rate : Z) (s : osc) (ms : Z) : outcome osc :=
  let* inc := f32_to_uint 32 (fdiv (f32_of_int (freq_units rate)) (fdiv (f32_of_int ms) (f32_of_int 1000))) in
  Ok (Osc (phase s) inc).
