(* The single precision functions of util/math.hh. *)
From Coq Require Import Floats.SpecFloat.
From Verif.Common Require Import Base F32.
Open Scope Z_scope.

(* interpolate(float, float, float), lines 53-55; interpolate3, lines 58-60 *)
Definition finterpolate (in1 in2 phase : f32) : f32 := fadd (fmul in1 (fsub f32_one phase)) (fmul in2 phase).
Definition finterpolate3 (in1 in2 phase : f32) : f32 := fadd in1 (fmul phase (fsub in2 in1)).
(* f_abs, lines 171-173 *)
Definition fneg (x : f32) : f32 := SFopp x.
Definition f_abs (x : f32) : f32 := if SFleb f32_zero x then x else fneg x.
(* faster_sine, lines 236-239 *)
Definition faster_sine (x : f32) : f32 :=
  let x := fsub (fmul x (f32_of_int 2)) f32_one in
  fmul (f32_of_int 4) (fsub x (fmul x (f_abs x))).
(* is_finite_fastmath, lines 321-324: [b] is the bit pattern *)
Definition is_finite_fastmath (b : Z) : bool := negb (Z.land b 0x7f800000 =? 0x7f800000).
(* is_inf_fastmath, lines 326-328: the literal is the largest finite number *)
Definition is_inf_fastmath (a : f32) : bool := SFltb (f32_of (2 ^ 24 - 1) 104) (SFabs a).
(* hysteresis_feedback, lines 358-361; hysteresis_gate, lines 337-344 *)
Definition hysteresis_feedback_f (feedback_coef thresh last_output new_input : f32) : f32 :=
  if SFltb thresh (fadd new_input (fmul last_output feedback_coef)) then f32_one else f32_zero.
Definition hysteresis_gate_f (turn_off turn_on last_output new_input : f32) : f32 :=
  let half := f32_of 1 (-1) in
  let feedback_amt := fmul (fsub turn_on turn_off) half in
  let feedback := fmul feedback_amt last_output in
  let test_signal := fadd new_input feedback in
  let threshold := fmul (fadd turn_on turn_off) half in
  if SFltb threshold test_signal then f32_one else f32_zero.
