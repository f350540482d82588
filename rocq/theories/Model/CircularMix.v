(* The crossfade of CircularBufferAccess::write and write_reverse, util/circular_buffer_ext.hh. *)
From Coq Require Import Floats.SpecFloat.
From Verif.Common Require Import Base F32.
From Verif.Model Require Import CircularExt.
Open Scope Z_scope.

(* value_type = float; lines 63 and 76: d * phase + buf[wr] * (1.f - phase) *)
Definition mix_f32 (phase d old : f32) : f32 := fadd (fmul d phase) (fmul old (fsub f32_one phase)).
(* conversion of a float to a signed integer of [w] bits *)
Definition f32_to_sint (w : Z) (x : f32) : outcome Z :=
  match f32_trunc x with
  | Some n => if (- 2 ^ (w - 1) <=? n) && (n <? 2 ^ (w - 1)) then Ok n else UB BadCast
  | None => UB BadCast
  end.
(* value_type = a signed integer of [w] bits; lines 63 and 76: the integers are converted to
   float, the result is converted back *)
Definition mix_int (w : Z) (phase : f32) (d old : Z) : outcome Z :=
  f32_to_sint w (mix_f32 phase (f32_of_int d) (f32_of_int old)).
(* one call with the phase given to write or write_reverse (1 for write_check_crossed, line 106) *)
Definition mix_step (W : Z) (s : acc f32) (o : f32 * aop f32) : outcome (acc f32 * aout f32) :=
  acc_step W (mix_f32 (fst o)) f32_zero s (snd o).
