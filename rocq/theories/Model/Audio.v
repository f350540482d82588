(* util/audio_frame.hh: AudioFrame<SampleType, UsedBits, NumChannels>.  SampleType has [w] bits and is
   signed or not ([sgn]); [u] is UsedBits. *)
From Coq Require Import Floats.SpecFloat.
From Verif.Common Require Import Base F32.
From Verif.Model Require Import MathInt CircularMix.
Open Scope Z_scope.

(* kMaxValue and kOutScaling, lines 14-15 *)
Definition out_scaling (u : Z) : f32 := f32_of_int (ipow 2 (Z.to_nat (u - 1))).
(* sign_extend, lines 51-61.  The bit-field read through the reinterpreted pointer is modelled as
   the low [u] bits, its layout on the little endian targets. *)
Definition sign_extend (w u : Z) (sgn : bool) (v : Z) : Z :=
  if w =? u then v else if sgn then sword w (sword u v) else word w (sword u v).
(* scaleInput, lines 29-31 *)
Definition scale_input (w u : Z) (sgn : bool) (v : Z) : f32 := fdiv (f32_of_int (sign_extend w u sgn v)) (out_scaling u).
(* MathTools::constrain<float>, math.hh lines 25-28 *)
Definition constrain_f (val min max : f32) : f32 := if SFltb val min then min else if SFltb max val then max else val.
(* scaleOutput, lines 33-48 *)
Definition scale_output (w u : Z) (sgn : bool) (val : f32) : outcome Z :=
  if sgn then
    if w >? u then
      let* v := f32_to_sint w (fmul val (out_scaling u)) in
      Ok (sword w (signed_saturate v 24))
    else
      let v := constrain_f val (f32_of_int (-1)) (fdiv (fsub (out_scaling u) f32_one) (out_scaling u)) in
      f32_to_sint w (fmul v (out_scaling u))
  else
    let v := constrain_f (fadd (fmul val (f32_of 1 (-1))) (f32_of 1 (-1))) f32_zero f32_one in
    f32_to_uint w (fmul v (f32_of_int (word 32 (ipow 2 (Z.to_nat u) - 1)))).
(* sign_extend_chan, scale_input_chan, set_scaled_output; lines 17-27 *)
Definition sign_extend_chan (w u : Z) (sgn : bool) (chan : list Z) (n : Z) : outcome Z := let* v := rd chan n in Ok (sign_extend w u sgn v).
Definition scale_input_chan (w u : Z) (sgn : bool) (chan : list Z) (n : Z) : outcome f32 := let* v := rd chan n in Ok (scale_input w u sgn v).
Definition set_scaled_output (w u : Z) (sgn : bool) (chan : list Z) (n : Z) (val : f32) : outcome (list Z) := let* v := scale_output w u sgn val in wr chan n v.
