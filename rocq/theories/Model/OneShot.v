(* util/oscs.hh, OneShot (lines 214-245) as a whole: the state is increment_ and pulse_width_; a call
   and what it returns (false when it returns nothing).  In single precision and in exact
   arithmetic; update is Model/Oscs.v's. *)
From Coq Require Import QArith Floats.SpecFloat.
From Verif.Common Require Import Base F32.
From Verif.Spec Require Import OneShotSpec.
From Verif.Model Require Import Oscs.

(* lines 215-218 *)
Definition os_init (hz : f32) : f32 * f32 := (fdiv f32_one hz, f32_zero).
Definition os_step (s : f32 * f32) (o : oop f32) : (f32 * f32) * bool :=
  let (inc, w) := s in
  match o with
  | OStart width => ((inc, width), false)                                       (* lines 220-222 *)
  | OUpdate => let (w', r) := oneshot_update inc w in ((inc, w'), r)            (* lines 225-231 *)
  | OStop => ((inc, f32_zero), false)                                           (* lines 233-235 *)
  | ORate hz => ((if SFltb f32_zero hz then fdiv f32_one hz else inc, w), false) (* lines 237-240 *)
  end.
Definition os_init_q (hz : Q) : Q * Q := (1 / hz, 0)%Q.
Definition os_step_q (s : Q * Q) (o : oop Q) : (Q * Q) * bool :=
  let (inc, w) := s in
  match o with
  | OStart width => ((inc, width), false)
  | OUpdate => let (w', r) := oneshot_update_q inc w in ((inc, w'), r)
  | OStop => ((inc, 0%Q), false)
  | ORate hz => ((if negb (Qle_bool hz 0) then (1 / hz)%Q else inc, w), false)
  end.
