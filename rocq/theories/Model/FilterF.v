(* util/filter.hh lines 145-188: the nonlinear one pole filters with T = float. *)
From Coq Require Import ZArith List Floats.SpecFloat.
From Verif.Common Require Import Base F32.
Open Scope Z_scope.

(* std::clamp (lo is not above hi) and std::abs *)
Definition clamp_f (v lo hi : f32) : f32 := if SFltb v lo then lo else if SFltb hi v then hi else v.
(* NonLinearOnePoleLp::add_val, lines 157-160; the new state is also the result *)
Definition one_pole_f (transfer : f32 -> f32) (state input : f32) : f32 := fadd state (transfer (fsub input state)).
(* TransferQuadratic::Process, lines 169-172; Divisor converts exactly up to 2^24 *)
Definition quadratic_fact (Divisor : Z) : f32 := fdiv f32_one (f32_of_int Divisor).
Definition transfer_quadratic_f (Divisor : Z) (x : f32) : f32 := fmul (fmul (SFabs x) x) (quadratic_fact Divisor).
(* TransferHysteresis::Process, lines 177-180 *)
Definition hysteresis_flat (Numerator Divisor : Z) : f32 := fdiv (f32_of_int Numerator) (f32_of_int Divisor).
Definition transfer_hysteresis_f (Numerator Divisor : Z) (x : f32) : f32 :=
  let flat := hysteresis_flat Numerator Divisor in fsub x (clamp_f x (SFopp flat) flat).
(* QuadraticOnePoleLp and HysteresisFilter, lines 184-188: the state after a sequence of inputs *)
Definition quadratic_step (Divisor : Z) : f32 -> f32 -> f32 := one_pole_f (transfer_quadratic_f Divisor).
Definition hysteresis_step (Numerator Divisor : Z) : f32 -> f32 -> f32 := one_pole_f (transfer_hysteresis_f Numerator Divisor).
