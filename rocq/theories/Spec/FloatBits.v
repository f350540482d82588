(* The IEEE 754 single precision encoding: what number a 32-bit pattern stands for. *)
From Coq Require Import Floats.SpecFloat.
From Verif.Common Require Import Base F32.
Open Scope Z_scope.

(** sign: bit 31; biased exponent: bits 23 to 30; fraction: bits 0 to 22 *)
Definition f32_of_bits (b : Z) : f32 :=
  let s := Z.testbit b 31 in
  let e := (b / 2 ^ 23) mod 2 ^ 8 in
  let m := b mod 2 ^ 23 in
  if e =? 255 then (if m =? 0 then S754_infinity s else S754_nan)
  else if e =? 0 then (match m with Z.pos p => S754_finite s p (-149) | _ => S754_zero s end)
  else (match 2 ^ 23 + m with Z.pos p => S754_finite s p (e - 150) | _ => S754_nan end).
(** neither an infinity nor not-a-number *)
Definition is_number (x : f32) : bool := match x with S754_infinity _ | S754_nan => false | _ => true end.
