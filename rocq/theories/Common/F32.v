(* Single precision IEEE arithmetic, round to nearest even (stdlib SpecFloat). *)
From Coq Require Import Floats.SpecFloat.
From Verif.Common Require Import Base.

Definition f32 := spec_float.
Definition fadd : f32 -> f32 -> f32 := SFadd 24 128.
Definition fsub : f32 -> f32 -> f32 := SFsub 24 128.
Definition fmul : f32 -> f32 -> f32 := SFmul 24 128.
Definition fdiv : f32 -> f32 -> f32 := SFdiv 24 128.
(** m * 2^e, rounded *)
Definition f32_of (m e : Z) : f32 := binary_normalize 24 128 m e false.
(** conversion of an integer *)
Definition f32_of_int (n : Z) : f32 := f32_of n 0.
Definition f32_one : f32 := f32_of_int 1.
Definition f32_zero : f32 := S754_zero false.
(** value truncated towards zero, if finite *)
Definition f32_trunc (x : f32) : option Z :=
  match x with
  | S754_zero _ => Some 0
  | S754_finite s m e =>
      let v := if 0 <=? e then Z.pos m * 2 ^ e else Z.pos m / 2 ^ (- e) in
      Some (if s then - v else v)
  | _ => None
  end.
(** conversion to an unsigned type of [w] bits, undefined if the truncated value does not fit *)
Definition f32_to_uint (w : Z) (x : f32) : outcome Z :=
  match f32_trunc x with
  | Some n => if (0 <=? n) && (n <? 2 ^ w) then Ok n else UB BadCast
  | None => UB BadCast
  end.
