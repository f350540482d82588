(* Exact sums and means of single precision numbers. *)
From Coq Require Import Reals List.
From Flocq Require Import Core.
From Verif.Common Require Import Base F32 F32Real.
From Verif.Spec Require Import FilterSpec.
Import ListNotations.
Open Scope R_scope.

Definition rsum (l : list f32) : R := fold_right (fun x r => fval x + r) 0 l.
Definition rmean (l : list f32) : R := rsum l / IZR (zlen l).
(* every sample is a number of absolute value at most 2^e; every block size is within 1..2^20 *)
Definition samples (e : Z) (l : list f32) : Prop := Forall (fun x => finite_f32 x /\ Rabs (fval x) <= bpow radix2 e) l.
Definition op_ok (e : Z) (o : roop) : Prop := match o with OSize n => (1 <= n <= 2 ^ 20)%Z | OAdd x => finite_f32 x /\ Rabs (fval x) <= bpow radix2 e end.
