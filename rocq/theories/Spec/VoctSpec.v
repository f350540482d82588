(* Histories of a volt-per-octave calibrator over float. *)
From Coq Require Import ZArith List Floats.SpecFloat.
From Verif.Common Require Import Base F32.
Open Scope Z_scope.

(** Calls: reset, and a measurement of a note 0 (C0) to 10 (C10); 11 is None. *)
Inductive vfop := VFReset | VFRec (note : Z) (m : f32).
Definition vf_valid (o : vfop) : Prop := match o with VFRec n _ => 0 <= n <= 11 | VFReset => True end.
(** The measurements since the last reset, None left out. *)
Definition vf_measured (h : list (Z * f32)) (o : vfop) : list (Z * f32) :=
  match o with VFReset => [] | VFRec n m => if n =? 11 then h else h ++ [(n, m)] end.
Definition vf_measurements (ops : list vfop) : list (Z * f32) := fold_left vf_measured ops [].
