(* FixedVector shared by a main program and an interrupt handler: which calls are meant. *)
From Verif.Common Require Import Base.
From Verif.Spec Require Import VectorSpec.

Section VectorIrq.
Context {T : Type}.
(** Calls that only look. *)
Definition v_reads (o : vop T) : Prop :=
  match o with VBack | VSize | VMaxSize | VAvailable | VContents | VAt _ => True | _ => False end.
(** Calls that move no element of a vector of [n] elements from one place to another: all except
    inserting before the end and erasing before the end. *)
Definition v_moves_nothing (n : Z) (o : vop T) : Prop :=
  match o with
  | VInsert i _ => n <= i
  | VErase i => n - 1 <= i
  | VEraseRange f e => e <= f \/ n <= e
  | _ => True
  end.
(** The element a call brings in. *)
Definition v_new (o : vop T) : list T :=
  match o with VPush x | VInsert _ x | VResize _ x | VSet _ x => [x] | _ => [] end.
End VectorIrq.
