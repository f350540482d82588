(* A CircularBufferAccess of which one side of an interrupt reads and the other writes. *)
From Verif.Common Require Import Base.
From Verif.Model Require Import CircularExt.

(** [t] consists of the elements of [a] and of [b], each in their order. *)
Inductive merged {A} : list A -> list A -> list A -> Prop :=
| merged_nil : merged [] [] []
| merged_left x a b t : merged a b t -> merged (x :: a) b (x :: t)
| merged_right x a b t : merged a b t -> merged a (x :: b) (x :: t).

Section Sides.
Context {T : Type}.
Definition reading_side (o : aop T) : Prop :=
  match o with ARead _ | AReadRev _ | AReadCheck _ _ | AReadRevCheck _ _ | ASetRd _ | AGetRd => True | _ => False end.
Definition writing_side (o : aop T) : Prop :=
  match o with AWrite _ | AWriteRev _ | AWriteCheck _ _ | ASetWr _ | AGetWr | AClear => True | _ => False end.
(** A call as calls that transfer one element each. *)
Definition one_by_one (o : aop T) : list (aop T) :=
  match o with
  | ARead n | AReadCheck n _ => repeat (ARead 1) (Z.to_nat n)
  | AReadRev n | AReadRevCheck n _ => repeat (AReadRev 1) (Z.to_nat n)
  | AWrite d | AWriteCheck d _ => map (fun x => AWrite [x]) d
  | AWriteRev d => map (fun x => AWriteRev [x]) d
  | _ => [o]
  end.
Definition transfers (o : aop T) : Prop :=
  match o with ARead _ | AReadRev _ | AReadCheck _ _ | AReadRevCheck _ _ | AWrite _ | AWriteRev _ | AWriteCheck _ _ => True | _ => False end.
Definition data_of (r : aout T) : list T := match r with AData d _ => d | _ => [] end.
Definition flag_of (r : aout T) : option bool := match r with AData _ b | AFlag b => Some b | _ => None end.
(** The number of elements written by calls of write. *)
Definition written (o : aop T) : Z := match o with AWrite d => zlen d | _ => 0 end.
Definition total_written (l : list (aop T)) : Z := fold_right Z.add 0 (map written l).
End Sides.
