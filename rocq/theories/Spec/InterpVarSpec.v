(* Histories of calls on an interpolated parameter with a variable number of updates. *)
From Verif.Common Require Import Base.

(** set_new_value, set_num_updates, next, and a store to the public member cur_val. *)
Inductive vcall (A : Type) := VSet (x : A) | VNum (n : Z) | VNext | VJump (x : A).
Arguments VSet {A}. Arguments VNum {A}. Arguments VNext {A}. Arguments VJump {A}.

(** The number of updates after a history that began with [n0]. *)
Fixpoint updates_in_force {A} (n0 : Z) (h : list (vcall A)) : Z :=
  match h with
  | [] => n0
  | VNum n :: r => updates_in_force n r
  | _ :: r => updates_in_force n0 r
  end.
(** The number of calls of next. *)
Fixpoint nexts {A} (h : list (vcall A)) : nat :=
  match h with
  | [] => O
  | VNext :: r => S (nexts r)
  | _ :: r => nexts r
  end.
(** Only calls of next and set_num_updates. *)
Definition undisturbed {A} (h : list (vcall A)) : Prop :=
  Forall (fun c => match c with VNext | VNum _ => True | _ => False end) h.
(** No store to cur_val. *)
Definition no_jump {A} (h : list (vcall A)) : Prop :=
  Forall (fun c => match c with VJump _ => False | _ => True end) h.
