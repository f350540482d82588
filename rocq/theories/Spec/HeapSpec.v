(* Variables that each own an array. *)
From Verif.Common Require Import Base.

Section Heap.
Context {E : Type}.
(** What a program does with buffer variables: define one, end its lifetime, store an element,
    read an element, define one as a copy of another, assign one to another. *)
Inductive bop := BNew (v : Z) | BEnd (v : Z) | BSet (v i : Z) (x : E) | BGet (v i : Z) | BCopy (v w : Z) | BAssign (v w : Z).
Definition no_copy (o : bop) : Prop := match o with BCopy _ _ | BAssign _ _ => False | _ => True end.
Definition set_at {A} (f : Z -> A) (v : Z) (x : A) : Z -> A := fun u => if u =? v then x else f u.
(** Value semantics: a variable that exists has [n] elements, not set at first.  The program must
    not define a variable twice or use one that does not exist. *)
Definition values := Z -> option (list (option E)).
Definition value_step (n : Z) (s : values) (o : bop) : outcome (values * option E) :=
  match o with
  | BNew v => match s v with None => Ok (set_at s v (Some (zrepeat None n)), None) | Some _ => UB BadDeref end
  | BEnd v => match s v with Some _ => Ok (set_at s v None, None) | None => UB BadDeref end
  | BSet v i x => match s v with Some l => let* l' := wr l i (Some x) in Ok (set_at s v (Some l'), None) | None => UB BadDeref end
  | BGet v i =>
      match s v with
      | Some l => let* c := rd l i in match c with Some x => Ok (s, Some x) | None => UB Indeterminate end
      | None => UB BadDeref
      end
  | BCopy v w => match s v, s w with None, Some l => Ok (set_at s v (Some l), None) | _, _ => UB BadDeref end
  | BAssign v w => match s v, s w with Some _, Some l => Ok (set_at s v (Some l), None) | _, _ => UB BadDeref end
  end.
End Heap.
Arguments bop : clear implicits.
Arguments values : clear implicits.
