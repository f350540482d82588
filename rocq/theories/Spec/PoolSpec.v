(* Specification of an object pool: which slots are live, and what they hold. *)
From Verif.Common Require Import Base.

Section Pool.
Context {T : Type}.
(** A pointer argument is a slot of this pool or something else. *)
Inductive ptr := Slot (i : Z) | Foreign.
Inductive pop := PCreate | PCreateOverwrite | PDestroy (p : ptr) | PWrite (i : Z) (x : T) | PRead (i : Z).
Inductive pout := PoPtr (i : option Z) | PoBool (b : bool) | PoItem (x : T) | PoUnit.

(** Slot i is [Some x] while the object there is live and holds x. *)
Definition pool_spec (dflt : T) (l : list (option T)) (o : pop) (r : pout) (l' : list (option T)) : Prop :=
  match o with
  | PCreate =>
      (exists i, r = PoPtr (Some i) /\ znth l i = Some None /\ l' = zupd l i (Some dflt)) \/
      (r = PoPtr None /\ Forall (fun e => e <> None) l /\ l' = l)
  | PCreateOverwrite =>
      (exists i junk, r = PoPtr (Some i) /\ znth l i = Some None /\ l' = zupd l i (Some junk)) \/
      (r = PoPtr None /\ Forall (fun e => e <> None) l /\ l' = l)
  | PDestroy Foreign => r = PoBool false /\ l' = l
  | PDestroy (Slot i) =>
      (exists x, znth l i = Some (Some x) /\ r = PoBool true /\ l' = zupd l i None) \/
      ((forall x, znth l i <> Some (Some x)) /\ r = PoBool false /\ l' = l)
  | PWrite i x => r = PoUnit /\ l' = match znth l i with Some (Some _) => zupd l i (Some x) | _ => l end
  | PRead i => exists x, r = PoItem x /\ l' = l /\ forall y, znth l i = Some (Some y) -> x = y
  end.
Definition pop_ok (N : Z) (o : pop) : Prop :=
  match o with PWrite i _ | PRead i => 0 <= i < N | _ => True end.

(** Calls of an interrupt handler that uses only objects that are live in [l]: it creates none and
    does not touch one it has destroyed. *)
Definition live_at (l : list (option T)) (i : Z) : Prop := exists x, znth l i = Some (Some x).
Fixpoint uses_live (l : list (option T)) (ops : list pop) : Prop :=
  match ops with
  | [] => True
  | PDestroy (Slot i) :: r => live_at l i /\ uses_live (zupd l i None) r
  | PDestroy Foreign :: r => uses_live l r
  | PWrite i _ :: r | PRead i :: r => live_at l i /\ uses_live l r
  | PCreate :: _ | PCreateOverwrite :: _ => False
  end.
Definition creates (o : pop) : Prop := o = PCreate \/ o = PCreateOverwrite.
End Pool.
Arguments pop : clear implicits.
Arguments pout : clear implicits.
