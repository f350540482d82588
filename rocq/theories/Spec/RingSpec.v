(* Specifications for the overwriting ring containers: a queue that forgets its
   oldest item when full, and a stack that forgets its oldest item when full. *)
From Verif.Common Require Import Base.

Section Ring.
Context {T : Type}.

(* ---- overwriting queue ---- *)
Inductive rop :=
| RPut (x : T) | RGet | RGetOpt | RRemoveFirst | RReset
| RCount | RFull | REmpty | RMaxSize | RPeek (i : Z) | RFill (x : T).
Inductive rout := OUnit | OItem (x : T) | OOpt (o : option T) | ONum (n : Z) | OBool (b : bool).

(** [items] is oldest first. *)
Definition ring_step (dflt : T) (cap : Z) (items : list T) (o : rop) : list T * rout :=
  match o with
  | RPut x => (if zlen items =? cap then tl items ++ [x] else items ++ [x], OUnit)
  | RGet => match items with [] => ([], OItem dflt) | x :: r => (r, OItem x) end
  | RGetOpt => match items with [] => ([], OOpt None) | x :: r => (r, OOpt (Some x)) end
  | RRemoveFirst => (tl items, OUnit)
  | RReset => ([], OUnit)
  | RCount => (items, ONum (zlen items))
  | RFull => (items, OBool (zlen items =? cap))
  | REmpty => (items, OBool (zlen items =? 0))
  | RMaxSize => (items, ONum cap)
  | RPeek i => (items, match znth items i with Some x => OItem x | None => OUnit end)
  | RFill x => (map (fun _ => x) items, OUnit)
  end.

(** peek is only meaningful for an item that is there. *)
Definition peek_in_range (items : list T) (o : rop) : Prop :=
  match o with RPeek i => 0 <= i < zlen items | _ => True end.

(* ---- stack ---- *)
Inductive sop := SPush (x : T) | SPop | SPopOrZero | SBack | SSize | SEmpty | SClear | SMaxSize.

(** [items] is newest first. *)
Definition stack_step (dflt : T) (cap : Z) (items : list T) (o : sop) : list T * rout :=
  match o with
  | SPush x => (firstn (Z.to_nat cap) (x :: items), OUnit)
  | SPop => match items with [] => ([], OOpt None) | x :: r => (r, OOpt (Some x)) end
  | SPopOrZero => match items with [] => ([], OItem dflt) | x :: r => (r, OItem x) end
  | SBack => (items, OOpt (match items with [] => None | x :: _ => Some x end))
  | SSize => (items, ONum (zlen items))
  | SEmpty => (items, OBool (zlen items =? 0))
  | SClear => ([], OUnit)
  | SMaxSize => (items, ONum cap)
  end.
End Ring.
Arguments rop : clear implicits.
Arguments rout : clear implicits.
Arguments sop : clear implicits.

(** A ring shared by a main program and an interrupt handler.  QPut stores only while at least two
    places are free (count() < max_size() - 1); QPutAny always stores. *)
Inductive qop (T : Type) := QPut (x : T) | QPutAny (x : T) | QGet | QRemove | QCount.
Arguments QPut {T} x. Arguments QPutAny {T} x. Arguments QGet {T}. Arguments QRemove {T}. Arguments QCount {T}.
Definition takes {T} (o : qop T) : Prop := o = QGet \/ o = QRemove.
Definition puts {T} (o : qop T) : Prop := exists x, o = QPut x.
(** A queue of at most [cap - 1] items that loses nothing. *)
Definition lossless_step {T} (cap : Z) (items : list T) (o : qop T) : list T * rout T :=
  match o with
  | QPut x => if zlen items <? cap - 1 then (items ++ [x], OBool true) else (items, OBool false)
  | QPutAny x => (items ++ [x], OUnit)
  | QGet => (tl items, OOpt (hd_error items))
  | QRemove => (tl items, OUnit)
  | QCount => (items, ONum (zlen items))
  end.
