(* Counting the puts of a history, and the calls that take elements out of a queue or only look at it. *)
From Verif.Common Require Import Base.
From Verif.Spec Require Import RingSpec Queue.

Definition ring_puts {T} (ops : list (rop T)) : Z :=
  zlen (filter (fun o => match o with RPut _ => true | _ => false end) ops).
(** put, get, remove_first and the queries *)
Definition ring_plain {T} (o : rop T) : Prop := match o with RReset | RFill _ => False | _ => True end.

Definition queue_puts {T} (ops : list (Queue.qop T)) : Z :=
  zlen (filter (fun o => match o with Put _ => true | _ => false end) ops).
(** put, get, get_or_default, remove_first, reset and the queries *)
Definition queue_plain {T} (o : Queue.qop T) : Prop := match o with GetMove _ | Resize _ => False | _ => True end.
(** the statically sized FIFO has no resize *)
Definition queue_static {T} (o : Queue.qop T) : Prop := match o with Resize _ => False | _ => True end.

(** What element j of the storage [d] of a vector of size n is after the elements f .. e-1 were
    erased, if an element that is moved from becomes [moved] of itself: in front of f nothing
    changes, the elements behind e come next, the ones behind those up to e stay what they were,
    the rest up to n was moved from. *)
Definition erased {T : Type} (moved : T -> T) (d : list T) (n f e j : Z) : option T :=
  if j <? f then znth d j
  else if j <? f + (n - e) then znth d (j + (e - f))
  else if j <? e then znth d j
  else if j <? n then option_map moved (znth d j)
  else znth d j.
