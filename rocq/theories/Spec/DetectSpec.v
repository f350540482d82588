(* Edges, changes and thresholds in a history. *)
From Coq Require Import Floats.SpecFloat.
From Verif.Common Require Import Base.
From Verif.Spec Require Import History.

(** The i-th most recent element, [d] before the first. *)
Definition ago {A} (d : A) (l : list A) (i : nat) : A := nth i (rev l) d.

(** Calls on an edge detector, and its samples since the last reset. *)
Inductive eop := EUpdate (b : bool) | EReset.
Definition since_reset (h : list eop) : list bool :=
  fold_left (fun l o => match o with EUpdate b => l ++ [b] | EReset => [] end) h [].

(** Calls on a value holder: store a value, ask whether it changed. *)
Inductive vop (A : Type) := VSet (x : A) | VChanged.
Arguments VSet {A} x. Arguments VChanged {A}.
(** The value held; the value held when it was last asked. *)
Definition held {A} (v0 : A) (h : list (vop A)) : A := fold_left (fun v o => match o with VSet x => x | VChanged => v end) h v0.
Definition at_last_query {A} (v0 z : A) (h : list (vop A)) : A :=
  snd (fold_left (fun '(v, q) o => match o with VSet x => (x, q) | VChanged => (v, v) end) h (v0, z)).
Definition changes {A} (v0 : A) (h : list (vop A)) (o : vop A) : Prop := exists x, o = VSet x /\ x <> held v0 h.
Definition asked {A} (_ : list (vop A)) (o : vop A) : Prop := o = VChanged.

(** Calls on a latched parameter: offer a value, ask whether it changed, assign it directly. *)
Inductive lop := LStore (x : Z) | LDid | LAssign (x : Z).
(** The value latched: an offer is taken when it is at least [m] away. *)
Definition latched (m : Z) (h : list lop) : Z :=
  fold_left (fun v o => match o with LStore x => if m <=? Z.abs (x - v) then x else v | LDid => v | LAssign x => x end) h 0.
Definition accepts (m : Z) (h : list lop) (o : lop) : Prop := exists x, o = LStore x /\ m <= Z.abs (x - latched m h).
Definition did (_ : list lop) (o : lop) : Prop := o = LDid.

(** Calls on a Schmitt trigger: a float sample, or reading an event. *)
Inductive sop := SSample (v : spec_float) | SPressed | SReleased.
Definition above (high : spec_float) (_ : list sop) (o : sop) : Prop := exists v, o = SSample v /\ SFltb high v = true.
Definition below (low : spec_float) (_ : list sop) (o : sop) : Prop := exists v, o = SSample v /\ SFltb v low = true.
(** High after a history: a sample exceeded [high], and none was under [low] since. *)
Definition gate_high (low high : spec_float) : list sop -> Prop := since (above high) (below low).
Definition gate_rises (low high : spec_float) (h : list sop) (o : sop) : Prop := above high h o /\ ~ gate_high low high h.
Definition gate_falls (low high : spec_float) (h : list sop) (o : sop) : Prop := below low h o /\ gate_high low high h.
