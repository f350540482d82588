(* A button read by one toggler (the source), whose events are moved to a second one (the
   receiver) that is asked. *)
From Verif.Common Require Import Base.
From Verif.Spec Require Import ButtonSpec IrqSpec.

(** The new level an operation on the source announces. *)
Definition announces (o : top) : option bool :=
  match o with TReg b => Some b | TRise => Some true | TFall => Some false | _ => None end.
Definition asks (o : top) : bool := match o with TPressed | TReleased => true | _ => false end.
Definition asks_receiver (o : xop) : bool := match o with XFirst _ => true | _ => false end.

(** The source only gets samples and edges, the receiver is only asked, and between two transfers
    the level changes at most once. *)
Fixpoint unhurried (lvl changed : bool) (ops : list xop) : Prop :=
  match ops with
  | [] => True
  | XFirst o :: r => asks o = true /\ unhurried lvl changed r
  | XTransfer :: r => unhurried lvl false r
  | XSecond (TReg b) :: r => if Bool.eqb b lvl then unhurried lvl changed r else changed = false /\ unhurried b true r
  | XSecond TRise :: r => lvl = false /\ changed = false /\ unhurried true true r
  | XSecond TFall :: r => lvl = true /\ changed = false /\ unhurried false true r
  | XSecond _ :: _ => False
  end.
(** The same history for a single toggler: it samples the button when the transfers happen. *)
Fixpoint direct (lvl : bool) (ops : list xop) : list top :=
  match ops with
  | [] => []
  | XFirst o :: r => o :: direct lvl r
  | XTransfer :: r => TReg lvl :: direct lvl r
  | XSecond o :: r => direct (match announces o with Some b => b | None => lvl end) r
  end.
(** The results of the operations that satisfy [p]. *)
Fixpoint picks {A B} (p : A -> bool) (ops : list A) (outs : list B) : list B :=
  match ops, outs with
  | o :: ops', x :: outs' => if p o then x :: picks p ops' outs' else picks p ops' outs'
  | _, _ => []
  end.
(** Do the samples [l], starting from level [lvl], contain a change to level [e]? *)
Fixpoint changes_to (e lvl : bool) (l : list bool) : bool :=
  match l with
  | [] => false
  | b :: r => (Bool.eqb b e && negb (Bool.eqb lvl e)) || changes_to e b r
  end.
