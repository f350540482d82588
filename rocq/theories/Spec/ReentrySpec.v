(* Specification of calls made from inside the hardware function of a double-buffered
   transmitter. *)
From Verif.Common Require Import Base.
From Verif.Spec Require Import StreamSpec.

Section Reentry.
Context {T : Type}.
Variable cap : Z.
(** A call and the calls the hardware function makes, should this call start a transfer, before it returns
    (true). *)
Inductive rop := RTransmit (word : list T) (inner : list rop) | RDone (inner : list rop).
Definition rhead (o : rop) : dop T := match o with RTransmit w _ => DTransmit w true | RDone _ => DDone true end.
Definition rinner (o : rop) : list rop := match o with RTransmit _ l | RDone l => l end.
(** Does the transmitter hand a buffer to the hardware? *)
Definition hands_over (r : dout T) : bool := match snd r with Some _ => true | None => false end.
(** The calls in the order in which they begin: the calls the hardware function makes come right after the one
    that started the transfer. *)
Fixpoint order (o : rop) (q : option (list T) * list T) {struct o} : (option (list T) * list T) * list (dop T) :=
  let (q1, r) := dbs_spec cap q (rhead o) in
  let inner := (fix go l q := match l with
    | [] => (q, [])
    | o :: l' => let (q1, a) := order o q in let (q2, b) := go l' q1 in (q2, a ++ b)
    end) in
  if hands_over r then
    match o with RTransmit _ l | RDone l => let (q2, a) := inner l q1 in (q2, rhead o :: a) end
  else (q1, [rhead o]).
Fixpoint orders (l : list rop) (q : option (list T) * list T) : (option (list T) * list T) * list (dop T) :=
  match l with
  | [] => (q, [])
  | o :: l' => let (q1, a) := order o q in let (q2, b) := orders l' q1 in (q2, a ++ b)
  end.
End Reentry.
Arguments rop : clear implicits.
