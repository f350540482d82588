(* Calls of a main program interrupted by a handler: what it means that they take effect at once. *)
From Verif.Common Require Import Base.
From Verif.Spec Require Import ButtonSpec EncoderSpec.

(** [Irq i]: the handler calls [i] while the main program is not in a call.  [Call m gaps]: the main
    program calls [m]; the handler makes the calls [nth k gaps []] just before its access number [k]
    to the shared variables.  The handler itself is not interrupted. *)
Inductive icall (O : Type) := Irq (i : O) | Call (m : O) (gaps : list (list O)).
Arguments Irq {O} i.
Arguments Call {O} m gaps.

Section Atomically.
Context {S O R : Type} (step : S -> O -> outcome (S * R)).
(** Every call of the main program takes effect at one moment between two calls of the handler made
    during it; [rs] are the results of the main program and [qs] those of the handler. *)
Inductive atomically : S -> list (icall O) -> list R -> list R -> S -> Prop :=
| at_nil s : atomically s [] [] [] s
| at_irq s i s1 q h rs qs s' : step s i = Ok (s1, q) -> atomically s1 h rs qs s' -> atomically s (Irq i :: h) rs (q :: qs) s'
| at_call s m gaps a b s1 qa r qb h rs qs s' :
    concat gaps = a ++ b -> length qa = length a -> run step s (a ++ m :: b) = Ok (s1, qa ++ r :: qb) ->
    atomically s1 h rs qs s' -> atomically s (Call m gaps :: h) (r :: rs) (qa ++ qb ++ qs) s'.
End Atomically.

(** Who calls what. *)
Definition calls_by {O} (main handler : O -> Prop) (c : icall O) : Prop :=
  match c with Irq i => handler i | Call m gaps => main m /\ Forall (Forall handler) gaps end.
(** Polls take events, the other calls of a toggler do not. *)
Definition is_poll (o : top) : Prop := o = TPressed \/ o = TReleased.
Definition no_poll (o : top) : Prop := ~ is_poll o.
Definition registers (o : top) : Prop := exists b, o = TReg b.

(** Calls on two togglers, the first of which takes over the events of the second. *)
Inductive xop := XFirst (o : top) | XSecond (o : top) | XTransfer.

(** Motion: what the handler reports, and what it reports between the two accesses of use_motion. *)
Definition adds (o : rop) : Prop := exists d, o = RAdd d.
Definition uses (o : rop) : Prop := o = RUse.
Definition zsum (l : list Z) : Z := fold_right Z.add 0 l.
Definition arrived (h : list (icall rop)) : Z :=
  zsum (map (fun c => match c with Irq i => received [i] | Call _ gaps => received (concat gaps) end) h).
Definition missed (h : list (icall rop)) : Z :=
  zsum (map (fun c => match c with Irq _ => 0 | Call _ gaps => received (nth 1 gaps []) end) h).

(** Parameters: one side sets values, the other polls: "if it changed, read the value". *)
Inductive pop := PSet (x : Z) | PPoll.
Definition sets (o : pop) : Prop := exists x, o = PSet x.
Definition polls (o : pop) : Prop := o = PPoll.
(** The value the polling side has got last; [v] before the first. *)
Definition last_seen (v : Z) (rs : list (option Z)) : Z := fold_left (fun v r => match r with Some x => x | None => v end) rs v.
(** Nothing is set between the reading and the clearing of the flag. *)
Definition undisturbed (c : icall pop) : Prop := match c with Irq _ => True | Call _ gaps => nth 1 gaps [] = [] end.
