(* Specification for the weak-memory claim: the log of successful effects is one a
   bounded FIFO queue could produce.  Nothing here mentions the code. *)
From Verif.Common Require Import Base.

Section Log.
Context {T : Type}.

Inductive effect :=
| EffPut (x : T)        (* a put that returned true *)
| EffGot (x : T)        (* a get that returned x *)
| EffSkip (n : Z).      (* n oldest items discarded (remove_first, reset) *)

(** Replay the effects on a queue of capacity [cap]; None if impossible. *)
Fixpoint replay (cap : Z) (q : list T) (log : list effect) : Prop :=
  match log with
  | [] => True
  | EffPut x :: r => zlen q < cap /\ replay cap (q ++ [x]) r
  | EffGot x :: r => exists q', q = x :: q' /\ replay cap q' r
  | EffSkip n :: r => 0 <= n <= zlen q /\ replay cap (skipn (Z.to_nat n) q) r
  end.
End Log.
Arguments effect : clear implicits.
