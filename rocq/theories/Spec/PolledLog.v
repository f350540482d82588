(* Specification for the polled consumer: what the two threads may observe of a
   bounded FIFO queue when the consumer first asks how many items are there.
   Nothing here mentions the code. *)
From Verif.Common Require Import Base.
From Verif.Spec Require Import FifoLog.

Section Polled.
Context {T : Type}.

Inductive pevent :=
| Counted (n : Z)          (* the consumer was told that n items are waiting *)
| CameBackEmpty            (* a get of an announced item returned nothing *)
| Eff (e : effect T).      (* a successful put, get or removal *)

(** A legal history of a queue of capacity [cap] that now holds [q]: a count
    never announces more than is there, and a get of an announced item succeeds,
    with the oldest item. *)
Fixpoint polled_legal (cap : Z) (q : list T) (log : list pevent) : Prop :=
  match log with
  | [] => True
  | Counted n :: r => 0 <= n <= zlen q /\ zlen q <= cap /\ polled_legal cap q r
  | CameBackEmpty :: _ => False
  | Eff (EffPut x) :: r => zlen q < cap /\ polled_legal cap (q ++ [x]) r
  | Eff (EffGot x) :: r => exists q', q = x :: q' /\ polled_legal cap q' r
  | Eff (EffSkip n) :: r => 0 <= n <= zlen q /\ polled_legal cap (skipn (Z.to_nat n) q) r
  end.
End Polled.
Arguments pevent : clear implicits.
