(* Specification: a bounded FIFO queue. Nothing here mentions the code. *)
From Verif.Common Require Import Base.

Section Queue.
Context {T : Type}.

(** Calls a user can make.  [GetMove r] is a get that may leave any junk [r]
    behind in the storage; a queue's user must not be able to see it. *)
Inductive qop :=
| Put (x : T)
| Get
| GetMove (residue : T)
| GetOrDefault
| RemoveFirst
| Reset
| NumFree
| NumFilled
| Full
| Empty
| MaxSize
| Resize (n : Z).

Inductive qout :=
| RUnit
| RBool (b : bool)
| ROpt (o : option T)
| RItem (x : T)
| RNum (n : Z).

(** The queue: capacity and items, oldest first. *)
Record queue := Queue { qcap : Z; qitems : list T }.

Definition queue_step (dflt : T) (q : queue) (o : qop) : queue * qout :=
  let n := zlen (qitems q) in
  match o with
  | Put x => if n =? qcap q then (q, RBool false)
             else (Queue (qcap q) (qitems q ++ [x]), RBool true)
  | Get | GetMove _ =>
      match qitems q with
      | [] => (q, ROpt None)
      | x :: rest => (Queue (qcap q) rest, ROpt (Some x))
      end
  | GetOrDefault =>
      match qitems q with
      | [] => (q, RItem dflt)
      | x :: rest => (Queue (qcap q) rest, RItem x)
      end
  | RemoveFirst => (Queue (qcap q) (tl (qitems q)), RUnit)
  | Reset => (Queue (qcap q) [], RUnit)
  | NumFree => (q, RNum (qcap q - n))
  | NumFilled => (q, RNum n)
  | Full => (q, RBool (n =? qcap q))
  | Empty => (q, RBool (n =? 0))
  | MaxSize => (q, RNum (qcap q))
  | Resize m => if m =? qcap q then (q, RUnit) else (Queue m [], RUnit)
  end.

Definition queue_outputs (dflt : T) (cap : Z) (initial : list T) (ops : list qop) : list qout :=
  snd (srun (queue_step dflt) (Queue cap initial) ops).

Fixpoint count_puts (ops : list qop) : Z :=
  match ops with
  | [] => 0
  | Put _ :: r => 1 + count_puts r
  | _ :: r => count_puts r
  end.

(** Capacities requested by [Resize] calls. *)
Fixpoint resizes (ops : list qop) : list Z :=
  match ops with
  | [] => []
  | Resize n :: r => n :: resizes r
  | _ :: r => resizes r
  end.

End Queue.
Arguments qop : clear implicits.
Arguments qout : clear implicits.
Arguments queue : clear implicits.
