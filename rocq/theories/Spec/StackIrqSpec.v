(* A stack that forgets its oldest item, shared by a main program and an interrupt handler that only
   looks: what the handler may see. *)
From Verif.Common Require Import Base.
From Verif.Spec Require Import RingSpec IrqSpec.

Section StackIrq.
Context {T : Type}.
Variables (dflt : T) (cap : Z).
Notation stack := (stack_step dflt cap).

(** Calls that only look. *)
Definition s_reads (o : sop T) : Prop := match o with SBack | SSize | SEmpty | SMaxSize => True | _ => False end.
(** The calls of the main program. *)
Definition main_calls (h : list (icall (sop T))) : list (sop T) :=
  flat_map (fun c => match c with Irq _ => [] | Call m _ => [m] end) h.
(** A look [o] during the call [m] on a stack of [items] may be answered [r]: as before the call, as
    after it, or, if the call pushes the element that makes the stack full, as for an empty stack.
    During clear() only the size stays within the capacity. *)
Definition look_ok (items : list T) (m o : sop T) (r : rout T) : Prop :=
  match m with
  | SClear => match r with ONum k => 0 <= k <= cap | _ => True end
  | _ => exists items', r = snd (stack items' o) /\
           (items' = items \/ items' = fst (stack items m) \/ (items' = [] /\ exists x, m = SPush x /\ zlen items = cap - 1))
  end.
(** The answers [qs] the handler gets in the history [h] that starts with [items]. *)
Fixpoint looks_ok (items : list T) (h : list (icall (sop T))) (qs : list (rout T)) : Prop :=
  match h with
  | [] => qs = []
  | Irq o :: h' => exists qs', qs = snd (stack items o) :: qs' /\ looks_ok items h' qs'
  | Call m gaps :: h' => exists a b, qs = a ++ b /\ Forall2 (look_ok items m) (concat gaps) a /\ looks_ok (fst (stack items m)) h' b
  end.
End StackIrq.
