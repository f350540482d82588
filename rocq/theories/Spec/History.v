(* Histories of calls, oldest first. *)
From Verif.Common Require Import Base.

(** [begins pre o] ([ends pre o]): call [o] after the calls [pre] starts (ends) something.
    [since begins ends h]: after the history [h] it has started and not ended since. *)
Definition since {A : Type} (begins ends : list A -> A -> Prop) (h : list A) : Prop :=
  exists pre o post, h = pre ++ o :: post /\ begins pre o /\
    forall p1 x p2, post = p1 ++ x :: p2 -> ~ ends (pre ++ o :: p1) x.

(** The state after a history, and what a call made after it returns. *)
Definition after {S O R : Type} (step : S -> O -> S * R) (s : S) (h : list O) : S := fst (srun step s h).
Definition answer {S O R : Type} (step : S -> O -> S * R) (s : S) (h : list O) (o : O) : R := snd (step (after step s h) o).
