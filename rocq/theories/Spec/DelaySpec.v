(* CircularBufferAccess used as a delay line: what goes in, what comes out. *)
From Verif.Common Require Import Base.
From Verif.Model Require Import CircularExt.

Section Delay.
Context {T : Type}.
(** [ops] are reads and writes of blocks.  With [p] elements waiting in a line of [n] places no write
    exceeds the places that are free and no read the elements that wait. *)
Fixpoint in_step (n p : Z) (ops : list (aop T)) : Prop :=
  match ops with
  | [] => True
  | AWrite d :: r => p + zlen d <= n /\ in_step n (p + zlen d) r
  | ARead k :: r => 0 <= k <= p /\ in_step n (p - k) r
  | _ => False
  end.
(** Everything written and everything read, in order. *)
Definition written (ops : list (aop T)) : list T := flat_map (fun o => match o with AWrite d => d | _ => [] end) ops.
Definition heard (outs : list (aout T)) : list T := flat_map (fun o => match o with AData d _ => d | _ => [] end) outs.
(** One write of a block and one read of a block of the same length after the other. *)
Definition echo (blocks : list (list T)) : list (aop T) := flat_map (fun b => [AWrite b; ARead (zlen b)]) blocks.
End Delay.
