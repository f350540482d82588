(* Rotary encoders. *)
From Verif.Common Require Import Base.
From Verif.Spec Require Import History.
From Verif.Spec Require Export Sums.

(** The two pins as a number: a + 2 b.  The states a stream visits, from [x]: each entry differs
    from the one before. *)
Definition pins (p : bool * bool) : Z := (if fst p then 1 else 0) + (if snd p then 2 else 0).
Definition inverted (p : bool * bool) : bool * bool := (negb (fst p), negb (snd p)).
Fixpoint visits (x : Z) (h : list Z) : list Z :=
  match h with
  | [] => []
  | p :: r => if p =? x then visits x r else p :: visits p r
  end.
(** A list ends with another. *)
Definition ends_with {A} (l t : list A) : Prop := exists pre, l = pre ++ t.
(** One detent: clockwise and counter-clockwise. *)
Definition clockwise : list Z := [1; 0; 2; 3].
Definition counter_clockwise : list Z := [2; 0; 1; 3].
Inductive direction := None_ | CW | CCW.
Definition moves (ds : list direction) : list direction := filter (fun d => match d with None_ => false | _ => true end) ds.

(** Calls on one motion record: add another record's motion, move it, use it up. *)
Inductive rop := RAdd (d : Z) | RTransfer (d : Z) | RUse.
Definition received (h : list rop) : Z := fold_left (fun s o => match o with RAdd d | RTransfer d => s + d | RUse => s end) h 0.
(** Calls on [n] records: motion arrives, is moved between two of them, is used. *)
Inductive mop := MRecv (i d : Z) | MTransfer (i j : Z) | MUse (i : Z).
Definition arrived (o : mop) : Z := match o with MRecv _ d => d | _ => 0 end.
