(* Handing new readings from one thread to another: what one can see of it.
   The readings of a lane are numbered in the order they are written, starting from 1; 0 is
   what was there at first. *)
From Verif.Common Require Import Base.

Inductive hevent :=
| HWrite (i : Z)       (* the producer puts the next reading into lane i *)
| HMark                (* the producer marks the readings as new *)
| HSeen                (* the consumer finds the mark *)
| HTook (i j : Z).     (* the consumer takes reading number j of lane i *)

Definition set {A} (f : Z -> A) (k : Z) (x : A) : Z -> A := fun u => if u =? k then x else f u.

(** Numbers of the reading last written, last marked, last marked when the consumer last found
    the mark, and last taken, per lane. *)
Record hsum := HSum { h_written : Z -> Z; h_marked : Z -> Z; h_due : Z -> Z; h_taken : Z -> Z }.
Definition h0 : hsum := HSum (fun _ => 0) (fun _ => 0) (fun _ => 0) (fun _ => 0).
Definition hnext (h : hsum) (e : hevent) : hsum :=
  match e with
  | HWrite i => HSum (set (h_written h) i (h_written h i + 1)) (h_marked h) (h_due h) (h_taken h)
  | HMark => HSum (h_written h) (h_written h) (h_due h) (h_taken h)
  | HSeen => HSum (h_written h) (h_marked h) (h_marked h) (h_taken h)
  | HTook i j => HSum (h_written h) (h_marked h) (h_due h) (set (h_taken h) i j)
  end.
Definition summary (log : list hevent) : hsum := fold_left hnext log h0.

(** What is taken was written, is no older than what had been marked when the consumer found the
    mark, and never goes back. *)
Fixpoint handed_over (h : hsum) (log : list hevent) : Prop :=
  match log with
  | [] => True
  | e :: r =>
      match e with HTook i j => h_due h i <= j <= h_written h i /\ h_taken h i <= j | _ => True end /\
      handed_over (hnext h e) r
  end.
(** Every lane was last given a reading at least as new as the last one marked. *)
Definition up_to_date (N : Z) (log : list hevent) : Prop :=
  forall i, 0 <= i < N -> h_marked (summary log) i <= h_taken (summary log) i.
