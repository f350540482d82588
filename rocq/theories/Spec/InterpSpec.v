(* Interpolated parameters. *)
From Verif.Common Require Import Base.

(** Calls on a FilteredInterpArray; the readings are a function of the lane. *)
Inductive iop (A : Type) := IMark | IAdd (read_fn : Z -> A) | IGet | ISetNum (n : Z).
Arguments IMark {A}. Arguments IAdd {A}. Arguments IGet {A}. Arguments ISetNum {A}.

(** Steps of a producer, which replaces all readings and then marks them as ready, and of a
    consumer, which calls add_new_readings again and again. *)
Inductive actor := Producer | Consumer.
(** How often the producer moved in a schedule.  It alternates between storing the next version of
    the readings and setting the flag. *)
Fixpoint producer_steps (l : list actor) : Z :=
  match l with [] => 0 | Producer :: r => 1 + producer_steps r | Consumer :: r => producer_steps r end.
