(* Sums and windows of lists. *)
From Verif.Common Require Import Base.
Definition zsum (l : list Z) : Z := fold_right Z.add 0 l.
(** the last [n] elements (all of them if there are fewer) *)
Definition lastn {A} (n : Z) (l : list A) : list A := skipn (length l - Z.to_nat n) l.
(** the [k]-th block of [n] elements *)
Definition block {A} (n k : Z) (l : list A) : list A := firstn (Z.to_nat n) (skipn (Z.to_nat (k * n)) l).
