(* Iterating several containers at once, and splitting a list into parts. *)
From Coq Require Export Permutation Sorted.
From Verif.Common Require Import Base.
From Verif.Spec Require Export Sums.

(** The elements at index [i] of every container. *)
Definition column {A} (cs : list (list A)) (i : Z) : list A :=
  flat_map (fun c => match znth c i with Some x => [x] | None => [] end) cs.
(** [n] is the length of the shortest container. *)
Definition shortest {A} (cs : list (list A)) (n : Z) : Prop :=
  (forall c, In c cs -> n <= zlen c) /\ exists c, In c cs /\ zlen c = n.
(** the [k]-th entry of the [i]-th row *)
Definition cell {A} (rows : list (list A)) (i k : Z) : option A :=
  match znth rows i with Some r => znth r k | None => None end.

(** [sort] sorts pairs of (value, index) by descending value; equal values in any order. *)
Definition sorts_descending (sort : list (Z * Z) -> list (Z * Z)) : Prop :=
  forall l, Permutation l (sort l) /\ StronglySorted (fun a b => fst b <= fst a) (sort l).
(** the value at an index *)
Definition value_at (vals : list Z) (i : Z) : Z := match znth vals i with Some v => v | None => 0 end.
(** the sum of a part, given by indices, on top of its initial value *)
Definition part_sum (vals init : list Z) (parts : list (list Z)) (k : Z) : Z :=
  value_at init k + match znth parts k with Some l => zsum (map (value_at vals) l) | None => 0 end.
