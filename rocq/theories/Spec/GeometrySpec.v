(* Rectangles and polygons. *)
From Coq Require Import QArith.
From Verif.Common Require Import Base.

(** Closed intervals [a,b] and [c,d] share a point. *)
Definition overlap (a b c d : Z) : Prop := exists x, a <= x <= b /\ c <= x <= d.

(** Twice the signed area of the triangle o, a, b: positive for a left turn, negative for a right turn. *)
Definition turn (o a b : Z * Z) : Z := (fst a - fst o) * (snd b - snd o) - (snd a - snd o) * (fst b - fst o).
(** The turns of a closed polygon, one per vertex. *)
Definition turn_at (pts : list (Z * Z)) (i : Z) (t : Z) : Prop :=
  exists o a b, znth pts i = Some o /\ znth pts ((i + 1) mod zlen pts) = Some a /\ znth pts ((i + 2) mod zlen pts) = Some b /\ t = turn o a b.
Definition turns_both_ways (pts : list (Z * Z)) : Prop :=
  3 <= zlen pts /\ (exists i t, turn_at pts i t /\ 0 < t) /\ (exists i t, turn_at pts i t /\ t < 0).
(** The same over rational coordinates. *)
Definition qturn (o a b : Q * Q) : Q := ((fst a - fst o) * (snd b - snd o) - (snd a - snd o) * (fst b - fst o))%Q.
Definition qturn_at (pts : list (Q * Q)) (i : Z) (t : Q) : Prop :=
  exists o a b, znth pts i = Some o /\ znth pts ((i + 1) mod zlen pts) = Some a /\ znth pts ((i + 2) mod zlen pts) = Some b /\ t = qturn o a b.
