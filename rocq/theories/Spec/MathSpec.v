(* What the integer helpers promise. *)
From Verif.Common Require Import Base.

Definition is_pow2 (v : Z) : Prop := exists k, 0 <= k /\ v = 2 ^ k.
(** [p] is the least power of two that is at least [v]. *)
Definition least_pow2 (v p : Z) : Prop := is_pow2 p /\ v <= p /\ forall q, is_pow2 q -> v <= q -> p <= q.
(** [k] is the floor of the base-two logarithm of [v]. *)
Definition floor_log2 (v k : Z) : Prop := 0 <= k /\ 2 ^ k <= v < 2 ^ (k + 1).
(** [r] is the point of [lo, hi] nearest to [v]. *)
Definition nearest (lo hi v r : Z) : Prop := lo <= r <= hi /\ forall x, lo <= x <= hi -> Z.abs (v - r) <= Z.abs (v - x).
(** [r] is the representative of [v] in [lo, hi] modulo the number of values there. *)
Definition wrapped (lo hi v r : Z) : Prop := lo <= r <= hi /\ exists k, r = v + k * (hi - lo + 1).
(** The number with the given bytes, least significant first. *)
Fixpoint from_bytes (bs : list Z) : Z := match bs with [] => 0 | b :: r => b + 256 * from_bytes r end.
Definition bytes_ok (bs : list Z) : Prop := Forall (fun b => 0 <= b < 256) bs.
Definition int32 (x : Z) : Prop := - 2 ^ 31 <= x < 2 ^ 31.
Definition uint32 (x : Z) : Prop := 0 <= x < 2 ^ 32.
(** [r] is the signed distance of [v] from the interval [lo, hi]. *)
Definition outside_by (lo hi v r : Z) : Prop :=
  (lo <= v <= hi /\ r = 0) \/ (hi < v /\ r = v - hi) \/ (v < lo /\ r = v - lo).
