(* Memory helpers. *)
From Verif.Common Require Import Base.
From Verif.Spec Require Export Sums.

(** Calls on a monotonic allocator and their results. *)
Inductive mop := MAlloc (n : Z) | MReset | MFree | MTotal.
Inductive mout := MBlock (p : option Z) | MNum (n : Z) | MUnit.
(** The blocks handed out since the last reset, as (offset, length), from the calls and answers. *)
Definition granted (bs : list (Z * Z)) (c : mop * mout) : list (Z * Z) :=
  match c with
  | (MAlloc n, MBlock (Some p)) => bs ++ [(p, n)]
  | (MReset, _) => []
  | _ => bs
  end.
Definition granted_after (ops : list mop) (outs : list mout) : list (Z * Z) := fold_left granted (combine ops outs) [].
(** Two blocks have no byte in common. *)
Definition disjoint (a b : Z * Z) : Prop := forall i, ~ (fst a <= i < fst a + snd a /\ fst b <= i < fst b + snd b).

(** [r] is the least multiple of [a] that is at least [n] *)
Definition least_multiple (a n r : Z) : Prop := (a | r) /\ n <= r /\ forall q, (a | q) -> n <= q -> r <= q.

(** values of a two's complement or unsigned type of [bits] bits *)
Definition fits_unsigned (bits v : Z) : Prop := 0 <= v < 2 ^ bits.
Definition fits_signed (bits v : Z) : Prop := - 2 ^ (bits - 1) <= v < 2 ^ (bits - 1).
Definition standard_width (bits : Z) : Prop := bits = 8 \/ bits = 16 \/ bits = 32 \/ bits = 64.

(** Calls on a byte block. *)
Inductive bop := BU8 (x : Z) | BU16 (x : Z) | BU32 (x : Z) | BRaw (l : list Z).

(** A memory that returns what was last written. *)
Definition good_memory {M} (rdm : M -> Z -> Z) (wrm : M -> Z -> Z -> M) : Prop :=
  forall m a b v, rdm (wrm m a v) b = if a =? b then v else rdm m b.
(** A memory whose address lines map address [a] to the cell [phys a]. *)
Definition wired_rd (phys : Z -> Z) (m : Z -> Z) (a : Z) : Z := m (phys a).
Definition wired_wr (phys : Z -> Z) (m : Z -> Z) (a v : Z) : Z -> Z := fun c => if c =? phys a then v else m c.
