(* Text held by a bounded, NUL-terminated string.  Characters are integers, 0 is NUL. *)
From Verif.Common Require Import Base.

(** The characters in front of the first NUL of a memory area; None if there is no NUL. *)
Fixpoint cstring (mem : list Z) : option (list Z) :=
  match mem with
  | [] => None
  | c :: r => if c =? 0 then Some [] else option_map (cons c) (cstring r)
  end.
(** The characters in front of the first NUL of a counted string (all of them if none). *)
Fixpoint until_nul (l : list Z) : list Z :=
  match l with
  | [] => []
  | c :: r => if c =? 0 then [] else c :: until_nul r
  end.

Inductive sop :=
| SCopyC (mem : list Z)      (* construct or copy from a C string: the memory it points into *)
| SCopySV (l : list Z)       (* construct or copy from a string_view *)
| SCopySelf (off : Z)        (* copy(s.data() + off) of its own text *)
| SClear | SLength | SAvailable | SText | SEqual (mem : list Z).
Inductive sout := SoUnit | SoNum (n : Z) | SoBool (b : bool) | SoText (t : list Z).

Definition prefix_of (N : Z) (l : list Z) : list Z := firstn (Z.to_nat N) l.
Definition same_text (a b : list Z) : bool := if list_eq_dec Z.eq_dec a b then true else false.

Definition ss_spec (N : Z) (t : list Z) (o : sop) : list Z * sout :=
  match o with
  | SCopyC mem => (match cstring mem with Some w => prefix_of N w | None => t end, SoUnit)
  | SCopySV l => (until_nul (prefix_of N l), SoUnit)
  | SCopySelf off => (skipn (Z.to_nat off) t, SoUnit)
  | SClear => ([], SoUnit)
  | SLength => (t, SoNum (zlen t))
  | SAvailable => (t, SoNum (N - zlen t))
  | SText => (t, SoText t)
  | SEqual mem => (t, SoBool (match cstring mem with Some w => same_text t w | None => false end))
  end.
(** C strings are terminated; a self-copy starts inside the text. *)
Definition sop_ok (t : list Z) (o : sop) : Prop :=
  match o with
  | SCopyC mem | SEqual mem => cstring mem <> None
  | SCopySelf off => 0 <= off <= zlen t
  | _ => True
  end.
Definition is_ctor (o : sop) : Prop := match o with SCopyC _ | SCopySV _ | SClear => True | _ => False end.
