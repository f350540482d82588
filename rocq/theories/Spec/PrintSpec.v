(* What print shows for each of its arguments. *)
From Verif.Common Require Import Base.
From Verif.Spec Require Import Digits.

(** Arguments: an int32, a Hex, a C string and a string_view at an address in memory, a float
    (given by its value truncated toward zero). *)
Inductive parg := PInt (v : Z) | PHex (v : Z) | PStr (mem : list Z) (p : Z) | PView (mem : list Z) (p n : Z) | PFloat (t : Z).

(** The text of one argument. *)
Inductive renders : parg -> list Z -> Prop :=
| RInt v l : - 2 ^ 31 < v < 2 ^ 31 -> numeral 10 (Z.abs v) l -> renders (PInt v) (sign_text v ++ map ascii_digit l)
| RHex v l : 0 <= v < 2 ^ 32 -> numeral 16 v l -> renders (PHex v) (map ascii_digit l)
| RStr pre s post : ~ In 0 s -> renders (PStr (pre ++ s ++ 0 :: post) (zlen pre)) s
| RView pre s post n : ~ In 0 s -> renders (PView (pre ++ s ++ 0 :: post) (zlen pre) n) s
| RFloat t l : - 2 ^ 31 < t < 2 ^ 31 -> numeral 10 (Z.abs t) l -> renders (PFloat t) ([63] ++ (sign_text t ++ map ascii_digit l) ++ [63]).
