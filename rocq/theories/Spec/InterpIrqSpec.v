(* An interpolated parameter shared by a main program and an interrupt handler. *)
From Verif.Common Require Import Base.
From Verif.Spec Require Import InterpVarSpec.

(** The handler only advances the value; the handler only sets targets and numbers of updates. *)
Definition advances {A} (c : vcall A) : Prop := c = VNext.
Definition configures {A} (c : vcall A) : Prop := match c with VSet _ | VNum _ => True | _ => False end.
(** The number of calls the handler makes just before the accesses number [i], ..., [j] - 1. *)
Definition calls_before {A} (i j : nat) (gaps : list (list (vcall A))) : nat := length (concat (firstn (j - i) (skipn i gaps))).
(** The call [m] of the main program, interrupted by the handler's calls [gaps] from the state [s],
    acts at one moment: [exec] is what happens, [plain] is one call after the other. *)
Definition one_moment {S A R} (plain : S -> list (vcall A) -> outcome (S * list R)) (s : S) (m : vcall A) (gaps : list (list (vcall A))) (exec : outcome (S * R * list R)) : Prop :=
  exists a b s' r qa qb, concat gaps = a ++ b /\ length qa = length a /\ plain s (a ++ m :: b) = Ok (s', qa ++ r :: qb) /\ exec = Ok (s', r, qa ++ qb).
