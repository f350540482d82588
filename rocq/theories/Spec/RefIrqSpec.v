(* A RefParameter polled by one side and set by the other. *)
From Verif.Common Require Import Base.
From Verif.Spec Require Import IrqSpec.

(** Nothing is set between the second reading of the variable in isChanged and the reading of the
    value, that is just before the accesses number 3 and 4. *)
Definition unset_after_change (c : icall pop) : Prop := match c with Irq _ => True | Call _ gaps => nth 3 gaps [] = [] /\ nth 4 gaps [] = [] end.
