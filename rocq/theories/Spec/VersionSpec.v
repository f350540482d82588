(* Version texts. *)
From Verif.Common Require Import Base.
From Verif.Spec Require Import Digits.

(** A field: one or more decimal digits. *)
Definition field_ok (ds : list Z) : Prop := ds <> [] /\ Forall (fun d => 0 <= d < 10) ds.
Definition field_text (ds : list Z) : list Z := map (fun d => 48 + d) ds.
(** Fields separated by dots. *)
Fixpoint dotted (fs : list (list Z)) : list Z :=
  match fs with
  | [] => []
  | [f] => field_text f
  | f :: r => field_text f ++ 46 :: dotted r
  end.
(** The value of field [i]; missing fields are 0. *)
Definition field_value (fs : list (list Z)) (i : nat) : Z := value 10 (nth i fs []).
(** A character that ends a number. *)
Definition not_digit (c : Z) : Prop := c < 48 \/ 57 < c.
(** White space in C: blank, tab, line feed, vertical tab, form feed, carriage return. *)
Definition white (c : Z) : Prop := c = 32 \/ 9 <= c <= 13.
