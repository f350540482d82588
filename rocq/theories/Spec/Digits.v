(* Positional numerals, independent of how they are computed. *)
From Verif.Common Require Import Base.

(** The number a digit list denotes, most significant digit first. *)
Definition value (b : Z) (l : list Z) : Z := fold_left (fun a d => a * b + d) l 0.

(** [l] is the base-[b] rendering of [v]: digits in range, no leading zero. *)
Definition numeral (b v : Z) (l : list Z) : Prop :=
  Forall (fun d => 0 <= d < b) l /\ value b l = v /\ (l = [0] \/ exists d r, l = d :: r /\ d <> 0).

(** ASCII: decimal and upper-case hexadecimal digits. *)
Definition ascii_digit (d : Z) : Z := if d <? 10 then 48 + d else 55 + d.
(** The minus sign of negative values. *)
Definition sign_text (v : Z) : list Z := if v <? 0 then [45] else [].

(** The digits [int_to_str] keeps, and the last [m] entries of a list. *)
Definition non_zero (l : list Z) : list Z := filter (fun d => negb (d =? 0)) l.
Definition last_n {A} (m : nat) (l : list A) : list A := skipn (length l - m) l.

(** The digits [int_to_str_chop] produces, place by place: a final group 1 0 0 .. 0 becomes
    0 10 0 .. 0, and a final 1 disappears. *)
Definition all_zero (l : list Z) : bool := forallb (fun d => d =? 0) l.
Fixpoint late_compare (l : list Z) : list Z :=
  match l with
  | [] => []
  | d :: r =>
      if (d =? 1) && all_zero r then match r with [] => [0] | _ :: r' => 0 :: 10 :: r' end
      else d :: late_compare r
  end.
