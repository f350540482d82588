(* Colours as a reader of the API sees them. *)
From Coq Require Import QArith.
From Verif.Common Require Import Base.
Open Scope Z_scope.

Definition byte (x : Z) : Prop := 0 <= x < 256.
(** an 8-bit per channel colour: red, green, blue *)
Record color := RGB { red : Z; green : Z; blue : Z }.
Definition is_color (c : color) : Prop := byte (red c) /\ byte (green c) /\ byte (blue c).
Definition uint16 (x : Z) : Prop := 0 <= x < 2 ^ 16.
(** the channels of a packed 5-6-5 bit colour, red on top *)
Definition red5 (x : Z) : Z := x / 2 ^ 11.
Definition green6 (x : Z) : Z := (x / 2 ^ 5) mod 2 ^ 6.
Definition blue5 (x : Z) : Z := x mod 2 ^ 5.
(** [f] on each channel of one, two colours *)
Definition each (f : Z -> Z) (c : color) : color := RGB (f (red c)) (f (green c)) (f (blue c)).
Definition each2 (f : Z -> Z -> Z) (c d : color) : color :=
  RGB (f (red c) (red d)) (f (green c) (green d)) (f (blue c) (blue d)).
(** what holds between the channels of two colours *)
Definition all_channels2 (P : Z -> Z -> Prop) (c d : color) : Prop :=
  P (red c) (red d) /\ P (green c) (green d) /\ P (blue c) (blue d).
(** [x] lies between [a] and [b] *)
Definition within (a b x : Z) : Prop := Z.min a b <= x <= Z.max a b.
(** [x] and [y] differ by at most [d] *)
Definition near (d x y : Z) : Prop := Z.abs (x - y) <= d.
