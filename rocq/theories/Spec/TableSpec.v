(* Tables with interpolation. *)
From Coq Require Import QArith.
From Verif.Common Require Import Base.
Open Scope Z_scope.

(** [t] of the way from [a] to [b] *)
Definition lerp (a b t : Q) : Q := (a + t * (b - a))%Q.
(** the [i]-th of [N] equally spaced points from [mn] to [mx] *)
Definition sample_point (N : Z) (mn mx : Q) (i : Z) : Q := (mn + inject_Z i * ((mx - mn) / inject_Z (N - 1)))%Q.
(** [l] holds [x] at [i] *)
Definition at_ {A} (l : list A) (i : Z) (x : A) : Prop := znth l i = Some x.
(** the outcome is the value [v] *)
Definition gives (o : outcome Q) (v : Q) : Prop := exists r, o = Ok r /\ (r == v)%Q.
