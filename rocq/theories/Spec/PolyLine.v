(* The line through the points (0, p0), (1, p1), ... *)
From Coq Require Import Reals List.
Import ListNotations.
Open Scope R_scope.

Fixpoint polyline (pts : list R) (t : R) : R :=
  match pts with
  | [] => 0
  | a :: r => match r with
              | [] => a
              | b :: _ => if Rlt_dec t 1 then a + t * (b - a) else polyline r (t - 1)
              end
  end.
(* neighbouring points differ by at most L *)
Fixpoint slopes_within (L : R) (pts : list R) : Prop :=
  match pts with
  | [] => True
  | a :: r => match r with [] => True | b :: _ => Rabs (b - a) <= L /\ slopes_within L r end
  end.
