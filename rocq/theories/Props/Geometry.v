(* C61, C76, C97: hysteresis gate, rectangles, polygons. *)
From Coq Require Import QArith Floats.SpecFloat.
From Verif.Common Require Import Base F32.
From Verif.Spec Require Import GeometrySpec.
From Verif.Model Require Import Geometry.
From Verif.Proofs Require Geometry.
Open Scope Z_scope.

(** C61.  In exact arithmetic: from output 0 it switches on above the midpoint, from output 1 it
    stays on above turn_off. *)
Theorem C61_gate_thresholds :
  forall turn_off turn_on x : Q,
    (hysteresis_gate turn_off turn_on 0 x = if Qltb ((turn_on + turn_off) * (1 # 2)) x then 1%Q else 0%Q) /\
    (hysteresis_gate turn_off turn_on 1 x = if Qltb turn_off x then 1%Q else 0%Q).
Proof. exact Geometry.gate_spec. Qed.
Print Assumptions C61_gate_thresholds.
(** So every input between the midpoint and turn_on switches it on too early; in single
    precision too. *)
Theorem C61_switches_on_below_turn_on_refuted :
  (forall turn_off turn_on x : Q, ((turn_on + turn_off) * (1 # 2) < x)%Q -> (x < turn_on)%Q ->
     hysteresis_gate turn_off turn_on 0 x = 1%Q) /\
  (exists turn_off turn_on x : f32, SFltb turn_off turn_on = true /\ SFltb x turn_on = true /\
     hysteresis_gate_f turn_off turn_on f32_zero x = f32_one).
Proof. exact (conj Geometry.gate_early Geometry.gate_early_f). Qed.
Print Assumptions C61_switches_on_below_turn_on_refuted.
Theorem C61_feedback_thresholds :
  forall coef thresh x : Q,
    (hysteresis_feedback coef thresh 0 x = if Qltb thresh x then 1%Q else 0%Q) /\
    (hysteresis_feedback coef thresh 1 x = if Qltb (thresh - coef) x then 1%Q else 0%Q).
Proof. exact Geometry.feedback_spec. Qed.
Print Assumptions C61_feedback_thresholds.
Example C61_hypotheses_met :
  (((6 # 10) + (4 # 10)) * (1 # 2) < 55 # 100 /\ 55 # 100 < 6 # 10 /\ hysteresis_gate (4 # 10) (6 # 10) 0 (55 # 100) == 1 /\
  hysteresis_gate (4 # 10) (6 # 10) 1 (41 # 100) == 1 /\ hysteresis_gate (4 # 10) (6 # 10) 1 (39 # 100) == 0)%Q.
Proof. repeat split; reflexivity. Qed.

(** C76.  Rectangles are closed; [r] and [o] are not empty. *)
Theorem C76_y_intersects :
  forall r o : rectc,
    y_intersects r o = y_intersects o r /\
    (rc_top r <= rc_bottom r -> rc_top o <= rc_bottom o ->
     (y_intersects r o = true <-> overlap (rc_top r) (rc_bottom r) (rc_top o) (rc_bottom o))).
Proof. intros r o. exact (conj (Geometry.y_sym r o) (Geometry.y_spec r o)). Qed.
Print Assumptions C76_y_intersects.
(** x_intersects misses exactly the rectangles lying strictly inside the horizontal range of [r]. *)
Theorem C76_x_intersects_misses_spanning :
  forall r o : rectc,
    rc_left r <= rc_right r -> rc_left o <= rc_right o ->
    (x_intersects r o = true <->
     overlap (rc_left r) (rc_right r) (rc_left o) (rc_right o) /\ ~ (rc_left r < rc_left o /\ rc_right o < rc_right r)).
Proof. exact Geometry.x_spec. Qed.
Print Assumptions C76_x_intersects_misses_spanning.
Theorem C76_is_intersecting_not_symmetric_refuted :
  forall r o : rectc,
    rc_left r < rc_left o -> rc_left o <= rc_right o -> rc_right o < rc_right r ->
    rc_top r <= rc_bottom r -> rc_top o <= rc_bottom o -> overlap (rc_top r) (rc_bottom r) (rc_top o) (rc_bottom o) ->
    is_intersecting r o = false /\ is_intersecting o r = true.
Proof. exact Geometry.not_symmetric. Qed.
Print Assumptions C76_is_intersecting_not_symmetric_refuted.
(** Integer polygons: whenever the products do not overflow, which coordinates below 2^14 guarantee. *)
Theorem C76_concave_iff_turns_both_ways :
  forall (pts : list (Z * Z)) (b : bool),
    is_poly_concave pts = Ok b -> (b = true <-> turns_both_ways pts).
Proof. exact Geometry.concave_spec. Qed.
Print Assumptions C76_concave_iff_turns_both_ways.
Theorem C76_concave_is_defined :
  forall pts : list (Z * Z),
    Forall (fun p => Z.abs (fst p) < 2 ^ 14 /\ Z.abs (snd p) < 2 ^ 14) pts -> exists b, is_poly_concave pts = Ok b.
Proof. exact Geometry.concave_total. Qed.
Print Assumptions C76_concave_is_defined.
(** With fractional coordinates small turns are dropped: such a polygon is never concave. *)
Theorem C76_small_polygons_never_concave_refuted :
  forall pts : list (Q * Q),
    (forall i t, qturn_at pts i t -> (- (1) < t /\ t < 1)%Q) -> is_poly_concave_q pts = Ok false.
Proof. exact Geometry.concave_q_small. Qed.
Print Assumptions C76_small_polygons_never_concave_refuted.
Example C76_hypotheses_met :
  let wide := RectC 0 0 10 10 in let inner := RectC 3 3 5 5 in
  is_intersecting wide inner = false /\ is_intersecting inner wide = true /\
  is_poly_concave [(1, 1); (2, 1); (2, 0); (2, 2); (1, 2)] = Ok true /\
  is_poly_concave [(1, 1); (2, 1); (2, 2); (1, 2)] = Ok false /\
  (* an arrow of size 1/2 has a turn of each direction *)
  is_poly_concave_q [(0, 0); (1 # 2, 0); (1 # 8, 1 # 8); (0, 1 # 2)]%Q = Ok false /\
  (qturn (1 # 2, 0) (1 # 8, 1 # 8) (0, 1 # 2) < 0)%Q /\ (0 < qturn (0, 1 # 2) (0, 0) (1 # 2, 0))%Q.
Proof. repeat split; reflexivity. Qed.

(** C97.  Centres lie inside; a far away RectC overflows although its centre is representable. *)
Theorem C97_centers_inside :
  (forall r : rectc, rc_left r <= rc_right r -> - 2 ^ 31 <= rc_left r + rc_right r < 2 ^ 31 ->
     exists c, rc_center_x r = Ok c /\ rc_left r <= c <= rc_right r) /\
  (forall r : rectc, rc_top r <= rc_bottom r -> - 2 ^ 31 <= rc_top r + rc_bottom r < 2 ^ 31 ->
     exists c, rc_center_y r = Ok c /\ rc_top r <= c <= rc_bottom r) /\
  (forall (r : rect) right, 0 <= r_width r -> - 2 ^ 31 <= r_left r -> r_right r = Ok right ->
     exists c, r_center_x r = Ok c /\ r_left r <= c <= right) /\
  (forall (r : rect) bottom, 0 <= r_height r -> - 2 ^ 31 <= r_top r -> r_bottom r = Ok bottom ->
     exists c, r_center_y r = Ok c /\ r_top r <= c <= bottom).
Proof. exact Geometry.centers. Qed.
Print Assumptions C97_centers_inside.
(** ... and in the middle, to the nearest integer. *)
Theorem C97_centers_in_the_middle :
  (forall (r : rectc) c, rc_center_x r = Ok c -> Z.abs (2 * c - (rc_left r + rc_right r)) <= 1) /\
  (forall (r : rectc) c, rc_center_y r = Ok c -> Z.abs (2 * c - (rc_top r + rc_bottom r)) <= 1) /\
  (forall (r : rect) c right, r_center_x r = Ok c -> r_right r = Ok right -> Z.abs (2 * c - (r_left r + right)) <= 1) /\
  (forall (r : rect) c bottom, r_center_y r = Ok c -> r_bottom r = Ok bottom -> Z.abs (2 * c - (r_top r + bottom)) <= 1).
Proof. exact Geometry.centers_middle. Qed.
Print Assumptions C97_centers_in_the_middle.
(** The two forms agree on the size; the corner form overflows for a rectangle wider than int. *)
Theorem C97_sizes_agree :
  forall (r : rect) right bottom, - 2 ^ 31 <= r_width r < 2 ^ 31 -> - 2 ^ 31 <= r_height r < 2 ^ 31 ->
    r_right r = Ok right -> r_bottom r = Ok bottom ->
    let c := RectC (r_left r) (r_top r) right bottom in rc_width c = Ok (r_width r) /\ rc_height c = Ok (r_height r).
Proof. exact Geometry.sizes_agree. Qed.
Print Assumptions C97_sizes_agree.
Theorem C97_width_overflow_refuted :
  forall r : rectc, 2 ^ 31 <= rc_right r - rc_left r -> rc_width r = UB SignedOverflow.
Proof. exact Geometry.size_overflow. Qed.
Print Assumptions C97_width_overflow_refuted.
Theorem C97_center_overflow_refuted :
  forall r : rectc, 2 ^ 31 <= rc_left r + rc_right r -> rc_center_x r = UB SignedOverflow.
Proof. exact Geometry.center_overflow. Qed.
Print Assumptions C97_center_overflow_refuted.
Example C97_hypotheses_met :
  rc_center_x (RectC (-5) 0 2 0) = Ok (-1) /\ r_center_x (Rect 3 0 5 0) = Ok 5 /\ r_right (Rect 3 0 5 0) = Ok 8 /\
  rc_center_x (RectC 1500000000 0 1600000000 0) = UB SignedOverflow /\
  rc_width (RectC 3 1 8 9) = Ok 5 /\ rc_height (RectC 3 1 8 9) = Ok 8 /\ r_bottom (Rect 3 1 5 8) = Ok 9 /\
  rc_width (RectC (-2000000000) 0 2000000000 0) = UB SignedOverflow.
Proof. repeat split; reflexivity. Qed.
