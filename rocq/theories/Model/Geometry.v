(* util/geometry.hh, and hysteresis_gate of util/math.hh. *)
From Coq Require Import QArith Floats.SpecFloat.
From Verif.Common Require Import Base F32.

(* RectC, lines 7-37 *)
Record rectc := RectC { rc_left : Z; rc_top : Z; rc_right : Z; rc_bottom : Z }.
Definition rc_width (r : rectc) : outcome Z := schk 32 (rc_right r - rc_left r).
Definition rc_height (r : rectc) : outcome Z := schk 32 (rc_bottom r - rc_top r).
Definition rc_center_y (r : rectc) : outcome Z := let* s := schk 32 (rc_top r + rc_bottom r) in Ok (Z.quot s 2).
Definition rc_center_x (r : rectc) : outcome Z := let* s := schk 32 (rc_left r + rc_right r) in Ok (Z.quot s 2).
Definition y_intersects (r o : rectc) : bool :=
  ((rc_top r >=? rc_top o) && (rc_top r <=? rc_bottom o)) || ((rc_top o >=? rc_top r) && (rc_top o <=? rc_bottom r)).
Definition x_intersects (r o : rectc) : bool :=
  ((rc_left r >=? rc_left o) && (rc_left r <=? rc_right o)) || ((rc_right r <=? rc_right o) && (rc_right r >=? rc_left o)).
Definition is_intersecting (r o : rectc) : bool := y_intersects r o && x_intersects r o.

(* Rect, lines 39-57 *)
Record rect := Rect { r_left : Z; r_top : Z; r_width : Z; r_height : Z }.
Definition r_right (r : rect) : outcome Z := schk 32 (r_left r + r_width r).
Definition r_bottom (r : rect) : outcome Z := schk 32 (r_top r + r_height r).
Definition r_center_y (r : rect) : outcome Z := schk 32 (r_top r + Z.quot (r_height r) 2).
Definition r_center_x (r : rect) : outcome Z := schk 32 (r_left r + Z.quot (r_width r) 2).

(* X_prod, line 78; coordinates are (or promote to) int *)
Definition X_prod (o a b : Z * Z) : outcome Z :=
  let* ax := schk 32 (fst a - fst o) in let* by_ := schk 32 (snd b - snd o) in
  let* p := schk 32 (ax * by_) in
  let* ay := schk 32 (snd a - snd o) in let* bx := schk 32 (fst b - fst o) in
  let* q := schk 32 (ay * bx) in
  schk 32 (p - q).
(* the loop, lines 81-94; [is] are the remaining values of i *)
Fixpoint concave_loop (pts : list (Z * Z)) (is : list Z) (sign : Z) : outcome bool :=
  match is with
  | [] => Ok false
  | i :: is' =>
      let n := zlen pts in
      let* o := rd pts i in
      let* a := rd pts ((i + 1) mod n) in
      let* b := rd pts ((i + 2) mod n) in
      let* cross := X_prod o a b in
      if cross =? 0 then concave_loop pts is' sign
      else
        let sign := if sign =? 0 then cross else sign in
        if ((sign >? 0) && (cross <? 0)) || ((sign <? 0) && (cross >? 0)) then Ok true
        else concave_loop pts is' sign
  end.
(* is_poly_concave, lines 68-96 *)
Definition is_poly_concave (pts : list (Z * Z)) : outcome bool :=
  if zlen pts <? 3 then Ok false else concave_loop pts (ztab (zlen pts) (fun i => i)) 0.

(* The same with floating point coordinates, in exact arithmetic: line 90 converts the cross
   product to int, dropping its fraction *)
Definition X_prod_q (o a b : Q * Q) : Q := ((fst a - fst o) * (snd b - snd o) - (snd a - snd o) * (fst b - fst o))%Q.
Definition Qtrunc (q : Q) : Z := Z.quot (Qnum q) (Zpos (Qden q)).
Definition Qltb (a b : Q) : bool := negb (Qle_bool b a).
Fixpoint concave_loop_q (pts : list (Q * Q)) (is : list Z) (sign : Z) : outcome bool :=
  match is with
  | [] => Ok false
  | i :: is' =>
      let n := zlen pts in
      let* o := rd pts i in
      let* a := rd pts ((i + 1) mod n) in
      let* b := rd pts ((i + 2) mod n) in
      let cross := X_prod_q o a b in
      if Qeq_bool cross 0 then concave_loop_q pts is' sign
      else
        let sign := if sign =? 0 then Qtrunc cross else sign in
        if ((sign >? 0) && Qltb cross 0) || ((sign <? 0) && Qltb 0 cross) then Ok true
        else concave_loop_q pts is' sign
  end.
Definition is_poly_concave_q (pts : list (Q * Q)) : outcome bool :=
  if zlen pts <? 3 then Ok false else concave_loop_q pts (ztab (zlen pts) (fun i => i)) 0.

(* hysteresis_gate and hysteresis_feedback, math.hh lines 337-344 and 358-361, in exact arithmetic *)
Definition hysteresis_gate (turn_off turn_on last_output new_input : Q) : Q :=
  let feedback_amt := ((turn_on - turn_off) * (1 # 2))%Q in
  let feedback := (feedback_amt * last_output)%Q in
  let test_signal := (new_input + feedback)%Q in
  let threshold := ((turn_on + turn_off) * (1 # 2))%Q in
  if Qltb threshold test_signal then 1%Q else 0%Q.
Definition hysteresis_feedback (feedback_coef thresh last_output new_input : Q) : Q :=
  if Qltb thresh (new_input + last_output * feedback_coef)%Q then 1%Q else 0%Q.

(* hysteresis_gate in single precision *)
Definition hysteresis_gate_f (turn_off turn_on last_output new_input : f32) : f32 :=
  let half := f32_of 1 (-1) in
  let feedback_amt := fmul (fsub turn_on turn_off) half in
  let feedback := fmul feedback_amt last_output in
  let test_signal := fadd new_input feedback in
  let threshold := fmul (fadd turn_on turn_off) half in
  if SFltb threshold test_signal then f32_one else f32_zero.
