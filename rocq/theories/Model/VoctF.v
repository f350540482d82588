(* util/voct_calibrator.hh with T = float. *)
From Coq Require Import ZArith List Floats.SpecFloat.
From Verif.Common Require Import Base F32.
From Verif.Spec Require Import VoctSpec.
Open Scope Z_scope.

(* lines 54-59; notes are C0 = 0 to C10 = 10 and None = 11 (line 7) *)
Record voctf := VF { vf_offset : f32; vf_slope : f32; vf_pts : list (Z * f32); vf_num : Z; vf_c0 : bool }.
Definition voctf0 : voctf := VF f32_zero f32_zero [(11, f32_zero); (11, f32_zero)] 0 false.
(* record_measurement, lines 16-48; the unsigned counter never exceeds 2 *)
Definition voctf_record (s : voctf) (note : Z) (m : f32) : outcome voctf :=
  if note =? 11 then Ok s
  else
    let c0 := if note =? 0 then true else vf_c0 s in
    let offset := if note =? 0 then m else vf_offset s in
    let* (pts, num) :=
      if vf_num s >=? 2 then
        let* p1 := rd (vf_pts s) 1 in
        let* pts := wr (vf_pts s) 0 p1 in
        Ok (pts, 1)
      else Ok (vf_pts s, vf_num s) in
    let* pts := wr pts num (note, m) in
    let num := num + 1 in
    if num >=? 2 then
      let* p0 := rd pts 0 in
      let* p1 := rd pts 1 in
      let octave_span := fst p0 - fst p1 in
      let diff := fsub (snd p0) (snd p1) in
      let slope := if negb (octave_span =? 0) && negb (SFeqb diff f32_zero) then fdiv diff (f32_of_int octave_span) else vf_slope s in
      let offset :=
        if c0 then offset
        else
          let offset_0 := fsub (snd p0) (fmul slope (f32_of_int (fst p0))) in
          let offset_1 := fsub (snd p1) (fmul slope (f32_of_int (fst p1))) in
          fdiv (fadd offset_0 offset_1) (f32_of_int 2) in
      Ok (VF offset slope pts num c0)
    else Ok (VF offset (vf_slope s) pts num c0).
(* reset, lines 9-14 *)
Definition voctf_reset (s : voctf) : voctf := VF f32_zero f32_zero (vf_pts s) 0 false.
Definition voctf_step (s : voctf) (o : vfop) : outcome voctf :=
  match o with VFReset => Ok (voctf_reset s) | VFRec n m => voctf_record s n m end.
Fixpoint voctf_run (s : voctf) (ops : list vfop) : outcome voctf :=
  match ops with [] => Ok s | o :: r => let* s' := voctf_step s o in voctf_run s' r end.
