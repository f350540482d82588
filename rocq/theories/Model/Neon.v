(* util/soft_neon.hh and util/bitfield.hh *)
From Coq Require Import Floats.SpecFloat.
From Verif.Common Require Import Base F32.
Open Scope Z_scope.

(* float32x4_t and float32x2_t, lines 4-22 *)
Record quad := Q4 { q0 : f32; q1 : f32; q2 : f32; q3 : f32 }.
Record pair2 := D2 { d0 : f32; d1 : f32 }.
(* vdupq_n_f32, lines 24-27; vld1q_f32, lines 29-31 *)
Definition vdupq (a : f32) : quad := Q4 a a a a.
Definition vld1q (a : list f32) : outcome quad :=
  let* x0 := rd a 0 in let* x1 := rd a 1 in let* x2 := rd a 2 in let* x3 := rd a 3 in Ok (Q4 x0 x1 x2 x3).
(* vmulq_f32, lines 33-40; vsubq_f32, lines 56-58 *)
Definition vmulq (a b : quad) : quad := Q4 (fmul (q0 a) (q0 b)) (fmul (q1 a) (q1 b)) (fmul (q2 a) (q2 b)) (fmul (q3 a) (q3 b)).
Definition vsubq (a b : quad) : quad := Q4 (fsub (q0 a) (q0 b)) (fsub (q1 a) (q1 b)) (fsub (q2 a) (q2 b)) (fsub (q3 a) (q3 b)).
(* vmlaq_f32, lines 42-54: dst is a reference; the result is the new dst and the returned value *)
Definition vmlaq (dst a b : quad) : quad * quad :=
  let dst := Q4 (fadd (q0 dst) (fmul (q0 a) (q0 b))) (fadd (q1 dst) (fmul (q1 a) (q1 b)))
                (fadd (q2 dst) (fmul (q2 a) (q2 b))) (fadd (q3 dst) (fmul (q3 a) (q3 b))) in
  (dst, Q4 (q0 dst) (q1 dst) (q2 dst) (q3 dst)).
(* vpadd_f32, vget_low_f32, vget_high_f32, vget_lane_f32; lines 60-77 *)
Definition vpadd (a b : pair2) : pair2 := D2 (fadd (d0 a) (d1 a)) (fadd (d0 b) (d1 b)).
Definition vget_low (a : quad) : pair2 := D2 (q0 a) (q1 a).
Definition vget_high (a : quad) : pair2 := D2 (q2 a) (q3 a).
Definition vget_lane (a : pair2) (lane : Z) : outcome f32 := rd [d0 a; d1 a] lane.
(* MathTools::max<float>, math.hh lines 30-37; vmaxq_f32, lines 79-86 *)
Definition fmax2 (val1 val2 : f32) : f32 := if SFltb val2 val1 then val1 else val2.
Definition vmaxq (a b : quad) : quad := Q4 (fmax2 (q0 a) (q0 b)) (fmax2 (q1 a) (q1 b)) (fmax2 (q2 a) (q2 b)) (fmax2 (q3 a) (q3 b)).

(* bitfield.hh: bitfield(args...), lines 6-21, a left fold over at least one argument; the values are
   those of the enumerators, unsigned *)
Fixpoint fold_or (acc : Z) (l : list Z) : Z := match l with [] => acc | x :: r => fold_or (Z.lor acc x) r end.
Definition bitfield (first : Z) (rest : list Z) : Z := fold_or first rest.
(* OR, lines 23-31: [val] is not initialised ([None]) and every use of an uninitialised variable is undefined *)
Definition use (v : option Z) : outcome Z := match v with Some x => Ok x | None => UB Indeterminate end.
Fixpoint or_loop (val : option Z) (fields : list Z) : outcome (option Z) :=
  match fields with
  | [] => Ok val
  | el :: r => let* v := use val in or_loop (Some (Z.lor v el)) r
  end.
Definition OR (fields : list Z) : outcome Z := let* v := or_loop None fields in use v.
