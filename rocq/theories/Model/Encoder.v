(* util/quadrature_encoder.hh and util/rotary_motion.hh. *)
From Verif.Common Require Import Base.
From Verif.Spec Require Import EncoderSpec.

(* valid_ccw, valid_cw; quadrature_encoder.hh lines 7-8 *)
Definition valid_ccw (invert : bool) : Z := Z.lxor 135 (if invert then 255 else 0).
Definition valid_cw (invert : bool) : Z := Z.lxor 75 (if invert then 255 else 0).
(* get_motion, lines 15-32; the state is prev_state, a uint8_t *)
Definition get_motion (invert : bool) (prev : Z) (p : bool * bool) : Z * direction :=
  let cur := Z.lor (if fst p then 1 else 0) (Z.shiftl (if snd p then 1 else 0) 1) in
  if Z.land prev 3 =? cur then (prev, None_)
  else
    let prev := word 8 (Z.shiftl prev 2) in
    let prev := word 8 (Z.lor prev cur) in
    (prev, if prev =? valid_cw invert then CW else if prev =? valid_ccw invert then CCW else None_).

(* RotaryMotion, rotary_motion.hh lines 4-27; the sums are of int32_t *)
Record rotary := Rot { abs_pos : Z; motion : Z }.
Definition rot0 : rotary := Rot 0 0.
Definition use_motion (r : rotary) : rotary * Z := (Rot (abs_pos r) 0, motion r).
Definition add_motion (r : rotary) (that_motion : Z) : outcome rotary :=
  let* m := schk 32 (motion r + that_motion) in
  let* a := schk 32 (abs_pos r + that_motion) in
  Ok (Rot a m).
(* that another object: the new *this and the new that *)
Definition transfer_motion (r that : rotary) : outcome (rotary * rotary) :=
  let (that', m) := use_motion that in
  let* r' := add_motion r m in Ok (r', that').

(* one call on one record; a transfer is seen by its receiver *)
Definition rot_step (r : rotary) (o : rop) : outcome (rotary * Z) :=
  match o with
  | RAdd d | RTransfer d => let* r' := add_motion r d in Ok (r', 0)
  | RUse => Ok (use_motion r)
  end.
(* one call on several records; transfers are between different ones *)
Definition rots_step (rs : list rotary) (o : mop) : outcome (list rotary * Z) :=
  match o with
  | MRecv i d => let* r := rd rs i in let* r' := add_motion r d in let* rs' := wr rs i r' in Ok (rs', 0)
  | MTransfer i j =>
      let* r := rd rs i in let* t := rd rs j in
      let* p := transfer_motion r t in
      let* rs1 := wr rs j (snd p) in let* rs2 := wr rs1 i (fst p) in Ok (rs2, 0)
  | MUse i => let* r := rd rs i in let* rs' := wr rs i (fst (use_motion r)) in Ok (rs', snd (use_motion r))
  end.
