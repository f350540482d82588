(* C58, C59: rotary encoders. *)
From Verif.Common Require Import Base.
From Verif.Spec Require Import History EncoderSpec.
From Verif.Model Require Import Encoder.
From Verif.Proofs Require Encoder.

(** C58.  A call reports a direction iff it changes the pins (both low at first) and the states
    visited end with that direction's detent sequence. *)
Theorem C58_motion_iff_detent_sequence :
  forall (h : list (bool * bool)) (p : bool * bool),
    (answer (get_motion false) 0 h p = CW <->
     pins p <> last (map pins h) 0 /\ ends_with (visits 0 (map pins (h ++ [p]))) clockwise) /\
    (answer (get_motion false) 0 h p = CCW <->
     pins p <> last (map pins h) 0 /\ ends_with (visits 0 (map pins (h ++ [p]))) counter_clockwise).
Proof. exact Encoder.encoder_spec. Qed.
Print Assumptions C58_motion_iff_detent_sequence.
Theorem C58_inverted_encoder :
  forall (h : list (bool * bool)) (p : bool * bool),
    answer (get_motion true) 0 (map inverted h) (inverted p) = answer (get_motion false) 0 h p.
Proof. exact Encoder.encoder_inverted. Qed.
Print Assumptions C58_inverted_encoder.
(** From a detent, a stream that visits [k] full turns (dwelling anywhere) reports exactly [k]. *)
Theorem C58_full_turns :
  forall (pre stream : list (bool * bool)) (k : nat),
    last (map pins pre) 0 = 3 ->
    let outs := snd (srun (get_motion false) (after (get_motion false) 0 pre) stream) in
    (visits 3 (map pins stream) = concat (repeat clockwise k) -> moves outs = repeat CW k) /\
    (visits 3 (map pins stream) = concat (repeat counter_clockwise k) -> moves outs = repeat CCW k).
Proof. exact Encoder.encoder_turns. Qed.
Print Assumptions C58_full_turns.
Example C58_hypotheses_met :
  let s0 := (false, false) in let s1 := (true, false) in let s2 := (false, true) in let s3 := (true, true) in
  snd (srun (get_motion false) 0 [s3; s1; s1; s0; s2; s2; s3; s3; s2; s0; s1; s3]) =
  [None_; None_; None_; None_; None_; None_; CW; None_; None_; None_; None_; CCW] /\
  visits 3 (map pins [s3; s1; s1; s0; s2; s3]) = concat (repeat clockwise 1) /\ last (map pins [s0; s3]) 0 = 3.
Proof. repeat split; reflexivity. Qed.

(** C59.  One record: what was used plus what is pending is what was received; a run without
    overflow, which small totals guarantee. *)
Theorem C59_motion_is_conserved :
  forall (h : list rop) (r : rotary) (outs : list Z),
    run rot_step rot0 h = Ok (r, outs) -> zsum outs + motion r = received h /\ abs_pos r = received h.
Proof. exact Encoder.rot_conserved. Qed.
Print Assumptions C59_motion_is_conserved.
Theorem C59_small_motion_does_not_overflow :
  forall h : list rop,
    2 * zsum (map (fun o => match o with RAdd d | RTransfer d => Z.abs d | RUse => 0 end) h) < 2 ^ 31 ->
    exists r outs, run rot_step rot0 h = Ok (r, outs).
Proof. intros h H. apply Encoder.rot_total. exact H. Qed.
Print Assumptions C59_small_motion_does_not_overflow.
(** Several records with motion moving between different ones. *)
Theorem C59_transfers_conserve_motion :
  forall (n : Z) (h : list mop) (rs : list rotary) (outs : list Z),
    Forall (fun o => match o with MTransfer i j => i <> j | _ => True end) h ->
    run rots_step (zrepeat rot0 n) h = Ok (rs, outs) ->
    zsum outs + zsum (map motion rs) = zsum (map arrived h).
Proof. exact Encoder.rots_conserved. Qed.
Print Assumptions C59_transfers_conserve_motion.
Theorem C59_transfer_empties_source :
  forall r that r' that' : rotary,
    transfer_motion r that = Ok (r', that') ->
    motion that' = 0 /\ abs_pos that' = abs_pos that /\
    motion r' = motion r + motion that /\ abs_pos r' = abs_pos r + motion that.
Proof. exact Encoder.transfer_spec. Qed.
Print Assumptions C59_transfer_empties_source.
Example C59_hypotheses_met :
  run rot_step rot0 [RAdd 3; RTransfer (-5); RUse; RAdd 4] = Ok (Rot 2 4, [0; 0; -2; 0]) /\
  run rots_step (zrepeat rot0 2) [MRecv 0 3; MTransfer 1 0; MRecv 0 4; MUse 1; MTransfer 1 0] =
    Ok ([Rot 7 0; Rot 7 4], [0; 0; 0; 3; 0]).
Proof. split; reflexivity. Qed.
