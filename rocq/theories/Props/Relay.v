(* C165: a button relayed from one toggler to another. *)
From Verif.Common Require Import Base.
From Verif.Spec Require Import ButtonSpec IrqSpec RelaySpec.
From Verif.Model Require Import Debouncer Irq.
From Verif.Proofs Require Relay.

(** If the level changes at most once between two transfers, the receiver answers as if it had sampled
    the button itself whenever a transfer happened, and has the same level. *)
Theorem C165_relay_is_like_direct_sampling :
  forall ops : list xop, unhurried false false ops ->
    picks asks_receiver ops (snd (srun x_step (tog0, tog0) ops)) = picks asks (direct false ops) (snd (srun tog_step tog0 (direct false ops))) /\
    is_high (fst (fst (srun x_step (tog0, tog0) ops))) = is_high (fst (srun tog_step tog0 (direct false ops))).
Proof. exact Relay.relay. Qed.
Print Assumptions C165_relay_is_like_direct_sampling.

(** Without that condition: after any samples and a transfer, starting with no event pending at
    the source, the receiver has the last sample's level and no event is left at the source;
    a release among the samples is reported, and a press is only if there was no release. *)
Theorem C165_one_transfer :
  forall (a b : toggler) (l : list bool), got_rise b = false -> got_fall b = false ->
    exists a' b', fst (srun x_step (a, b) (map (fun s => XSecond (TReg s)) l ++ [XTransfer])) = (a', b') /\
      is_high a' = last l (is_high b) /\ is_high b' = last l (is_high b) /\ got_rise b' = false /\ got_fall b' = false /\
      snd (is_just_released a') = snd (is_just_released a) || changes_to false (is_high b) l /\
      snd (is_just_pressed a') = snd (is_just_pressed a) || (changes_to true (is_high b) l && negb (changes_to false (is_high b) l)).
Proof. exact Relay.one_transfer. Qed.
Print Assumptions C165_one_transfer.

(** What does not hold: update_state, which leaves the source as it is, reports a press once.  A press
    pending at the source is reported after every update, whatever was reported before. *)
Theorem C165_update_reports_once_refuted :
  forall a b : toggler, got_rise b = true -> got_fall b = false -> snd (is_just_pressed (update_state a b)) = true.
Proof. exact Relay.updates_again. Qed.
Print Assumptions C165_update_reports_once_refuted.

Example C165_hypotheses_met :
  let slow := [XSecond (TReg true); XFirst TPressed; XSecond (TReg true); XTransfer; XFirst TPressed; XSecond TFall; XTransfer; XFirst TReleased; XFirst TPressed;
               XSecond (TReg true); XTransfer; XSecond (TReg false); XTransfer; XFirst TPressed; XFirst TReleased] in
  unhurried false false slow /\
  direct false slow = [TPressed; TReg true; TPressed; TReg false; TReleased; TPressed; TReg true; TReg false; TPressed; TReleased] /\
  picks asks_receiver slow (snd (srun x_step (tog0, tog0) slow)) = [false; true; true; false; true; true] /\
  (let fast := [XSecond (TReg true); XSecond (TReg false); XSecond (TReg true); XTransfer; XFirst TPressed; XFirst TReleased] in
   ~ unhurried false false fast /\ picks asks_receiver fast (snd (srun x_step (tog0, tog0) fast)) = [false; true]) /\
  (let src := register_state tog0 true in
   let a1 := fst (is_just_pressed (update_state tog0 src)) in snd (is_just_pressed a1) = false /\ snd (is_just_pressed (update_state a1 src)) = true).
Proof. cbn. repeat split; try reflexivity. intros [_ [H _]]. discriminate. Qed.
