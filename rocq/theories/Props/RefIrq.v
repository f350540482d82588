(* C155: a RefParameter set by one side of an interrupt and polled by the other. *)
From Verif.Common Require Import Base.
From Verif.Spec Require Import DetectSpec IrqSpec RefIrqSpec.
From Verif.Model Require Import Detect Irq RefIrq.
From Verif.Proofs Require RefIrq.

(** C155.  The main program polls (reads the value whenever isChanged says so), the handler sets
    values, anywhere and any number of times.  If nothing is set between the moment isChanged takes
    note of the value and the reading, the main program ends up with the value held. *)
Theorem C155_polling_side_up_to_date :
  forall h s s' rs qs, Forall (calls_by polls sets) h -> Forall unset_after_change h ->
    irun (total ref_step) ref_main s (h ++ [Call PPoll []]) = Ok (s', rs, qs) -> last_seen (rp_last s) rs = rp_var s'.
Proof. exact RefIrq.ref_up_to_date. Qed.
Print Assumptions C155_polling_side_up_to_date.
(** The main program sets values and the handler polls, without any condition: every call acts at one
    moment, and the handler ends up with the value held. *)
Theorem C155_setting_side :
  forall h s s' rs qs, Forall (calls_by sets polls) h ->
    (irun (total ref_step) ref_main s h = Ok (s', rs, qs) -> atomically (total ref_step) s h rs qs s') /\
    (irun (total ref_step) ref_main s (h ++ [Irq PPoll]) = Ok (s', rs, qs) -> last_seen (rp_last s) qs = rp_var s').
Proof. intros h s s' rs qs H. split; [exact (RefIrq.ref_setter_atomic h s s' rs qs H)|exact (RefIrq.ref_setter_up_to_date h s s' rs qs H)]. Qed.
Print Assumptions C155_setting_side.
(** Without the condition a change is missed for good: the value [w], set between isChanged and the
    reading and then set back to [a], is the last one the main program ever gets. *)
Theorem C155_change_missed_refuted :
  forall s a w, a <> rp_last s -> w <> a ->
    irun (total ref_step) ref_main s [Call PPoll [[PSet a]; []; []; []; [PSet w]]; Irq (PSet a); Call PPoll []] = Ok (RP a a, [Some w; None], [None; None; None]).
Proof. exact RefIrq.ref_change_lost. Qed.
Print Assumptions C155_change_missed_refuted.
(** A call that is not interrupted does what the call does. *)
Theorem C155_uninterrupted :
  forall s o, irun (total ref_step) ref_main s [Call o []] = Ok (fst (ref_step s o), [snd (ref_step s o)], []).
Proof. exact RefIrq.uninterrupted_ref. Qed.
Print Assumptions C155_uninterrupted.
Example C155_hypotheses_met :
  let h := [Irq (PSet 5); Call PPoll [[PSet 6]; [PSet 7]; [PSet 9]; []; []; [PSet 1]]] in
  Forall (calls_by polls sets) h /\ Forall unset_after_change h /\
  irun (total ref_step) ref_main (rp_init 3) (h ++ [Call PPoll []]) = Ok (RP 1 1, [Some 9; Some 1], [None; None; None; None; None]) /\
  Forall (calls_by sets polls) [Call (PSet 5) [[PPoll]; [PPoll]]; Irq PPoll] /\
  irun (total ref_step) ref_main (rp_init 3) [Call (PSet 5) [[PPoll]; [PPoll]]; Irq PPoll] = Ok (RP 5 5, [None], [Some 3; Some 5; None]).
Proof. repeat split; try (vm_compute; reflexivity); repeat constructor; cbn; repeat eexists; repeat constructor; eexists; reflexivity. Qed.
