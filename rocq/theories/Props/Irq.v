(* C146: buttons, rotary motion and parameters polled by a main program and fed by an interrupt handler. *)
From Verif.Common Require Import Base.
From Verif.Spec Require Import ButtonSpec EncoderSpec DetectSpec IrqSpec.
From Verif.Model Require Import Debouncer Encoder Detect Irq.
From Verif.Proofs Require Irq.

(** C146.  Toggler: wherever the handler interrupts is_just_pressed and is_just_released, each of them
    takes effect at one moment.  The same holds when the handler polls and the main program registers. *)
Theorem C146_interrupted_toggler :
  forall h t, Forall (calls_by is_poll no_poll) h \/ Forall (calls_by registers is_poll) h ->
    exists t' rs qs, irun (total tog_step) tog_main t h = Ok (t', rs, qs) /\ atomically (total tog_step) t h rs qs t'.
Proof. exact Irq.toggler_atomic. Qed.
Print Assumptions C146_interrupted_toggler.
(** What does not hold.  Two pollers get the same press; TogglerCompact forgets all that happened
    during one assignment; after register_rising_edge the older release is still reported;
    transfer_events loses an event that arrives while it runs. *)
Theorem C146_two_pollers_refuted :
  forall t, got_rise t = true ->
    irun (total tog_step) tog_main t [Call TPressed [[]; [TPressed]]] = Ok (Tog (is_high t) false (got_fall t), [true], [true]).
Proof. exact Irq.double_take. Qed.
Print Assumptions C146_two_pollers_refuted.
Theorem C146_compact_refuted :
  forall t l t1 q, got_rise t = true -> run (total tog_step) t l = Ok (t1, q) ->
    irun (total tog_step) compact_main t [Call TPressed [[]; []; l]] = Ok (Tog (is_high t) false (got_fall t), [true], q).
Proof. exact Irq.compact_undoes. Qed.
Print Assumptions C146_compact_refuted.
Theorem C146_press_cancels_release_refuted :
  forall t, got_fall t = true ->
    irun (total tog_step) tog_main t [Call TRise [[]; []; [TPressed; TReleased]]] = Ok (Tog true false false, [false], [true; true]).
Proof. exact Irq.old_release. Qed.
Print Assumptions C146_press_cancels_release_refuted.
Theorem C146_transfer_refuted :
  forall t, irun (total x_step) x_main (t, tog0) [Call XTransfer [[]; []; [XSecond (TReg true)]]; Call XTransfer []]
    = Ok ((Tog true (got_rise t) (got_fall t), Tog true false false), [false; false], [false]).
Proof. exact Irq.transfer_loses. Qed.
Print Assumptions C146_transfer_refuted.
(** RotaryMotion: exactly the motion reported between the two accesses of use_motion is lost; the
    position is always right.  A sum interrupted by use_motion counts motion twice. *)
Theorem C146_motion_balance :
  forall h r r' us qs, Forall (calls_by uses adds) h -> irun rot_step rot_main r h = Ok (r', us, qs) ->
    zsum us + motion r' + missed h = motion r + arrived h /\ abs_pos r' = abs_pos r + arrived h.
Proof. exact Irq.motion_balance. Qed.
Print Assumptions C146_motion_balance.
Theorem C146_motion_lost_refuted :
  forall a m d, - 2 ^ 31 <= m + d < 2 ^ 31 -> - 2 ^ 31 <= a + d < 2 ^ 31 ->
    irun rot_step rot_main (Rot a m) [Call RUse [[]; [RAdd d]]; Call RUse []] = Ok (Rot (a + d) 0, [m; 0], [0]).
Proof. exact Irq.motion_lost. Qed.
Print Assumptions C146_motion_lost_refuted.
Theorem C146_motion_counted_twice_refuted :
  forall a m d, - 2 ^ 31 <= m + d < 2 ^ 31 -> - 2 ^ 31 <= a + d < 2 ^ 31 ->
    irun rot_step rot_main (Rot a m) [Call (RAdd d) [[]; [RUse]]; Irq RUse] = Ok (Rot (a + d) 0, [0], [m; m + d]).
Proof. exact Irq.motion_twice. Qed.
Print Assumptions C146_motion_counted_twice_refuted.
(** LatchedParam: a side that reads the value whenever told it changed ends up with the value held,
    whichever side is interrupted.  [v] is what it had at first. *)
Theorem C146_latched_param_up_to_date :
  forall num denom h s s' rs qs v, lp_changed s = true \/ lp_val s = v ->
    let go := irun (total (lat_step num denom)) (lat_main num denom) s in
    (Forall (calls_by polls sets) h -> go (h ++ [Call PPoll []]) = Ok (s', rs, qs) -> last_seen v rs = lp_val s') /\
    (Forall (calls_by sets polls) h -> go (h ++ [Irq PPoll]) = Ok (s', rs, qs) -> last_seen v qs = lp_val s').
Proof. exact Irq.latched_up_to_date. Qed.
Print Assumptions C146_latched_param_up_to_date.
(** Parameter: only if nothing is set between reading and clearing the flag.  Otherwise, or when
    setValue is interrupted by the poll, the value is missed for good. *)
Theorem C146_parameter_up_to_date :
  forall h s s' rs qs v, pa_changed s = true \/ pa_val s = v ->
    Forall (calls_by polls sets) h -> Forall undisturbed h ->
    irun (total par_step) par_main s (h ++ [Call PPoll []]) = Ok (s', rs, qs) -> last_seen v rs = pa_val s'.
Proof. exact Irq.parameter_up_to_date. Qed.
Print Assumptions C146_parameter_up_to_date.
Theorem C146_parameter_change_lost_refuted :
  forall s x, x <> pa_val s -> pa_changed s = false ->
    irun (total par_step) par_main s [Call PPoll [[]; [PSet x]]; Call PPoll []] = Ok (PA x false, [None; None], [None]).
Proof. exact Irq.parameter_loses. Qed.
Print Assumptions C146_parameter_change_lost_refuted.
Theorem C146_parameter_announced_early_refuted :
  forall s x, x <> pa_val s ->
    irun (total par_step) par_main s [Call (PSet x) [[]; []; [PPoll]]; Irq PPoll] = Ok (PA x false, [None], [Some (pa_val s); None]).
Proof. exact Irq.parameter_early. Qed.
Print Assumptions C146_parameter_announced_early_refuted.
(** A call that is not interrupted does what the call does. *)
Theorem C146_uninterrupted :
  forall num denom t a b r s p,
    (forall o, irun (total tog_step) tog_main t [Call o []] = Ok (fst (tog_step t o), [snd (tog_step t o)], []) /\
               irun (total tog_step) compact_main t [Call o []] = Ok (fst (tog_step t o), [snd (tog_step t o)], [])) /\
    irun (total x_step) x_main (a, b) [Call XTransfer []] = Ok (transfer_events a b, [false], []) /\
    irun (total x_step) x_main (a, b) [Irq XTransfer] = Ok (transfer_events a b, [], [false]) /\
    (forall o, irun (total x_step) x_main (a, b) [Call (XFirst o) []] = Ok ((fst (tog_step a o), b), [snd (tog_step a o)], []) /\
               irun (total x_step) x_main (a, b) [Call (XSecond o) []] = Ok ((a, fst (tog_step b o)), [snd (tog_step b o)], [])) /\
    (forall o, irun rot_step rot_main r [Call o []] =
       match rot_step r o with Ok (r', x) => Ok (r', [x], []) | UB k => UB k | OutOfFuel => OutOfFuel end) /\
    (forall o, irun (total par_step) par_main p [Call o []] = Ok (fst (par_step p o), [snd (par_step p o)], []) /\
               irun (total (lat_step num denom)) (lat_main num denom) s [Call o []] = Ok (fst (lat_step num denom s o), [snd (lat_step num denom s o)], [])).
Proof.
  intros num denom t a b r s p. split; [exact (fun o => Irq.uninterrupted_toggler o t)|]. split; [exact (proj1 (Irq.uninterrupted_transfer a b))|]. split; [reflexivity|].
  split; [exact (proj2 (Irq.uninterrupted_transfer a b))|]. split; [exact (fun o => Irq.uninterrupted_rotary o r)|exact (fun o => Irq.uninterrupted_param num denom o s p)].
Qed.
Print Assumptions C146_uninterrupted.
Example C146_hypotheses_met :
  let h1 := [Irq (TReg true); Call TPressed [[]; [TReg false; TReg true]]; Call TReleased [[TReg false]; [TReg true]]; Call TPressed []] in
  let h2 := [Irq TPressed; Call (TReg true) [[]; [TPressed]; [TPressed]]; Irq TPressed] in
  let h3 := [Irq (RAdd 2); Call RUse [[RAdd 3]; [RAdd (-7)]; [RAdd 11]]; Call RUse []] in
  let h4 := [Irq (PSet 5); Call PPoll [[PSet 6]; [PSet 7]; [PSet 9]; [PSet 1]]] in
  let h5 := [Call (PSet 5) [[PPoll]; [PPoll]; [PPoll]; [PPoll]]; Call (PSet 6) []] in
  let h6 := [Irq (PSet 5); Call PPoll [[PSet 6]; []; [PSet 9]; [PSet 1]]] in
  Forall (calls_by is_poll no_poll) h1 /\
  irun (total tog_step) tog_main tog0 h1 = Ok (Tog true false false, [true; true; true], [false; false; false; false; false]) /\
  Forall (calls_by registers is_poll) h2 /\
  irun (total tog_step) tog_main tog0 h2 = Ok (Tog true false false, [false], [false; false; false; true]) /\
  irun (total tog_step) compact_main (Tog true true false) [Call TPressed [[]; []; [TReg false]]; Call TReleased []] = Ok (Tog true false false, [true; false], [false]) /\
  Forall (calls_by uses adds) h3 /\ irun rot_step rot_main rot0 h3 = Ok (Rot 9 0, [5; 11], [0; 0; 0; 0]) /\ missed h3 = -7 /\ arrived h3 = 9 /\
  Forall (calls_by polls sets) h4 /\
  irun (total (lat_step 1 1)) (lat_main 1 1) lp0 (h4 ++ [Call PPoll []]) = Ok (LP 1 false, [Some 9; Some 1], [None; None; None; None; None]) /\
  Forall (calls_by sets polls) h5 /\
  irun (total (lat_step 1 1)) (lat_main 1 1) lp0 (h5 ++ [Irq PPoll]) = Ok (LP 6 false, [None; None], [None; None; None; Some 5; Some 6]) /\
  Forall (calls_by polls sets) h6 /\ Forall undisturbed h6 /\
  irun (total par_step) par_main (pa_init 3) (h6 ++ [Call PPoll []]) = Ok (PA 1 false, [Some 9; Some 1], [None; None; None; None]).
Proof.
  cbv zeta. repeat match goal with |- _ /\ _ => split end; try (vm_compute; reflexivity);
    repeat match goal with |- Forall _ (_ :: _) => apply Forall_cons | |- Forall _ [] => apply Forall_nil
                         | |- calls_by _ _ (Irq _) => cbn | |- calls_by _ _ (Call _ _) => split end;
    try (left; reflexivity); try (right; reflexivity); try (intros [X|X]; discriminate X); try reflexivity; try exact I; eexists; reflexivity.
Qed.
