(* C52, C53, C54, C93, C94, C95: button togglers and debouncers. *)
From Verif.Common Require Import Base.
From Verif.Spec Require Import History ButtonSpec.
From Verif.Model Require Import Debouncer.
From Verif.Proofs Require Debouncer.

(** C52.  After any history of calls. *)
Theorem C52_toggler_events :
  forall h : list top,
    is_high (after tog_step tog0 h) = level h /\
    (answer tog_step tog0 h TPressed = true <-> press_pending h) /\
    (answer tog_step tog0 h TReleased = true <-> release_pending h).
Proof. intros h. split; [apply (Debouncer.toggler_spec h)|apply (Debouncer.tog_answers h)]. Qed.
Print Assumptions C52_toggler_events.
Example C52_hypotheses_met :
  let h := [TReg true; TReg true; TPressed; TReg false; TReg true] in
  level h = true /\ snd (srun tog_step tog0 (h ++ [TPressed; TPressed; TReleased; TReleased]))
  = [false; false; true; false; false; true; false; true; false].
Proof. split; reflexivity. Qed.

(** C53.  The new states of the receiver and of the source. *)
Theorem C53_transfer_moves_events :
  forall t other t' other' : toggler,
    transfer_events t other = (t', other') ->
    is_high t' = is_high other /\ is_high other' = is_high other /\ got_rise other' = false /\ got_fall other' = false /\
    (~ (got_rise other = true /\ got_fall other = true) ->
     got_rise t' = got_rise t || got_rise other /\ got_fall t' = got_fall t || got_fall other).
Proof. exact Debouncer.transfer_moves. Qed.
Print Assumptions C53_transfer_moves_events.
(** With both events pending the press is lost. *)
Theorem C53_transfer_loses_press_refuted :
  forall t other t' other' : toggler,
    got_rise other = true -> got_fall other = true -> got_rise t = false ->
    transfer_events t other = (t', other') ->
    got_rise t' = false /\ got_rise other' = false /\ got_fall t' = true.
Proof. exact Debouncer.transfer_loses. Qed.
Print Assumptions C53_transfer_loses_press_refuted.
(** A copy answers every later history of calls as the original would. *)
Theorem C53_copy_behaves_alike :
  forall (t other : toggler) (h : list top) (o : top),
    answer tog_step (copy_state t other) h o = answer tog_step other h o /\
    is_high (after tog_step (copy_state t other) h) = is_high (after tog_step other h).
Proof. intros t other h o. rewrite Debouncer.copy_alike. split; reflexivity. Qed.
Print Assumptions C53_copy_behaves_alike.
Example C53_hypotheses_met :
  let src := after tog_step tog0 [TReg true; TReg false] in
  got_rise src = true /\ got_fall src = true /\ transfer_events tog0 src = (Tog false false true, Tog false false false) /\
  transfer_events tog0 (after tog_step tog0 [TReg true]) = (Tog true true false, Tog true false false).
Proof. repeat split; reflexivity. Qed.

(** C54.  The mask has [n] ones.  A press is reported iff the last [n] samples matched the rising
    pattern at some sample and, since, it was neither read nor discarded by a falling edge. *)
Theorem C54_debouncer_edges :
  forall (Rising Falling : Z) (n : nat) (DebounceRawState : bool) (h : list dop),
    (n <= 32)%nat ->
    let step := deb_step Rising Falling (2 ^ Z.of_nat n - 1) DebounceRawState in
    (answer step deb0 h DPressed = true <->
     since (rises n Rising) (fun p o => o = DPressed \/ falls n Rising Falling p o) h) /\
    (answer step deb0 h DReleased = true <->
     since (falls n Rising Falling) (fun p o => o = DReleased \/ rises n Rising p o) h).
Proof. intros. apply Debouncer.deb_answers. assumption. Qed.
Print Assumptions C54_debouncer_edges.
Theorem C54_debounced_level :
  forall (Rising Falling : Z) (n : nat) (h : list dop),
    (n <= 32)%nat ->
    (is_high (deb_tog (after (deb_step Rising Falling (2 ^ Z.of_nat n - 1) true) deb0 h)) = true
     <-> since (rises n Rising) (falls n Rising Falling) h).
Proof. intros R F n h Hn. apply (Debouncer.deb_spec R F n true Hn h). reflexivity. Qed.
Print Assumptions C54_debounced_level.
Theorem C54_raw_level :
  forall (Rising Falling : Z) (n : nat) (h : list dop),
    (0 < n <= 32)%nat -> Z.odd Rising = true -> Z.odd Falling = false ->
    is_high (deb_tog (after (deb_step Rising Falling (2 ^ Z.of_nat n - 1) false) deb0 h)) = recent (samples h) 0.
Proof. intros R F n h [H0 Hn] HR HF. apply Debouncer.deb_raw; try assumption. reflexivity. Qed.
Print Assumptions C54_raw_level.
(** Default patterns: two edges have at least ten samples between them. *)
Theorem C54_default_edges_are_spaced :
  forall (h1 h2 : list dop) (o1 o2 : dop),
    (rises 12 1 h1 o1 \/ falls 12 1 4294967294 h1 o1) ->
    (rises 12 1 (h1 ++ o1 :: h2) o2 \/ falls 12 1 4294967294 (h1 ++ o1 :: h2) o2) ->
    10 <= zlen (samples h2).
Proof. intros h1 h2 o1 o2. apply Debouncer.default_spacing_calls. Qed.
Print Assumptions C54_default_edges_are_spaced.
(** One glitch after eleven steady samples is an event at once. *)
Theorem C54_glitch_is_reported_refuted :
  forall (DebounceRawState : bool) (h : list dop),
    let step := deb_step 1 4294967294 4095 DebounceRawState in
    answer step deb0 (h ++ map DReg (repeat false 11) ++ [DReg true]) DPressed = true /\
    answer step deb0 (h ++ map DReg (repeat true 11) ++ [DReg false]) DReleased = true.
Proof. intros raw h. apply Debouncer.default_glitch_calls. Qed.
Print Assumptions C54_glitch_is_reported_refuted.
(** process reports any change at once. *)
Theorem C54_process_is_not_debounced_refuted :
  forall (d : debouncer) (b : bool),
    is_high (deb_tog d) = negb b ->
    is_high (deb_tog (deb_process d b)) = b /\
    (if b then snd (is_just_pressed (deb_tog (deb_process d b))) = true
     else snd (is_just_released (deb_tog (deb_process d b))) = true).
Proof. exact Debouncer.deb_process_now. Qed.
Print Assumptions C54_process_is_not_debounced_refuted.
(** It keeps the other event, and a level that is already reported changes nothing. *)
Theorem C54_process_reports_changes_only :
  forall (d : debouncer) (b : bool),
    (is_high (deb_tog d) = b -> deb_process d b = d) /\
    (if b then snd (is_just_released (deb_tog (deb_process d b))) = snd (is_just_released (deb_tog d))
     else snd (is_just_pressed (deb_tog (deb_process d b))) = snd (is_just_pressed (deb_tog d))).
Proof. exact Debouncer.deb_process_changes. Qed.
Print Assumptions C54_process_reports_changes_only.
Example C54_hypotheses_met :
  (* mask 7, rising 011, falling 100 *)
  snd (srun (deb_step 3 4 (2 ^ Z.of_nat 3 - 1) false) deb0
         [DReg false; DReg true; DPressed; DReg true; DPressed; DPressed; DReg true; DReg false; DReleased; DReg false; DReleased])
  = [false; false; false; false; true; false; false; false; false; false; true] /\
  rises 3 3 [DReg false; DReg true] (DReg true) /\ Z.odd 1 = true /\ Z.odd 4294967294 = false /\
  rises 12 1 [] (DReg true) /\ 2 ^ Z.of_nat 12 - 1 = 4095.
Proof.
  split; [reflexivity|]. split; [exists true; split; [reflexivity|]; intros [|[|[|i]]] Hi; try reflexivity; lia|].
  repeat split; try reflexivity. exists true. split; [reflexivity|]. intros i Hi.
  do 12 (destruct i as [|i]; [reflexivity|]). lia.
Qed.

(** C93.  A press can be detected, never read, and yet not be reported. *)
Theorem C93_unread_press_is_dropped_refuted :
  forall DebounceRawState : bool, exists h : list dop,
    since (rises 12 1) (fun _ o => o = DPressed) h /\
    answer (deb_step 1 4294967294 4095 DebounceRawState) deb0 h DPressed = false.
Proof. exact Debouncer.deb_drop. Qed.
Print Assumptions C93_unread_press_is_dropped_refuted.
(** Every edge leaves at most its own event pending, whatever was unread before. *)
Theorem C93_edge_discards_opposite :
  forall (Rising Falling : Z) (n : nat) (DebounceRawState : bool) (h : list dop) (o : dop),
    (n <= 32)%nat ->
    let step := deb_step Rising Falling (2 ^ Z.of_nat n - 1) DebounceRawState in
    (rises n Rising h o -> answer step deb0 (h ++ [o]) DPressed = true /\ answer step deb0 (h ++ [o]) DReleased = false) /\
    (falls n Rising Falling h o -> answer step deb0 (h ++ [o]) DReleased = true /\ answer step deb0 (h ++ [o]) DPressed = false).
Proof. intros. apply Debouncer.edge_discards. assumption. Qed.
Print Assumptions C93_edge_discards_opposite.
Example C93_hypotheses_met :
  falls 2 1 2 [DReg true] (DReg false) /\ rises 2 1 [] (DReg true) /\
  snd (srun (deb_step 1 2 3 false) deb0 [DReg true; DReg false; DPressed; DReleased]) = [false; false; false; true] /\
  snd (srun tog_step tog0 [TReg true; TReg false; TPressed; TReleased]) = [false; false; true; true].
Proof.
  repeat split; try reflexivity.
  - exists false. split; [reflexivity|]. split; [intros [|[|i]] Hi; try reflexivity; lia|]. intros M. specialize (M 0%nat ltac:(lia)). discriminate.
  - exists true. split; [reflexivity|]. intros [|[|i]] Hi; try reflexivity; lia.
Qed.

(** C94.  [tc_register] is register_state; samples are unsigned. *)
Theorem C94_counts_steady_samples :
  forall bs : list bool,
    let t := fold_left tc_register (map (fun b : bool => if b then 1 else 0) bs) tc0 in
    tc_tog t = after tog_step tog0 (map TReg bs) /\ tc_steady t = repeats bs mod 2 ^ 32.
Proof. exact Debouncer.tc_spec. Qed.
Print Assumptions C94_counts_steady_samples.
Theorem C94_large_sample_presses_every_time_refuted :
  forall (t : tcounter) (x : Z), 2 <= x ->
    let t' := tc_register t x in
    got_rise (tc_tog t') = true /\ is_high (tc_tog t') = true /\ tc_steady t' = 0.
Proof. exact Debouncer.tc_big. Qed.
Print Assumptions C94_large_sample_presses_every_time_refuted.
Example C94_hypotheses_met :
  repeats [true; true; false; false; false] = 2 /\ repeats [false; false] = 2 /\ repeats [true; false] = 0 /\
  fold_left tc_register [2; 2] tc0 = TC (Tog true true false) 0.
Proof. repeat split; reflexivity. Qed.

(** C95. *)
Theorem C95_counts_samples_since_edge :
  forall (Rising Falling : Z) (n : nat) (DebounceRawState : bool) (h : list dop),
    (n <= 32)%nat ->
    exists k, samples_since (fun p o => rises n Rising p o \/ falls n Rising Falling p o) h k /\
      deb_steady (after (deb_step Rising Falling (2 ^ Z.of_nat n - 1) DebounceRawState) deb0 h) = k mod 2 ^ 32.
Proof. intros. apply Debouncer.deb_count. assumption. Qed.
Print Assumptions C95_counts_samples_since_edge.
Example C95_hypotheses_met :
  deb_steady (after (deb_step 1 2 3 false) deb0 [DReg true; DReg true; DPressed; DReg true]) = 2 /\
  samples_since (fun p o => rises 2 1 p o \/ falls 2 1 2 p o) [DReg true] 0.
Proof.
  split; [reflexivity|]. apply (Debouncer.samples_since_edge _ [] (DReg true)). left. exists true. split; [reflexivity|].
  intros [|[|i]] Hi; try reflexivity; lia.
Qed.
