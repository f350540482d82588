(* C57, C60, C96: edge and change detectors, parameters, Schmitt triggers. *)
From Coq Require Import Floats.SpecFloat.
From Verif.Common Require Import Base.
From Verif.Spec Require Import History DetectSpec.
From Verif.Model Require Import Debouncer Detect.
From Verif.Proofs Require Detect.

(** C57.  [ago false bs i]: the i-th most recent sample, low before the first. *)
Theorem C57_edge_detectors :
  forall (bs : list bool) (b : bool),
    (answer rising_update false bs b = true <-> b = true /\ ago false bs 0 = false) /\
    (answer falling_update false bs b = true <-> b = false /\ ago false bs 0 = true).
Proof. intros bs b. exact (conj (Detect.rising_spec bs b) (Detect.falling_spec bs b)). Qed.
Print Assumptions C57_edge_detectors.
Theorem C57_edge_state_detector :
  forall h : list eop,
    let s := after es_step es0 h in let now := ago false (since_reset h) 0 in let before := ago false (since_reset h) 1 in
    es_is_high s = now /\ es_changed s = negb (Bool.eqb before now) /\
    es_went_high s = negb before && now /\ es_went_low s = before && negb now /\
    es_staying_high s = before && now /\ es_staying_low s = negb before && negb now.
Proof.
  intros h. cbv zeta. destruct (Detect.es_spec h) as [<- <-]. repeat split; reflexivity.
Qed.
Print Assumptions C57_edge_state_detector.
Theorem C57_change_detector :
  forall h : list (vop bool), answer cd_step cd0 h VChanged = true <-> since (changes false) asked h.
Proof. exact Detect.cd_answer. Qed.
Print Assumptions C57_change_detector.
(** A Parameter counts as changed until first asked. *)
Theorem C57_parameter :
  forall (v0 : Z) (h : list (vop Z)),
    pa_val (after pa_step (pa_init v0) h) = held v0 h /\
    (answer pa_step (pa_init v0) h VChanged = true <-> ~ In VChanged h \/ since (changes v0) asked h).
Proof. intros v0 h. split; [apply (Detect.pa_spec v0 h)|apply Detect.pa_answer]. Qed.
Print Assumptions C57_parameter.
(** A RefParameter compares with the value when last asked (0 at first). *)
Theorem C57_ref_parameter :
  forall (v0 : Z) (h : list (vop Z)),
    rp_var (after rp_step (rp_init v0) h) = held v0 h /\
    (answer rp_step (rp_init v0) h VChanged = true <-> held v0 h <> at_last_query v0 0 h).
Proof. intros v0 h. split; [apply (Detect.rp_spec v0 h)|apply Detect.rp_answer]. Qed.
Print Assumptions C57_ref_parameter.
Example C57_hypotheses_met :
  snd (srun rising_update false [true; true; false; true]) = [true; false; false; true] /\
  snd (srun falling_update false [false; true; false; false]) = [false; false; true; false] /\
  since_reset [EUpdate true; EReset; EUpdate false; EUpdate true] = [false; true] /\
  snd (srun cd_step cd0 [VSet true; VSet false; VChanged; VChanged]) = [false; false; true; false] /\
  snd (srun pa_step (pa_init 3) [VChanged; VSet 3; VChanged; VSet 4; VSet 3; VChanged]) = [true; false; false; false; false; true] /\
  snd (srun rp_step (rp_init 3) [VChanged; VSet 4; VSet 3; VChanged; VSet 0; VChanged]) = [true; false; false; false; false; true].
Proof. repeat split; reflexivity. Qed.

(** C60.  Any float samples, NaN and infinities included. *)
Theorem C60_schmitt_level :
  forall (low high : spec_float) (h : list sop),
    SFleb low high = true ->
    (is_high (after (st_step low high) tog0 h) = true <-> gate_high low high h).
Proof. intros low high h H. apply (Detect.st_spec low high H h). Qed.
Print Assumptions C60_schmitt_level.
Theorem C60_schmitt_events :
  forall (low high : spec_float) (h : list sop),
    SFleb low high = true ->
    (answer (st_step low high) tog0 h SPressed = true <->
     since (gate_rises low high) (fun p o => o = SPressed \/ gate_falls low high p o) h) /\
    (answer (st_step low high) tog0 h SReleased = true <->
     since (gate_falls low high) (fun p o => o = SReleased \/ gate_rises low high p o) h).
Proof. intros low high h H. apply (Detect.st_answers low high H h). Qed.
Print Assumptions C60_schmitt_events.
(** Samples neither above [high] nor below [low], NaN among them, change nothing. *)
Theorem C60_no_chatter :
  forall (low high : spec_float) (t : toggler) (last : bool) (vs : list spec_float),
    Forall (fun v => SFltb high v = false /\ SFltb v low = false) vs ->
    after (st_step low high) t (map SSample vs) = t /\
    after (rst_update low high) last vs = last /\ Forall (fun r => r = false) (snd (srun (rst_update low high) last vs)).
Proof. intros low high t last vs H. destruct (Detect.st_quiet low high t vs H) as [A B]. exact (conj A (B last)). Qed.
Print Assumptions C60_no_chatter.
Theorem C60_rising_trigger_reports_rises :
  forall (low high : spec_float) (vs : list spec_float) (v : spec_float),
    SFleb low high = true ->
    (answer (rst_update low high) false vs v = true <-> gate_rises low high (map SSample vs) (SSample v)).
Proof. intros low high vs v H. apply Detect.rst_answer. exact H. Qed.
Print Assumptions C60_rising_trigger_reports_rises.
Example C60_hypotheses_met :
  (* 0.4f, 0.6f; samples 0.5f, 1, 0.5f, NaN, 0, 1 *)
  let low := S754_finite false 13421773 (-25) in let high := S754_finite false 10066330 (-24) in
  let half := S754_finite false 8388608 (-24) in let one := S754_finite false 8388608 (-23) in
  SFleb low high = true /\ Forall (fun v => SFltb high v = false /\ SFltb v low = false) [half; S754_nan] /\
  snd (srun (rst_update low high) false [half; one; half; S754_nan; S754_zero false; one]) = [false; true; false; false; false; true] /\
  snd (srun (st_step low high) tog0 [SSample half; SPressed; SSample one; SSample S754_nan; SPressed; SSample (S754_zero true); SReleased])
  = [false; false; false; false; true; false; true].
Proof. cbv zeta. repeat split; try reflexivity. repeat constructor. Qed.

(** C96.  The least change accepted is the integer quotient. *)
Theorem C96_latched_param :
  forall (num denom : Z) (h : list lop) (x : Z),
    let m := num / denom in
    lp_val (after (lp_step num denom) lp0 h) = latched m h /\
    (answer (lp_step num denom) lp0 h (LStore x) = true <-> m <= Z.abs (x - latched m h)) /\
    (answer (lp_step num denom) lp0 h LDid = true <-> since (accepts m) did h).
Proof. intros num denom h x. split; [apply (Detect.lp_spec num denom h)|apply Detect.lp_answers]. Qed.
Print Assumptions C96_latched_param.
(** A fractional threshold of an integer parameter is zero: storing the same value is a change. *)
Theorem C96_fraction_of_integer_is_zero_refuted :
  forall (num denom : Z) (h : list lop) (x : Z),
    0 <= num < denom -> answer (lp_step num denom) lp0 h (LStore x) = true.
Proof. intros num denom h x H. apply Detect.lp_answers. rewrite Z.div_small by exact H. apply Z.abs_nonneg. Qed.
Print Assumptions C96_fraction_of_integer_is_zero_refuted.
Example C96_hypotheses_met :
  snd (srun (lp_step 7 2) lp0 [LStore 2; LStore 3; LStore 5; LDid; LDid; LAssign 20; LStore 22; LDid; LStore 17; LDid])
  = [false; true; false; true; false; false; false; false; true; true] /\
  snd (srun (lp_step 1 2) lp0 [LStore 0; LStore 0]) = [true; true].
Proof. split; reflexivity. Qed.
