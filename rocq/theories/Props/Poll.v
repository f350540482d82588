(* C55, C56: periodic polling. *)
From Verif.Common Require Import Base.
From Verif.Spec Require Import History PollSpec.
From Verif.Model Require Import Poll.
From Verif.Proofs Require Poll.

(** C55.  An unsigned clock of [W] bits that does not wrap during the polls at [ts]. *)
Theorem C55_fires_when_period_elapsed :
  forall (W period : Z) (ts : list Z),
    0 < W -> 0 <= period < 2 ^ W ->
    (forall t, In t ts -> 0 <= t < 2 ^ W) -> (forall a b x y, ts = a ++ x :: y :: b -> x <= y) ->
    snd (srun (pe_poll W period) 0 ts) = firings period 0 ts.
Proof. intros W period ts HW Hp Hb Hs. apply Poll.pe_run_nowrap; try assumption. apply Z.le_refl. Qed.
Print Assumptions C55_fires_when_period_elapsed.
(** Real times [ts] may be arbitrarily large; the clock shows them modulo 2^W. *)
Theorem C55_fires_across_wraps_when_due_time_wraps :
  forall (W period start : Z) (ts : list Z),
    0 < W -> 0 <= period < 2 ^ W -> 0 <= start -> timely W period start ts ->
    snd (srun (pe_poll W period) (start mod 2 ^ W) (map (fun t => t mod 2 ^ W) ts)) = firings period start ts.
Proof. intros. apply Poll.pe_run; assumption. Qed.
Print Assumptions C55_fires_across_wraps_when_due_time_wraps.
(** The clock wrapped since the last firing but the due time did not: overdue, yet silent until
    the clock reaches the due time in its next round. *)
Theorem C55_expiry_missed_on_wrap_refuted :
  forall W period last now : Z,
    0 < W -> 0 <= period < 2 ^ W -> 0 <= last ->
    (last / 2 ^ W + 1) * 2 ^ W <= now < last + 2 ^ W + period -> last mod 2 ^ W + period < 2 ^ W ->
    period <= now - last /\ pe_poll W period (last mod 2 ^ W) (now mod 2 ^ W) = (last mod 2 ^ W, false).
Proof. intros. apply Poll.pe_miss; assumption. Qed.
Print Assumptions C55_expiry_missed_on_wrap_refuted.
(** A signed clock: correct while it advances, undefined when it goes back near the end of its range. *)
Theorem C55_signed_clock :
  forall W period last now : Z,
    (0 <= last <= now -> now < 2 ^ (W - 1) ->
     pe_poll_s W period last now = Ok (if period <=? now - last then (now, true) else (last, false))) /\
    (now < last -> 2 ^ (W - 1) <= last + period -> pe_poll_s W period last now = UB SignedOverflow).
Proof. intros W period last now. split; [apply Poll.pe_signed|apply Poll.pe_signed_wrap]. Qed.
Print Assumptions C55_signed_clock.
Example C55_hypotheses_met :
  snd (srun (pe_poll 32 10) 0 [3; 10; 12; 19; 20; 45]) = [false; true; false; false; true; true] /\
  timely 8 20 250 [255; 260; 270; 275] /\
  firings 20 250 [255; 260; 270; 275] = [false; false; true; false] /\
  (* last 0xFFFFFFFD, period 2: the poll at 0 and all others up to 0xFFFFFFFE are silent *)
  pe_poll 32 2 4294967293 0 = (4294967293, false) /\ 4294967293 / 2 ^ 32 = 0 /\
  (4294967293 / 2 ^ 32 + 1) * 2 ^ 32 <= 4294967296 < 4294967293 + 2 ^ 32 + 2 /\ 4294967293 mod 2 ^ 32 + 2 < 2 ^ 32.
Proof. vm_compute. repeat split; intros; try discriminate; auto. Qed.

(** C56.  A poll reads the state iff it is due; take_change reports exactly the noticed changes. *)
Theorem C56_poll_reads_when_due :
  forall (ticks : Z) (h : list pcop) (now : Z) (s : bool),
    answer (pc_step ticks) pc0 h (PPoll now s) = true <-> due ticks (fst (reading ticks h)) now.
Proof. intros ticks h now s. apply (Poll.pc_answers ticks h now s). Qed.
Print Assumptions C56_poll_reads_when_due.
Theorem C56_take_change_reports_noticed_changes :
  forall (ticks : Z) (h : list pcop),
    answer (pc_step ticks) pc0 h PTake = true <-> since (notices ticks) (fun _ o => o = PTake) h.
Proof. intros ticks h. apply (Poll.pc_answers ticks h 0 false). Qed.
Print Assumptions C56_take_change_reports_noticed_changes.
(** Due is about real time while less than 2^32 ticks passed, wrapped or not. *)
Theorem C56_due_is_wrap_safe :
  forall ticks now last : Z,
    0 <= now - last < 2 ^ 32 -> (due ticks (last mod 2 ^ 32) (now mod 2 ^ 32) <-> ticks <= now - last).
Proof. exact Poll.due_real. Qed.
Print Assumptions C56_due_is_wrap_safe.
(** Forcing the next poll does not force it while the clock is below the period. *)
Theorem C56_force_depends_on_clock_refuted :
  forall (ticks : Z) (h : list pcop) (now : Z),
    0 <= now < 2 ^ 32 -> (due ticks (fst (reading ticks (h ++ [PForce]))) now <-> ticks <= now).
Proof. exact Poll.force_due. Qed.
Print Assumptions C56_force_depends_on_clock_refuted.
Example C56_hypotheses_met :
  snd (srun (pc_step 10) pc0 [PPoll 5 true; PTake; PPoll 12 true; PTake; PTake; PPoll 25 true; PTake; PPoll 35 false; PReset; PTake; PForce; PPoll 9 true; PPoll 36 true; PTake])
  = [false; false; true; true; false; true; false; true; false; true; false; false; true; true] /\
  due 10 4294967290 5.
Proof. split; [reflexivity|unfold due; vm_compute; discriminate]. Qed.
