(* C164 *)
From Verif.Common Require Import Base.
From Verif.Spec Require Import HandoffSpec.
From Verif.Model Require Import InterpWeak.
From Verif.Proofs Require InterpWeak.

(** Whatever the producer and the consumer do, with readings that are relaxed atomics: nothing is
    undefined; every reading taken was written, is no older than what had been marked when the
    consumer found the mark, and no lane ever goes back to an older reading.  (The last two
    hold with ordinary readings too as long as there is no race.) *)
Theorem C164_taken_is_no_older_than_the_mark :
  forall (N : Z) (exchange window plain : bool) (l : list iwact),
    (plain = false -> exists s log, iw_run N exchange window plain iw0 l = Ok (s, log)) /\
    forall s log, iw_run N exchange window plain iw0 l = Ok (s, log) -> handed_over h0 log.
Proof.
  intros. split; [intros ->; apply InterpWeak.atomic_total|]. intros s log. apply InterpWeak.taken_are_marked.
Qed.
Print Assumptions C164_taken_is_no_older_than_the_mark.

(** If the producer never marks between the consumer's load and its store of false - or if the
    two were one exchange - then between two calls, with no mark pending, every lane was
    last given a reading at least as new as the last one marked. *)
Theorem C164_nothing_lost_unless_marked_in_between :
  forall (N : Z) (exchange window plain : bool) (l : list iwact) (s : iwstate) (log : list hevent),
    exchange = true \/ window = false ->
    iw_run N exchange window plain iw0 l = Ok (s, log) -> c_pc s = IIdle -> f_val s = false -> up_to_date N log.
Proof. exact InterpWeak.up_to_date_when_idle. Qed.
Print Assumptions C164_nothing_lost_unless_marked_in_between.

(** The same of the schedules themselves: it is enough that no mark comes when the consumer has found the
    flag set and not cleared it yet. *)
Theorem C164_nothing_lost_by_marks_at_other_times :
  forall (N : Z) (exchange plain : bool) (l : list iwact) (s : iwstate) (log : list hevent),
    (forall l1 l2 s1 log1, l = l1 ++ PMark :: l2 -> iw_run N exchange true plain iw0 l1 = Ok (s1, log1) -> c_pc s1 <> IStore) ->
    iw_run N exchange true plain iw0 l = Ok (s, log) -> c_pc s = IIdle -> f_val s = false -> up_to_date N log.
Proof.
  intros N e p l s log H R. rewrite <- (InterpWeak.window_run N e p l iw0 H) in R. apply (InterpWeak.up_to_date_when_idle N e false p l s log); [right; reflexivity|exact R].
Qed.
Print Assumptions C164_nothing_lost_by_marks_at_other_times.

(** What does not hold: as the code is written, no reading is lost.  From every state between two
    calls the run can go on such that all lanes miss the last marked reading, and no later
    call takes it. *)
Theorem C164_marked_reading_lost_refuted :
  forall (N : Z) (l0 : list iwact) (s0 : iwstate) (log0 : list hevent),
    0 < N -> iw_run N false true false iw0 l0 = Ok (s0, log0) -> c_pc s0 = IIdle ->
    exists l s log, iw_run N false true false iw0 (l0 ++ l) = Ok (s, log0 ++ log) /\ c_pc s = IIdle /\
      (forall i, 0 <= i < N -> h_marked (summary (log0 ++ log)) i = h_taken (summary (log0 ++ log)) i + 1) /\
      forall js, iw_run N false true false s (map CStep js) = Ok (s, []).
Proof. exact InterpWeak.lost_reading. Qed.
Print Assumptions C164_marked_reading_lost_refuted.

(** Ordinary readings: a producer that writes only before its first mark never races. *)
Theorem C164_ordinary_readings_one_batch :
  forall (N : Z) (exchange window : bool) (l : list iwact),
    one_batch false l -> exists s log, iw_run N exchange window true iw0 l = Ok (s, log).
Proof. exact InterpWeak.plain_one_batch. Qed.
Print Assumptions C164_ordinary_readings_one_batch.

(** Ordinary readings: a second batch is a data race, whenever it comes - nothing tells the producer
    that the consumer has finished reading. *)
Theorem C164_ordinary_readings_second_batch_refuted :
  forall (N : Z) (exchange window : bool) (l : list iwact) (s : iwstate) (log : list hevent) (i j : Z),
    iw_run N exchange window true iw0 l = Ok (s, log) -> In (HTook i j) log -> 0 <= i < N ->
    iw_run N exchange window true iw0 (l ++ [PWrite i]) = UB DataRace.
Proof. exact InterpWeak.plain_race. Qed.
Print Assumptions C164_ordinary_readings_second_batch_refuted.

Example C164_hypotheses_met :
  let go e w p l := match iw_run 2 e w p iw0 l with Ok (s, log) => Ok (c_pc s, f_val s, log) | UB u => UB u | OutOfFuel => OutOfFuel end in
  let w := [PWrite 0; PWrite 1] in
  (* a mark after the store is found by the next call *)
  go false true false (w ++ [PMark; CStep 0; CStep 0; CStep 1] ++ w ++ [PMark; CStep 1; CStep 0; CStep 0; CStep 2; CStep 2])
    = Ok (IIdle, false, [HWrite 0; HWrite 1; HMark; HSeen; HTook 0 1; HWrite 0; HWrite 1; HMark; HTook 1 1; HSeen; HTook 0 2; HTook 1 2]) /\
  (* between the load and the store: lost, unless the producer may not mark there *)
  go false true false (w ++ [PMark; CStep 0] ++ w ++ [PMark; CStep 0; CStep 1; CStep 1; CStep 2; CStep 2])
    = Ok (IIdle, false, [HWrite 0; HWrite 1; HMark; HSeen; HWrite 0; HWrite 1; HMark; HTook 0 1; HTook 1 1]) /\
  go false false false (w ++ [PMark; CStep 0] ++ w ++ [PMark; CStep 0; CStep 1; CStep 1; PMark; CStep 0; CStep 0; CStep 2; CStep 2])
    = Ok (IIdle, false, [HWrite 0; HWrite 1; HMark; HSeen; HWrite 0; HWrite 1; HTook 0 1; HTook 1 1; HMark; HSeen; HTook 0 2; HTook 1 2]) /\
  go true true false (w ++ [PMark; CStep 0] ++ w ++ [PMark; CStep 1; CStep 1; CStep 0; CStep 2; CStep 2])
    = Ok (IIdle, false, [HWrite 0; HWrite 1; HMark; HSeen; HWrite 0; HWrite 1; HMark; HTook 0 1; HTook 1 1; HSeen; HTook 0 2; HTook 1 2]) /\
  (* ordinary readings *)
  one_batch false (w ++ [PMark; CStep 0; CStep 0; PMark; CStep 0; CStep 0]) /\
  go false true true (w ++ [PMark; CStep 0; CStep 0; PMark; CStep 0; CStep 0])
    = Ok (IIdle, true, [HWrite 0; HWrite 1; HMark; HSeen; HMark; HTook 0 1; HTook 1 1]) /\
  go false true true (w ++ [PMark; CStep 0; CStep 0; CStep 0; CStep 0; PWrite 1]) = UB DataRace.
Proof. cbn zeta. repeat split; vm_compute; reflexivity. Qed.
