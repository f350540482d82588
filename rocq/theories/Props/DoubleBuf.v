(* C14: DoubleBufferStream. *)
From Verif.Common Require Import Base.
From Verif.Spec Require Import StreamSpec.
From Verif.Model Require Import DoubleBuf.
From Verif.Proofs Require DoubleBuf.

(** C14.  With hardware that accepts every buffer, results and hardware calls are those of
    the specification [dbs_spec]. *)
Theorem C14_double_buffer_refines_spec :
  forall (T : Type) (size : Z) (dflt : T), 0 <= size -> forall ops : list (dop T),
    Forall hw_accepts ops ->
    exists s', run (dbs_step size) (dbs_init size dflt) ops = Ok (s', snd (srun (dbs_spec size) (None, []) ops)).
Proof. exact @DoubleBuf.dbs_run. Qed.
Print Assumptions C14_double_buffer_refines_spec.

(** C14.  Everything accepted is handed over exactly once and in order, except what is
    still waiting; the hardware is never called while busy. *)
Theorem C14_exactly_once_in_order :
  forall (T : Type) (size : Z) (dflt : T), 0 <= size -> forall ops : list (dop T),
    Forall hw_accepts ops ->
    exists s' outs waiting, run (dbs_step size) (dbs_init size dflt) ops = Ok (s', outs) /\
      accepted ops outs = sent outs ++ waiting /\ zlen waiting <= size /\ never_busy false ops outs.
Proof. exact @DoubleBuf.dbs_exactly_once. Qed.
Print Assumptions C14_exactly_once_in_order.

(** C14.  Two callbacks later nothing is waiting any more. *)
Theorem C14_two_callbacks_drain :
  forall (T : Type) (size : Z) (dflt : T), 0 <= size -> forall ops : list (dop T),
    Forall hw_accepts ops ->
    exists s' outs, run (dbs_step size) (dbs_init size dflt) (ops ++ [DDone true; DDone true]) = Ok (s', outs) /\
      accepted (ops ++ [DDone true; DDone true]) outs = sent outs.
Proof. exact @DoubleBuf.dbs_drained. Qed.
Print Assumptions C14_two_callbacks_drain.

Example C14_hypotheses_met :
  let ops := [DTransmit [1; 2] true; DTransmit [3] true; DTransmit [4; 5] true; DTransmit [6; 7] true; DDone true; DTransmit [8] true] in
  0 <= 4 /\ Forall hw_accepts ops /\
  (exists s', run (dbs_step 4) (dbs_init 4 0) ops =
     Ok (s', [(Some true, Some [1; 2]); (Some true, None); (Some true, None); (Some false, None); (None, Some [3; 4; 5]); (Some true, None)])) /\
  (exists s' outs, run (dbs_step 4) (dbs_init 4 0) (ops ++ [DDone true; DDone true]) = Ok (s', outs) /\ sent outs = [1; 2; 3; 4; 5; 8]).
Proof.
  split; [Lia.lia|]. split; [repeat constructor|]. split; eexists; [vm_compute; reflexivity|].
  eexists. split; [vm_compute; reflexivity|reflexivity].
Qed.

(** C14, without the assumption on the hardware: if it refuses the first buffer, transmit
    returns false although the data stay queued as in flight, and no later transmit ever
    calls the hardware again. *)
Theorem C14_failed_start_blocks_forever_refuted :
  forall (T : Type) (size : Z) (dflt : T), 0 <= size -> forall (w : list T) (ops : list (dop T)),
    zlen w <= size -> Forall is_transmit ops ->
    exists s' outs,
      run (dbs_step size) (dbs_init size dflt) (DTransmit w false :: ops) = Ok (s', (Some false, Some w) :: outs) /\
      sent outs = [].
Proof. exact @DoubleBuf.failed_start. Qed.
Print Assumptions C14_failed_start_blocks_forever_refuted.

Example C14_failed_start_hypotheses_met :
  exists s', run (dbs_step 2) (dbs_init 2 0) [DTransmit [1] false; DTransmit [2] true; DTransmit [3; 4] true] =
    Ok (s', [(Some false, Some [1]); (Some true, None); (Some false, None)]).
Proof. eexists. vm_compute. reflexivity. Qed.
