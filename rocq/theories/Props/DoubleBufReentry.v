(* C158: calls of a double-buffered transmitter from inside its hardware function. *)
From Verif.Common Require Import Base.
From Verif.Spec Require Import StreamSpec ReentrySpec.
From Verif.Model Require Import FixedVector DoubleBuf DoubleBufReentry.
From Verif.Proofs Require DoubleBufReentry.

(** C158.  Whatever calls the hardware function makes before it returns, and whatever calls those lead to, the
    state and all results are those of the calls made one after the other, in the order in which they began. *)
Theorem C158_inner_calls_come_after :
  forall (T : Type) (size : Z) (dflt : T), 0 <= size -> forall l : list (rop T),
    exists s' outs flat, calls size l (dbs_init size dflt) = Ok (s', outs) /\ flat = snd (orders size l (None, [])) /\
      run (dbs_step size) (dbs_init size dflt) flat = Ok (s', outs) /\ outs = snd (srun (dbs_spec size) (None, []) flat).
Proof.
  intros T size dflt H l. destruct (DoubleBufReentry.reentry_runs size dflt H l) as (s' & E & X & _). do 3 eexists. eauto.
Qed.
Print Assumptions C158_inner_calls_come_after.
(** So everything accepted is handed over once and in order, and never while the hardware is busy. *)
Theorem C158_exactly_once_in_order :
  forall (T : Type) (size : Z) (dflt : T), 0 <= size -> forall l : list (rop T),
    exists s' outs flat waiting, calls size l (dbs_init size dflt) = Ok (s', outs) /\ flat = snd (orders size l (None, [])) /\
      run (dbs_step size) (dbs_init size dflt) flat = Ok (s', outs) /\
      accepted flat outs = sent outs ++ waiting /\ zlen waiting <= size /\ never_busy false flat outs.
Proof. exact @DoubleBufReentry.reentry_exactly_once. Qed.
Print Assumptions C158_exactly_once_in_order.
(** Hardware that reports its end before its function returns: every word that fits a buffer is handed over at
    once. *)
Theorem C158_immediate_hardware :
  forall (T : Type) (size : Z) (dflt : T), 0 <= size -> forall ws : list (list T),
    exists s', calls size (map (fun w => RTransmit w [RDone []]) ws) (dbs_init size dflt) =
      Ok (s', concat (map (fun w => if zlen w <=? size then [(Some true, Some w); (None, None)] else [(Some false, None)]) ws)).
Proof. exact @DoubleBufReentry.at_once_all. Qed.
Print Assumptions C158_immediate_hardware.
(* the hardware function queues [3] and then reports the end of [1; 2]; when it is given [3] it reports the
   end of that too, and queues [4; 5], which is sent immediately *)
Example C158_hypotheses_met :
  let l := [RTransmit [1; 2] [RTransmit [3] []; RDone [RDone []; RTransmit [4; 5] []]]; RTransmit [6] []; RDone []] in
  exists s, calls 4 l (dbs_init 4 0) = Ok (s, [(Some true, Some [1; 2]); (Some true, None); (None, Some [3]); (None, None);
    (Some true, Some [4; 5]); (Some true, None); (None, Some [6])]) /\
  snd (orders 4 l (None, [])) = [DTransmit [1; 2] true; DTransmit [3] true; DDone true; DDone true; DTransmit [4; 5] true; DTransmit [6] true; DDone true].
Proof. eexists. split; vm_compute; reflexivity. Qed.
