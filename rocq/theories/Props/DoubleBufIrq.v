(* C135: DoubleBufferStream, transmit interrupted by the callback. *)
From Verif.Common Require Import Base.
From Verif.Spec Require Import StreamSpec.
From Verif.Model Require Import DoubleBuf DoubleBufIrq.
From Verif.Proofs Require DoubleBufIrq.

(** C135.  After any history [ops] with a transfer running and [pending] waiting, transmit of
    [a ++ b] is interrupted by the end of the transfer when [a] has been stored.  The callback hands over
    [pending ++ a], transmit reports success, and whatever follows, the elements handed over and the
    elements waiting are exactly those of later calls: [b] is not among them. *)
Theorem C135_interrupted_word_is_sent_refuted :
  forall (T : Type) (size : Z) (dflt : T), 0 <= size -> forall (ops : list (dop T)) (act pending a b : list T),
    Forall hw_accepts ops -> fst (srun (dbs_spec size) (None, []) ops) = (Some act, pending) -> pending ++ a <> [] -> zlen pending + zlen (a ++ b) <= size ->
    exists s outs s', run (dbs_step size) (dbs_init size dflt) ops = Ok (s, outs) /\
      interrupted size s a b true = Ok (s', (None, Some (pending ++ a)), (Some true, None)) /\
      forall later, Forall hw_accepts later ->
        exists s2 outs2 waiting, run (dbs_step size) s' later = Ok (s2, outs2) /\ accepted later outs2 = sent outs2 ++ waiting.
Proof. exact @DoubleBufIrq.lost. Qed.
Print Assumptions C135_interrupted_word_is_sent_refuted.
(** With nothing waiting, an interruption before the first element is stored is harmless: transmit starts the transfer of
    the whole word itself. *)
Theorem C135_interrupted_before_the_first_element :
  forall (T : Type) (size : Z) (dflt : T), 0 <= size -> forall (ops : list (dop T)) (act w : list T),
    Forall hw_accepts ops -> fst (srun (dbs_spec size) (None, []) ops) = (Some act, []) -> zlen w <= size ->
    exists s outs s', run (dbs_step size) (dbs_init size dflt) ops = Ok (s, outs) /\ interrupted size s [] w true = Ok (s', (None, None), (Some true, Some w)).
Proof. exact @DoubleBufIrq.safe_start. Qed.
Print Assumptions C135_interrupted_before_the_first_element.
(** An interruption after the last element is stored is like a callback after transmit: the same
    results now and for every later history. *)
Theorem C135_interrupted_after_the_last_element :
  forall (T : Type) (size : Z) (dflt : T), 0 <= size -> forall (ops : list (dop T)) (act pending w : list T),
    Forall hw_accepts ops -> fst (srun (dbs_spec size) (None, []) ops) = (Some act, pending) -> pending ++ w <> [] -> zlen pending + zlen w <= size ->
    exists s outs s', run (dbs_step size) (dbs_init size dflt) ops = Ok (s, outs) /\ interrupted size s w [] true = Ok (s', (None, Some (pending ++ w)), (Some true, None)) /\
      forall later, Forall hw_accepts later ->
        exists s1 s2 outs2, run (dbs_step size) (dbs_init size dflt) (ops ++ DTransmit w true :: DDone true :: later) = Ok (s1, outs ++ (Some true, None) :: (None, Some (pending ++ w)) :: outs2) /\
          run (dbs_step size) s' later = Ok (s2, outs2).
Proof. exact @DoubleBufIrq.safe_end. Qed.
Print Assumptions C135_interrupted_after_the_last_element.
(** A word that does not fit when transmit starts is refused, although the callback may have made room
    in between; nothing else happens but the callback. *)
Theorem C135_interrupted_refusal :
  forall (T : Type) (size : Z) (dflt : T), 0 <= size -> forall (ops : list (dop T)) (act pending a b : list T),
    Forall hw_accepts ops -> fst (srun (dbs_spec size) (None, []) ops) = (Some act, pending) -> size < zlen pending + zlen (a ++ b) ->
    exists s outs s' d, run (dbs_step size) (dbs_init size dflt) ops = Ok (s, outs) /\ run (dbs_step size) (dbs_init size dflt) (ops ++ [DDone true]) = Ok (s', outs ++ [d]) /\
      interrupted size s a b true = Ok (s', d, (Some false, None)).
Proof. exact @DoubleBufIrq.refused. Qed.
Print Assumptions C135_interrupted_refusal.
Example C135_hypotheses_met :
  let ops := [DTransmit [1; 2] true; DTransmit [3] true] in
  Forall hw_accepts ops /\ fst (srun (dbs_spec 8) (None, []) ops) = (Some [1; 2], [3]) /\ fst (srun (dbs_spec 8) (None, []) [DTransmit [1; 2] true]) = (Some [1; 2], []) /\
  exists s outs s', run (dbs_step 8) (dbs_init 8 0) ops = Ok (s, outs) /\ interrupted 8 s [4] [5; 6] true = Ok (s', (None, Some [3; 4]), (Some true, None)) /\
    (exists s2, run (dbs_step 8) s' [DDone true; DTransmit [7] true; DDone true; DTransmit [8; 9] true] = Ok (s2, [(None, None); (Some true, Some [7]); (None, None); (Some true, Some [8; 9])])) /\
    exists s3, interrupted 8 s [4; 5; 6; 7] [8; 9; 10; 11] true = Ok (s3, (None, Some [3]), (Some false, None)).
Proof.
  cbn zeta. split; [repeat constructor|]. split; [reflexivity|]. split; [reflexivity|]. do 3 eexists. split; [vm_compute; reflexivity|]. split; [vm_compute; reflexivity|]. split; eexists; vm_compute; reflexivity.
Qed.
