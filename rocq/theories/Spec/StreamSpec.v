(* Specification of a double-buffered transmitter: the data being sent and the
   data waiting. *)
From Verif.Common Require Import Base.

Section Stream.
Context {T : Type}.

(** [hw]: what the hardware function answers if it is called during this operation. *)
Inductive dop := DTransmit (word : list T) (hw : bool) | DDone (hw : bool).
(** Result of the call (None for void) and the buffer handed to the hardware, if any. *)
Definition dout : Type := option bool * option (list T).

(** State: data handed over and not yet done (if any), data waiting. *)
Definition dbs_spec (cap : Z) (s : option (list T) * list T) (o : dop) : (option (list T) * list T) * dout :=
  let '(active, pending) := s in
  match o with
  | DTransmit w _ =>
      match active with
      | None => if zlen w <=? cap then ((Some w, []), (Some true, Some w)) else (s, (Some false, None))
      | Some a => if zlen pending + zlen w <=? cap then ((Some a, pending ++ w), (Some true, None)) else (s, (Some false, None))
      end
  | DDone _ =>
      match active, pending with
      | None, _ => (s, (None, None))
      | Some _, [] => ((None, []), (None, None))
      | Some _, _ => ((Some pending, []), (None, Some pending))
      end
  end.

(** Everything accepted, everything handed to the hardware. *)
Fixpoint accepted (ops : list dop) (outs : list dout) : list T :=
  match ops, outs with
  | DTransmit w _ :: ops', (Some true, _) :: outs' => w ++ accepted ops' outs'
  | _ :: ops', _ :: outs' => accepted ops' outs'
  | _, _ => []
  end.
Fixpoint sent (outs : list dout) : list T :=
  match outs with
  | (_, Some b) :: outs' => b ++ sent outs'
  | _ :: outs' => sent outs'
  | [] => []
  end.

(** The hardware is never called while it is busy. *)
Fixpoint never_busy (busy : bool) (ops : list dop) (outs : list dout) : Prop :=
  match ops, outs with
  | DTransmit _ _ :: ops', (_, Some _) :: outs' => busy = false /\ never_busy true ops' outs'
  | DTransmit _ _ :: ops', (_, None) :: outs' => never_busy busy ops' outs'
  | DDone _ :: ops', (_, Some _) :: outs' => never_busy true ops' outs'
  | DDone _ :: ops', (_, None) :: outs' => never_busy false ops' outs'
  | _, _ => True
  end.

Definition hw_accepts (o : dop) : Prop :=
  match o with DTransmit _ hw | DDone hw => hw = true end.
Definition is_transmit (o : dop) : Prop := match o with DTransmit _ _ => True | DDone _ => False end.
End Stream.
Arguments dop : clear implicits.
Arguments dout : clear implicits.
