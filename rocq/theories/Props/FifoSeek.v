(* C160: set_read_offset while the producer puts. *)
From Verif.Common Require Import Base.
From Verif.Spec Require Import Queue Linearizable SeekSpec.
From Verif.Model Require Import Fifo FifoConc FifoSeek.
From Verif.Proofs Require FifoSeek.

(** C160.  The consumer of a LockFreeFifoSpsc calls set_read_offset(k) only with k not above what
    num_filled() returns then.  Under every schedule the history is that of one bounded queue: a call
    drops all items present at one moment of it but the last k, or does nothing; this only if the
    producer's counter has wrapped.  The threads never access the same slot. *)
Theorem C160_spsc_seek_forward :
  forall (T : Type) (dflt : T) (W k h : Z) (buf : list T) (sched : list (kaction T)),
    0 <= k < W -> 0 <= h < 2 ^ W -> zlen buf = 2 ^ k ->
    forallb kaction_ok sched = true -> forward W dflt slot_static (kinit (2 ^ k) h buf) sched ->
    exists s' hist,
      krun W dflt slot_static (kinit (2 ^ k) h buf) sched = Ok (s', hist) /\
      seek_linearizable dflt (2 ^ W <=? h + kputs sched) (Queue (2 ^ k) []) hist /\
      (forall i j, slot_access slot_static Prod (k_c s') = Some (Ok i) ->
                   slot_access slot_static Cons (k_c s') = Some (Ok j) -> i <> j).
Proof. exact @FifoSeek.static_seek. Qed.
Print Assumptions C160_spsc_seek_forward.
Theorem C160_dyn_seek_forward :
  forall (T : Type) (dflt : T) (W cap h : Z) (buf : list T) (sched : list (kaction T)),
    0 <= W -> 0 < cap < 2 ^ W -> 0 <= h < 2 ^ W -> zlen buf = cap ->
    ((cap | 2 ^ W) \/ h + kputs sched < 2 ^ W) ->
    forallb kaction_ok sched = true -> forward W dflt slot_dyn (kinit cap h buf) sched ->
    exists s' hist,
      krun W dflt slot_dyn (kinit cap h buf) sched = Ok (s', hist) /\
      seek_linearizable dflt (2 ^ W <=? h + kputs sched) (Queue cap []) hist /\
      (forall i j, slot_access slot_dyn Prod (k_c s') = Some (Ok i) ->
                   slot_access slot_dyn Cons (k_c s') = Some (Ok j) -> i <> j).
Proof. exact @FifoSeek.dyn_seek. Qed.
Print Assumptions C160_dyn_seek_forward.
(** Moving back, as the comment on set_read_offset allows: for every capacity, a put during the call
    makes num_filled() exceed the capacity and further puts overwrite; and a put begun before the call
    writes the slot that the next get reads. *)
Theorem C160_spsc_seek_back_refuted :
  forall (T : Type) (dflt : T) (W k h : Z) (buf : list T) (x y : T),
    0 <= k < W -> 2 ^ k <= h -> h + 2 < 2 ^ W -> zlen buf = 2 ^ k ->
    (exists sched s', krun W dflt slot_static (kinit (2 ^ k) h buf) sched =
       Ok (s', [SeekCall (2 ^ k); Q (EInv Prod (Put x)); Q (ERes Prod (RBool true)); SeekDone;
                Q (EInv Cons NumFilled); Q (ERes Cons (RNum (2 ^ k + 1))); Q (EInv Prod (Put y)); Q (ERes Prod (RBool true))])) /\
    (exists sched s' hist, krun W dflt slot_static (kinit (2 ^ k) h buf) sched = Ok (s', hist) /\
       filter (by_thread Prod) hist = [Q (EInv Prod (Put x))] /\
       filter (by_thread Cons) hist = [SeekCall (2 ^ k); SeekDone; Q (EInv Cons Get)] /\
       slot_access slot_static Prod (k_c s') = Some (Ok (h mod 2 ^ k)) /\
       slot_access slot_static Cons (k_c s') = Some (Ok (h mod 2 ^ k))).
Proof. exact @FifoSeek.seek_back. Qed.
Print Assumptions C160_spsc_seek_back_refuted.
Theorem C160_dyn_seek_back_refuted :
  forall (T : Type) (dflt : T) (W cap h : Z) (buf : list T) (x y : T),
    0 <= W -> 0 < cap <= h -> h + 2 < 2 ^ W -> zlen buf = cap ->
    (exists sched s', krun W dflt slot_dyn (kinit cap h buf) sched =
       Ok (s', [SeekCall cap; Q (EInv Prod (Put x)); Q (ERes Prod (RBool true)); SeekDone;
                Q (EInv Cons NumFilled); Q (ERes Cons (RNum (cap + 1))); Q (EInv Prod (Put y)); Q (ERes Prod (RBool true))])) /\
    (exists sched s' hist, krun W dflt slot_dyn (kinit cap h buf) sched = Ok (s', hist) /\
       filter (by_thread Prod) hist = [Q (EInv Prod (Put x))] /\
       filter (by_thread Cons) hist = [SeekCall cap; SeekDone; Q (EInv Cons Get)] /\
       slot_access slot_dyn Prod (k_c s') = Some (Ok (h mod cap)) /\
       slot_access slot_dyn Cons (k_c s') = Some (Ok (h mod cap))).
Proof. exact @FifoSeek.seek_back_dyn. Qed.
Print Assumptions C160_dyn_seek_back_refuted.
(** Once the head counter has wrapped, set_read_offset(2) with three items filled does nothing, for every
    capacity from four up: the items it should drop are still there. *)
Theorem C160_seek_after_wrap_refuted :
  forall (T : Type) (dflt : T) (W k : Z) (buf : list T) (x y z : T),
    2 <= k < W -> zlen buf = 2 ^ k ->
    exists sched s' puts,
      krun W dflt slot_static (kinit (2 ^ k) (2 ^ W - 2) buf) sched =
        Ok (s', puts ++ [SeekCall 2; SeekDone; Q (EInv Cons NumFilled); Q (ERes Cons (RNum 3))]) /\
      puts = flat_map (fun v => [Q (EInv Prod (Put v)); Q (ERes Prod (RBool true))]) [x; y; z].
Proof. exact @FifoSeek.seek_wrapped. Qed.
Print Assumptions C160_seek_after_wrap_refuted.
(* Four puts; set_read_offset(1) while a fifth is under way: two items are left, one put during the call. *)
Example C160_hypotheses_met :
  let put x := Do (Invoke Prod (Put x)) :: repeat (Do (Step Prod)) 5 in
  let sched := put 1 ++ put 2 ++ put 3 ++ [Seek 1; KStep; Do (Invoke Prod (Put 4)); Do (Step Prod); Do (Step Prod); Do (Step Prod); Do (Step Prod);
                 KStep; Do (Step Prod); KStep; Do (Invoke Cons NumFilled); Do (Step Cons); Do (Step Cons); Do (Step Cons);
                 Do (Invoke Cons Get); Do (Step Cons); Do (Step Cons); Do (Step Cons); Do (Step Cons); Do (Step Cons)] in
  forallb kaction_ok sched = true /\ forward 8 0 slot_static (kinit (2 ^ 2) 7 [0; 0; 0; 0]) sched /\
  (2 ^ 8 <=? 7 + kputs sched) = false /\
  exists s' hist, krun 8 0 slot_static (kinit (2 ^ 2) 7 [0; 0; 0; 0]) sched = Ok (s', hist) /\
    filter (by_thread Cons) hist = [SeekCall 1; SeekDone; Q (EInv Cons NumFilled); Q (ERes Cons (RNum 2));
                                    Q (EInv Cons Get); Q (ERes Cons (ROpt (Some 3)))].
Proof.
  cbv zeta. split; [reflexivity|]. split.
  { vm_compute. repeat split; intros; discriminate. }
  split; [reflexivity|]. eexists _, _. split; [vm_compute; reflexivity|reflexivity].
Qed.
