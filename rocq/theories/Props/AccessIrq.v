(* C156: a CircularBufferAccess read by one side of an interrupt and written by the other. *)
From Verif.Common Require Import Base.
From Verif.Spec Require Import IrqSpec AccessSpec AccessIrqSpec.
From Verif.Model Require Import CircularExt Irq AccessIrq.
From Verif.Proofs Require AccessIrq Uninterrupted.

(** C156.  The main program transfers a block (also with a check) and the handler uses the other
    position only (and clears if the main program reads), anywhere and any number of times.  Nothing is
    accessed out of bounds.  Everything is as if the main program had transferred its elements one by
    one at some moments between the handler's calls, and its position and flag are those of the call
    made alone. *)
Theorem C156_interrupted_block :
  forall {T} W (mix : T -> T -> T) zero (s : acc T) m gaps, acc_ok W s -> transfers m -> op_pos_ok (a_sz s) m ->
    (reading_side m /\ Forall (fun o => writing_side o /\ op_pos_ok (a_sz s) o) (concat gaps) \/
     writing_side m /\ Forall (fun o => reading_side o /\ op_pos_ok (a_sz s) o) (concat gaps)) ->
    exists s' r q own tr s0 r0, iexec (acc_step W mix zero) (a_main W mix zero m) s gaps = Ok (s', r, q) /\ acc_step W mix zero s m = Ok (s0, r0) /\ acc_ok W s' /\
      flag_of r = flag_of r0 /\ (reading_side m -> a_rd s' = a_rd s0) /\ (writing_side m -> a_wr s' = a_wr s0) /\
      map fst own = one_by_one m /\ data_of r = flat_map data_of (map snd own) /\
      length q = length (concat gaps) /\ merged own (combine (concat gaps) q) tr /\ run (acc_step W mix zero) s (map fst tr) = Ok (s', map snd tr).
Proof. exact @AccessIrq.interrupted_block. Qed.
Print Assumptions C156_interrupted_block.
(** A read is exactly what it would be without interrupts if the handler writes only to cells that are
    not among those read. *)
Theorem C156_read_apart :
  forall {T} W (mix : T -> T -> T) zero (s : acc T) n gaps, acc_ok W s -> 0 <= n -> Forall (fun o => exists d, o = AWrite d) (concat gaps) ->
    (forall i j, 0 <= i < n -> 0 <= j < total_written (concat gaps) -> (a_rd s + i) mod a_sz s <> (a_wr s + j) mod a_sz s) ->
    exists s' r q s0, iexec (acc_step W mix zero) (a_main W mix zero (ARead n)) s gaps = Ok (s', r, q) /\ acc_step W mix zero s (ARead n) = Ok (s0, r).
Proof. exact @AccessIrq.read_apart. Qed.
Print Assumptions C156_read_apart.
(** What does not hold.  During every write that reaches the end of the buffer there is a moment at
    which wr_pos is outside, and so for rd_pos during every such read. *)
Theorem C156_positions_inside_refuted :
  forall {T} W (mix : T -> T -> T) zero (s : acc T), acc_ok W s ->
    (forall data, a_sz s <= a_wr s + zlen data ->
      exists gaps s' r, concat gaps = [AGetWr] /\ iexec (acc_step W mix zero) (a_main W mix zero (AWrite data)) s gaps = Ok (s', r, [APos (a_sz s)])) /\
    (forall n, a_sz s <= a_rd s + n ->
      exists gaps s' r, concat gaps = [AGetRd] /\ iexec (acc_step W mix zero) (a_main W mix zero (ARead n)) s gaps = Ok (s', r, [APos (a_sz s)])).
Proof. intros T W mix zero s H. split; [intros data; exact (AccessIrq.wr_pos_outside W mix zero s data H)|intros n; exact (AccessIrq.rd_pos_outside W mix zero s n H)]. Qed.
Print Assumptions C156_positions_inside_refuted.
(** A handler that writes one element (or reads one) during such a write (or read) accesses outside the
    buffer. *)
Theorem C156_same_side_refuted :
  forall {T} W (mix : T -> T -> T) zero (s : acc T), acc_ok W s ->
    (forall data y, a_sz s <= a_wr s + zlen data ->
      exists gaps, concat gaps = [AWrite [y]] /\ iexec (acc_step W mix zero) (a_main W mix zero (AWrite data)) s gaps = UB OutOfBounds) /\
    (forall n, a_sz s <= a_rd s + n ->
      exists gaps, concat gaps = [ARead 1] /\ iexec (acc_step W mix zero) (a_main W mix zero (ARead n)) s gaps = UB OutOfBounds).
Proof. intros T W mix zero s H. split; [intros data y; exact (AccessIrq.two_writers W mix zero s data y H)|intros n; exact (AccessIrq.two_readers W mix zero s n H)]. Qed.
Print Assumptions C156_same_side_refuted.
(** The position is ahead of the data: during every write there is a moment at which wr_pos has passed
    the first element and reading it gives what was there before. *)
Theorem C156_before_position_is_written_refuted :
  forall {T} W (mix : T -> T -> T) zero (s : acc T) d ds old, acc_ok W s -> a_wr s + 1 < a_sz s -> znth (a_buf s) (a_wr s) = Some old ->
    exists gaps s' r, concat gaps = [AGetWr; ASetRd (a_wr s); ARead 1] /\
      iexec (acc_step W mix zero) (a_main W mix zero (AWrite (d :: ds))) s gaps = Ok (s', r, [APos (a_wr s + 1); ANone; AData [old] false]).
Proof. exact @AccessIrq.position_ahead. Qed.
Print Assumptions C156_before_position_is_written_refuted.
(** A buffer of four cells, the write position at 3. *)
(** A call that is not interrupted does what the call does. *)
Theorem C156_uninterrupted :
  forall (T : Type) W (mix : T -> T -> T) zero s o, 
    irun (acc_step W mix zero) (a_main W mix zero) s [Call o []] = let* (s', r) := acc_step W mix zero s o in Ok (s', [r], []).
Proof. exact @Uninterrupted.uninterrupted_access. Qed.
Print Assumptions C156_uninterrupted.
Example C156_hypotheses_met :
  let s := acc_init [1; 2; 3; 4] 3 in let st := acc_step 32 (fun d _ => d) 0 in let main := a_main 32 (fun d _ : Z => d) 0 in
  acc_ok 32 s /\
  iexec st (main (ARead 3)) s [[AWrite [7]]; []; [AWrite [8; 9]]; [AWrite [6]]] = Ok (CircularExt.Acc [8; 9; 6; 7] 4 3 3, AData [8; 9; 6] false, [AFlag true; AFlag false; AFlag false]) /\
  iexec st (main (AWrite [7; 8])) s [[]; []; []; []; [ARead 4]; [ARead 4]] = Ok (CircularExt.Acc [8; 2; 3; 7] 4 0 1, AFlag true, [AData [1; 2; 3; 4] true; AData [1; 2; 3; 7] true]) /\
  a_sz s <= a_wr s + zlen [7; 8] /\
  (forall i j, 0 <= i < 3 -> 0 <= j < total_written [AWrite [7]] -> (a_rd s + i) mod a_sz s <> (a_wr s + j) mod a_sz s) /\
  iexec st (main (ARead 3)) s [[]; [AWrite [7]]] = Ok (CircularExt.Acc [1; 2; 3; 7] 4 3 0, AData [1; 2; 3] false, [AFlag true]).
Proof.
  cbn zeta. split; [vm_compute; repeat split; congruence|]. split; [vm_compute; reflexivity|]. split; [vm_compute; reflexivity|]. split; [vm_compute; congruence|]. split; [|vm_compute; reflexivity].
  intros i j Hi Hj. change (total_written [AWrite [7]]) with 1 in Hj. change (a_rd _) with 0. change (a_wr _) with 3. change (a_sz _) with 4. replace j with 0 by lia.
  assert (i = 0 \/ i = 1 \/ i = 2) as [-> | [-> | ->]] by lia; vm_compute; congruence.
Qed.
