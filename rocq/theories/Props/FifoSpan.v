(* C139: LockFreeFifoSpsc constructed from a block of elements. *)
From Verif.Common Require Import Base.
From Verif.Spec Require Import Queue.
From Verif.Model Require Import Fifo FifoSpan.
From Verif.Proofs Require FifoSpan.

(** C139, the violation.  Whatever the block, the FIFO starts empty: every history is one of a
    queue that holds nothing.  Elements are lists of [esz] bytes. *)
Theorem C139_constructed_from_block_is_empty_refuted :
  forall (W k esz : Z) (src : list (list Z)) (ops : list (qop (list Z))),
    0 <= k < W -> 1 <= esz -> zlen src = 2 ^ k -> Forall (fun e => zlen e = esz) src -> resizes ops = [] ->
    exists s0 s', fifo_init_from esz (2 ^ k) src = Ok s0 /\
      run (fifo_step W (zrepeat 0 esz) slot_static) s0 ops = Ok (s', queue_outputs (zrepeat 0 esz) (2 ^ k) [] ops).
Proof. exact FifoSpan.from_empty. Qed.
Print Assumptions C139_constructed_from_block_is_empty_refuted.

(** C139.  One-byte elements: once the write position is moved to the end of the block, the FIFO
    behaves as a full queue holding the block. *)
Theorem C139_one_byte_elements :
  forall (W k : Z) (src : list (list Z)) (ops : list (qop (list Z))),
    0 <= k < W -> zlen src = 2 ^ k -> Forall (fun e => zlen e = 1) src -> resizes ops = [] ->
    exists s0 s', fifo_init_from 1 (2 ^ k) src = Ok s0 /\
      run (fifo_step W [0] slot_static) (set_write_pos W s0 (2 ^ k)) ops = Ok (s', queue_outputs [0] (2 ^ k) src ops).
Proof. exact FifoSpan.from_bytes. Qed.
Print Assumptions C139_one_byte_elements.

(** C139, the violation.  For elements of [esz] bytes the queue then holds only the elements that
    lie in the first 2^k bytes of the block; the later ones read as zero. *)
Theorem C139_wide_elements_refuted :
  forall (W k esz : Z) (src : list (list Z)) (ops : list (qop (list Z))),
    0 <= k < W -> 1 <= esz -> zlen src = 2 ^ k -> Forall (fun e => zlen e = esz) src -> resizes ops = [] ->
    exists s0 l s', fifo_init_from esz (2 ^ k) src = Ok s0 /\
      run (fifo_step W (zrepeat 0 esz) slot_static) (set_write_pos W s0 (2 ^ k)) ops = Ok (s', queue_outputs (zrepeat 0 esz) (2 ^ k) l ops) /\
      zlen l = 2 ^ k /\ (forall i, 0 <= i -> (i + 1) * esz <= 2 ^ k -> znth l i = znth src i) /\
      (forall i, i < 2 ^ k <= i * esz -> znth l i = Some (zrepeat 0 esz)).
Proof. exact FifoSpan.from_prefilled. Qed.
Print Assumptions C139_wide_elements_refuted.

(* four 2-byte elements: only the first two are kept *)
Example C139_hypotheses_met :
  let src := [[1; 2]; [3; 4]; [5; 6]; [7; 8]] in
  0 <= 2 < 32 /\ zlen src = 2 ^ 2 /\ Forall (fun e => zlen e = 2) src /\
  match fifo_init_from 2 4 src with
  | Ok s0 => exists s', run (fifo_step 32 [0; 0] slot_static) (set_write_pos 32 s0 4) [Get; Get; Get; Get; Get] =
      Ok (s', [ROpt (Some [1; 2]); ROpt (Some [3; 4]); ROpt (Some [0; 0]); ROpt (Some [0; 0]); ROpt None])
  | _ => False
  end.
Proof.
  cbn zeta. split; [lia|]. split; [reflexivity|]. split; [repeat constructor|].
  exists (Fifo 4 4 4 [[1; 2]; [3; 4]; [0; 0]; [0; 0]]). vm_compute. reflexivity.
Qed.
