(* C07, C08, C09, C84, C85: CircularBuffer, CircularBufferOpt, CircularStack. *)
From Verif.Common Require Import Base.
From Verif.Spec Require Import RingSpec.
From Verif.Model Require Import Circular.
From Verif.Proofs Require Circular CircularBlock.

(** C07.  Capacity 2^k, size_t of W bits: every history whose peeks are in range gives
    the outputs of the queue that forgets its oldest item. *)
Theorem C07_circular_buffer_is_overwriting_queue :
  forall (T : Type) (W k : Z) (dflt : T), 0 <= k < W ->
  forall ops : list (rop T),
    guarded (ring_step dflt (2 ^ k)) peek_in_range [] ops ->
    exists s', run (cb_step W (2 ^ k) dflt) (cb_init (2 ^ k) dflt) ops
               = Ok (s', snd (srun (ring_step dflt (2 ^ k)) [] ops)).
Proof. exact @Circular.run_ok. Qed.
Print Assumptions C07_circular_buffer_is_overwriting_queue.

Example C07_hypotheses_met :
  let ops := [RPut 1; RPut 2; RPut 3; RPut 4; RPut 5; RCount; RPeek 0; RPeek 3; RGet; RRemoveFirst; RGetOpt; RGet; RGet; RGetOpt] in
  (0 <= 2 < 32 /\ guarded (ring_step 0 4) peek_in_range [] ops) /\
  snd (srun (ring_step 0 4) [] ops) =
   [OUnit; OUnit; OUnit; OUnit; OUnit; ONum 4; OItem 2; OItem 5; OItem 2; OUnit; OOpt (Some 4); OItem 5; OItem 0; OOpt None].
Proof. vm_compute; repeat split; congruence. Qed.

(** C08.  In any reachable buffer that is not full, set_head(h) with h below the capacity
    makes it a queue of the (h - tail) mod capacity slots that peek showed. *)
Theorem C08_set_head_gives_requested_delay :
  forall (T : Type) (W k : Z) (dflt : T), 0 <= k < W ->
  forall ops h s outs ops2,
    guarded (ring_step dflt (2 ^ k)) peek_in_range [] ops ->
    run (cb_step W (2 ^ k) dflt) (cb_init (2 ^ k) dflt) ops = Ok (s, outs) ->
    cb_full s = false -> 0 <= h < 2 ^ k ->
    let n := (h - cb_tail_idx s) mod 2 ^ k in
    exists items, zlen items = n /\
      (forall i, 0 <= i < n -> exists x, cb_peek W (2 ^ k) s i = Ok x /\ znth items i = Some x) /\
      (guarded (ring_step dflt (2 ^ k)) peek_in_range items ops2 ->
       exists s', run (cb_step W (2 ^ k) dflt) (cb_set_head W s h) ops2
                  = Ok (s', snd (srun (ring_step dflt (2 ^ k)) items ops2))).
Proof. exact @Circular.set_head_ok. Qed.
Print Assumptions C08_set_head_gives_requested_delay.

Example C08_hypotheses_met :
  (exists s outs, run (cb_step 32 4 0) (cb_init 4 0) [RPut 1; RGet] = Ok (s, outs) /\ cb_full s = false /\
    (0 - cb_tail_idx s) mod 4 = 3 /\
    exists s', run (cb_step 32 4 0) (cb_set_head 32 s 0) [RCount; RGet; RPut 9; RCount] = Ok (s', [ONum 3; OItem 0; OUnit; ONum 3])).
Proof.
  exists (CBuf [1; 0; 0; 0] 1 1 false), [OUnit; OItem 1]. split; [vm_compute; reflexivity|].
  split; [reflexivity|]. split; [reflexivity|]. exists (CBuf [9; 0; 0; 0] 1 2 false). vm_compute; reflexivity.
Qed.

(** C08.  A head at or beyond the capacity: the next put is out of bounds. *)
Theorem C08_set_head_out_of_range_refuted :
  forall (T : Type) (W k : Z) (dflt : T), 0 <= k < W ->
  forall ops h s outs x,
    guarded (ring_step dflt (2 ^ k)) peek_in_range [] ops ->
    run (cb_step W (2 ^ k) dflt) (cb_init (2 ^ k) dflt) ops = Ok (s, outs) ->
    2 ^ k <= h < 2 ^ W -> cb_put W (2 ^ k) (cb_set_head W s h) x = UB OutOfBounds.
Proof. exact @Circular.set_head_oob. Qed.
Print Assumptions C08_set_head_out_of_range_refuted.

Example C08_out_of_range_hypotheses_met :
  guarded (ring_step 0 4) peek_in_range [] [RPut 1] /\
  run (cb_step 32 4 0) (cb_init 4 0) [RPut 1] = Ok (CBuf [1; 0; 0; 0] 1 0 false, [OUnit]) /\ 4 <= 4 < 2 ^ 32.
Proof. vm_compute; repeat split; congruence. Qed.

(** C08.  Why "not full" is needed: on a full buffer set_head leaves count() at the capacity, and
    the next get leaves the number of items the positions tell, one less than the capacity only
    if the head was not moved at all. *)
Theorem C08_set_head_on_full_buffer_refuted :
  forall (T : Type) (W k : Z) (dflt : T), 0 <= k < W ->
  forall ops h s outs,
    guarded (ring_step dflt (2 ^ k)) peek_in_range [] ops ->
    run (cb_step W (2 ^ k) dflt) (cb_init (2 ^ k) dflt) ops = Ok (s, outs) ->
    cb_full s = true -> 0 <= h < 2 ^ k ->
    exists s' x n, run (cb_step W (2 ^ k) dflt) (cb_set_head W s h) [RCount; RGet; RCount] = Ok (s', [ONum (2 ^ k); OItem x; ONum n]) /\
      n = (h - cb_tail_idx s - 1) mod 2 ^ k /\ (n = 2 ^ k - 1 <-> h = cb_head_idx s).
Proof. exact @Circular.set_head_full_wrong'. Qed.
Print Assumptions C08_set_head_on_full_buffer_refuted.

Example C08_full_hypotheses_met :
  exists s outs, run (cb_step 32 4 0) (cb_init 4 0) [RPut 1; RPut 2; RPut 3; RPut 4] = Ok (s, outs) /\ cb_full s = true /\
    run (cb_step 32 4 0) (cb_set_head 32 s 1) [RCount; RGet; RCount] =
      Ok (CBuf [1; 2; 3; 4] 1 1 false, [ONum 4; OItem 1; ONum 0]).
Proof. exists (CBuf [1; 2; 3; 4] 0 0 true), [OUnit; OUnit; OUnit; OUnit]. vm_compute. auto. Qed.

(** C09.  Any positive MaxElements (not only powers of two), any initial garbage in the array. *)
Theorem C09_circular_stack_is_bounded_stack :
  forall (T : Type) (cap : Z) (dflt : T), 0 < cap ->
  forall (data : list T) (ops : list (sop T)), zlen data = cap ->
    exists s', run (st_step cap dflt) (st_init data) ops = Ok (s', snd (srun (stack_step dflt cap) [] ops)).
Proof. exact @Circular.stack_run. Qed.
Print Assumptions C09_circular_stack_is_bounded_stack.

Example C09_hypotheses_met :
  let ops := [SPush 1; SPush 2; SPush 3; SPush 4; SSize; SBack; SPop; SPop; SPop; SPop; SPopOrZero; SEmpty] in
  zlen [7; 7; 7] = 3 /\
  snd (srun (stack_step 0 3) [] ops) =
   [OUnit; OUnit; OUnit; OUnit; ONum 3; OOpt (Some 4); OOpt (Some 4); OOpt (Some 3); OOpt (Some 2); OOpt None; OItem 0; OBool true].
Proof. vm_compute; split; reflexivity. Qed.

(** C85.  A stack constructed from elements answers every history as an EMPTY stack would. *)
Theorem C85_constructor_elements_refuted :
  forall (T : Type) (cap : Z) (dflt : T), 0 < cap ->
  forall (ts : list T) (ops : list (sop T)), zlen ts <= cap ->
    exists s', run (st_step cap dflt) (st_init_from cap dflt ts) ops = Ok (s', snd (srun (stack_step dflt cap) [] ops)).
Proof. exact @Circular.stack_from. Qed.
Print Assumptions C85_constructor_elements_refuted.

Example C85_hypotheses_met :
  zlen [5; 6] <= 4 /\ snd (srun (stack_step 0 4) [] [SSize; SPop]) = [ONum 0; OOpt None].
Proof. vm_compute; split; congruence. Qed.

(** C84.  CircularBufferOpt::fill_buffer(val) with elements of two or more bytes: only the
    first [cap] bytes of the esz*cap bytes are set, each to the low byte of val; the last
    byte of the last element keeps its old value. *)
Theorem C84_opt_fill_buffer_value_refuted :
  forall esz cap bytes val old,
    2 <= esz -> 0 < cap -> zlen bytes = esz * cap -> znth bytes (esz * cap - 1) = Some old ->
    exists b', cbo_fill_bytes cap bytes val = Ok b' /\ znth b' (esz * cap - 1) = Some old /\
      (forall j, 0 <= j < cap -> znth b' j = Some (val mod 256)) /\
      (forall j, cap <= j -> znth b' j = znth bytes j).
Proof. exact CircularBlock.opt_fill_wrong. Qed.
Print Assumptions C84_opt_fill_buffer_value_refuted.

(** C84.  For one-byte elements it fills the buffer with the value. *)
Theorem C84_opt_fill_buffer_bytes :
  forall cap bytes val, 0 <= cap -> zlen bytes = cap -> 0 <= val < 256 ->
    cbo_fill_bytes cap bytes val = Ok (zrepeat val cap).
Proof. exact CircularBlock.opt_fill_byte. Qed.
Print Assumptions C84_opt_fill_buffer_bytes.

(** C84.  fill_buffer(array) likewise copies only the first [cap] bytes. *)
Theorem C84_opt_fill_buffer_array_refuted :
  forall esz cap bytes src old,
    2 <= esz -> 0 < cap -> zlen bytes = esz * cap -> zlen src = esz * cap -> znth bytes (esz * cap - 1) = Some old ->
    exists b', cbo_copy_bytes cap bytes src = Ok b' /\ znth b' (esz * cap - 1) = Some old /\
      (forall j, 0 <= j < cap -> znth b' j = znth src j) /\
      (forall j, cap <= j -> znth b' j = znth bytes j).
Proof. exact CircularBlock.opt_copy_wrong. Qed.
Print Assumptions C84_opt_fill_buffer_array_refuted.

(* two 16-bit elements 0x0000 filled with 0x0001: bytes 1 1 0 0, i.e. elements 0x0101 and 0 *)
Example C84_hypotheses_met :
  zlen [0; 0; 0; 0] = 2 * 2 /\ znth [0; 0; 0; 0] (2 * 2 - 1) = Some 0 /\ cbo_fill_bytes 2 [0; 0; 0; 0] 1 = Ok [1; 1; 0; 0].
Proof. vm_compute; repeat split. Qed.
