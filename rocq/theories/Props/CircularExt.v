(* C10, C11, C12: CircularBufferAccess and CircularBufferBlock. *)
From Verif.Common Require Import Base Lists.
From Verif.Model Require Import CircularExt.
From Verif.Spec Require Import AccessSpec AccessRunSpec.
From Verif.Proofs Require CircularExt CircularBlock AccessRun.

(** C10.  read: n consecutive elements, position advanced modulo the size, nothing else changed,
    and the result says whether the position wrapped. *)
Theorem C10_read :
  forall (T : Type) (W : Z) (s : acc T) (n : Z), acc_ok W s -> 0 <= n ->
    exists ds, acc_read W s n = Ok (Acc (a_buf s) (a_sz s) ((a_rd s + n) mod a_sz s) (a_wr s), ds, a_sz s <=? a_rd s + n) /\
      map Some ds = ztab n (fun i => znth (a_buf s) ((a_rd s + i) mod a_sz s)).
Proof. exact @CircularExt.read_ok. Qed.
Print Assumptions C10_read.

Theorem C10_read_reverse :
  forall (T : Type) (W : Z) (s : acc T) (n : Z), acc_ok W s -> 0 <= n ->
    exists ds, acc_read_reverse W s n = Ok (Acc (a_buf s) (a_sz s) ((a_rd s - n) mod a_sz s) (a_wr s), ds, a_rd s - n <? 0) /\
      map Some ds = ztab n (fun i => znth (a_buf s) ((a_rd s - i) mod a_sz s)).
Proof. exact @CircularExt.read_reverse_ok. Qed.
Print Assumptions C10_read_reverse.

(** C10.  write and write_reverse, for any crossfade function. *)
Theorem C10_write :
  forall (T : Type) (W : Z) (mix : T -> T -> T) (s : acc T) (data : list T), acc_ok W s ->
    exists s', acc_write W mix s data = Ok (s', a_sz s <=? a_wr s + zlen data) /\ writes_block mix 1 s s' data.
Proof. exact @CircularExt.write_ok. Qed.
Print Assumptions C10_write.

Theorem C10_write_reverse :
  forall (T : Type) (W : Z) (mix : T -> T -> T) (s : acc T) (data : list T), acc_ok W s ->
    exists s', acc_write_reverse W mix s data = Ok (s', a_wr s - zlen data <? 0) /\ writes_block mix (-1) s s' data.
Proof. exact @CircularExt.write_reverse_ok. Qed.
Print Assumptions C10_write_reverse.

Theorem C10_clear :
  forall (T : Type) (W : Z) (zero : T) (s : acc T), acc_ok W s ->
    exists s', acc_clear zero s = Ok s' /\ a_buf s' = zrepeat zero (a_sz s) /\ a_sz s' = a_sz s /\ a_rd s' = a_rd s /\ a_wr s' = a_wr s.
Proof. exact @CircularExt.clear_ok. Qed.
Print Assumptions C10_clear.

(** C10.  Every history keeps both positions inside and never accesses out of bounds. *)
Theorem C10_positions_stay_inside_forever :
  forall (T : Type) (W : Z) (mix : T -> T -> T) (zero : T) (ops : list (aop T)) (s : acc T),
    acc_ok W s -> Forall (op_pos_ok (a_sz s)) ops ->
    exists s' outs, run (acc_step W mix zero) s ops = Ok (s', outs) /\ acc_ok W s' /\ a_sz s' = a_sz s.
Proof. exact @CircularExt.history_safe. Qed.
Print Assumptions C10_positions_stay_inside_forever.

(** C10.  In every history each call, including the checks and the position setters and getters, does
    exactly what it should to the data, to the result and to both positions. *)
Theorem C10_every_history :
  forall (T : Type) (W : Z) (mix : T -> T -> T) (zero : T) (ops : list (aop T)) (s : acc T),
    acc_ok W s -> Forall (op_pos_ok (a_sz s)) ops ->
    exists s' outs, run (acc_step W mix zero) s ops = Ok (s', outs) /\ rel_run (acc_rel mix zero) s ops outs s'.
Proof. exact @AccessRun.every_history. Qed.
Print Assumptions C10_every_history.

(** C10.  A constructor offset (or wr_pos) outside the buffer: the first write is out of bounds. *)
Theorem C10_offset_outside_refuted :
  forall (T : Type) (W : Z) (mix : T -> T -> T) (s : acc T) (d : T) (ds : list T),
    a_sz s = zlen (a_buf s) -> a_sz s <= a_wr s -> acc_write W mix s (d :: ds) = UB OutOfBounds.
Proof. exact @CircularExt.bad_position. Qed.
Print Assumptions C10_offset_outside_refuted.

Example C10_hypotheses_met :
  acc_ok 32 (acc_init [1; 2; 3] 2) /\ Forall (op_pos_ok 3) [AWrite [7; 8]; ARead 4; AReadRev 2; ASetWr 1] /\
  run (acc_step 32 (fun d _ => d) 0) (acc_init [1; 2; 3] 2) [AWrite [7; 8]; ARead 4; AReadRev 2; AGetRd] =
    Ok (Acc [8; 2; 7] 3 2 1, [AFlag true; AData [8; 2; 7; 8] true; AData [2; 8] true; APos 2]).
Proof. split; [vm_compute; repeat split; congruence|]. split; [|vm_compute; reflexivity]. repeat constructor; cbn; lia. Qed.

(** C11.  The crossing detectors. *)
Theorem C11_read_check_crossed :
  forall (T : Type) (W : Z) (s : acc T) (n m : Z), acc_ok W s -> 0 <= n <= a_sz s -> 0 <= m < a_sz s ->
    exists s' ds b, acc_read_check W s n m = Ok (s', ds, b) /\
      (b = true <-> exists i, 0 <= i < n /\ (a_rd s + i) mod a_sz s = m).
Proof. exact @CircularExt.read_check_ok. Qed.
Print Assumptions C11_read_check_crossed.

Theorem C11_read_reverse_check_crossed :
  forall (T : Type) (W : Z) (s : acc T) (n m : Z), acc_ok W s -> 0 <= n <= a_sz s -> 0 <= m < a_sz s ->
    exists s' ds b, acc_read_reverse_check W s n m = Ok (s', ds, b) /\
      (b = true <-> exists i, 0 <= i < n /\ (a_rd s - i) mod a_sz s = (m + 1) mod a_sz s).
Proof. exact @CircularExt.read_reverse_check_ok. Qed.
Print Assumptions C11_read_reverse_check_crossed.

Theorem C11_write_check_crossed :
  forall (T : Type) (W : Z) (mix : T -> T -> T) (s : acc T) (data : list T) (m : Z),
    acc_ok W s -> zlen data <= a_sz s -> 0 <= m <= a_sz s ->
    exists s' b, acc_write_check W mix s data m = Ok (s', b) /\
      (b = true <-> exists i, 0 <= i < zlen data /\ (a_wr s + i) mod a_sz s = (m - 1) mod a_sz s).
Proof. exact @CircularExt.write_check_ok. Qed.
Print Assumptions C11_write_check_crossed.

Example C11_hypotheses_met :
  let s := Acc [1; 2; 3; 4] 4 3 2 in acc_ok 32 s /\
  acc_read_check 32 s 2 0 = Ok (Acc [1; 2; 3; 4] 4 1 2, [4; 1], true) /\
  acc_read_check 32 s 2 1 = Ok (Acc [1; 2; 3; 4] 4 1 2, [4; 1], false).
Proof. vm_compute; repeat split; congruence. Qed.

(** C12.  One-byte elements: the cyclic copy. *)
Theorem C12_block_write_copies_bytes_cyclically :
  forall k data block pos,
    0 <= k <= 32 -> zlen data = 2 ^ k -> zlen block <= 2 ^ k ->
    exists data', block_write 1 (2 ^ k) data block (zlen block) pos = Ok data' /\ zlen data' = 2 ^ k /\
      (forall i, 0 <= i < zlen block -> znth data' ((pos + i) mod 2 ^ k) = znth block i) /\
      (forall j, 0 <= j < 2 ^ k -> (forall i, 0 <= i < zlen block -> (pos + i) mod 2 ^ k <> j) -> znth data' j = znth data j).
Proof. exact CircularBlock.block_write_bytes. Qed.
Print Assumptions C12_block_write_copies_bytes_cyclically.

(** C12.  Elements of [esz] >= 2 bytes: of a non-wrapping block of [blen] elements only
    [blen] bytes are copied; in particular the last byte of the last element is not. *)
Theorem C12_wide_elements_refuted :
  forall k esz data block blen pos old new,
    0 <= k <= 32 -> 2 <= esz -> zlen data = esz * 2 ^ k -> zlen block = esz * blen -> 0 < blen ->
    pos mod 2 ^ k + blen <= 2 ^ k ->
    znth data (esz * (pos mod 2 ^ k + blen) - 1) = Some old ->
    znth block (esz * blen - 1) = Some new ->
    exists data', block_write esz (2 ^ k) data block blen pos = Ok data' /\
      znth data' (esz * (pos mod 2 ^ k + blen) - 1) = Some old /\
      (forall j, j < esz * (pos mod 2 ^ k) \/ esz * (pos mod 2 ^ k) + blen <= j -> znth data' j = znth data j).
Proof. exact CircularBlock.block_write_wide. Qed.
Print Assumptions C12_wide_elements_refuted.

Example C12_hypotheses_met :
  block_write 1 4 [0; 0; 0; 0] [1; 2; 3] 3 7 = Ok [2; 3; 0; 1] /\
  block_write 2 4 [0; 0; 0; 0; 0; 0; 0; 0] [1; 2; 3; 4] 2 1 = Ok [0; 0; 1; 2; 0; 0; 0; 0] /\
  znth [0; 0; 0; 0; 0; 0; 0; 0] (2 * (1 mod 2 ^ 2 + 2) - 1) = Some 0 /\ znth [1; 2; 3; 4] (2 * 2 - 1) = Some 4.
Proof. vm_compute; repeat split. Qed.
