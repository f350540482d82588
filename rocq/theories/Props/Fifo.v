(* C01, C05, C06: LockFreeFifoSpsc / LockFreeFifoSpscDyn called sequentially. *)
From Verif.Common Require Import Base.
From Verif.Spec Require Import Queue Tape.
From Verif.Model Require Import Fifo FifoTape.
From Verif.Proofs Require Fifo FifoTape FifoWrap.

(** C01.  From any FIFO [s0] of capacity 2^k whose write and read positions have
    been set to the same value [h] (any W-bit value, so every distance to the
    counter wrap), every history of calls gives the outputs of a bounded queue. *)
Theorem C01_spsc_is_bounded_queue :
  forall (T : Type) (dflt : T) (W k h : Z) (s0 : fifo T) (ops : list (qop T)),
    0 <= k < W -> 0 <= h < 2 ^ W ->
    f_max s0 = 2 ^ k -> zlen (f_buf s0) = 2 ^ k -> resizes ops = [] ->
    exists s', run (fifo_step W dflt slot_static) (set_read_pos W (set_write_pos W s0 h) h) ops
               = Ok (s', queue_outputs dflt (2 ^ k) [] ops).
Proof. exact @Fifo.static_run_from. Qed.
Print Assumptions C01_spsc_is_bounded_queue.

(* Starting three puts before the 32-bit wrap, capacity 4: the hypotheses hold
   and the history crosses the wrap. *)
Example C01_hypotheses_met :
  let ops := [Put 1; Put 2; Get; Put 3; Put 4; Put 5; Put 6; NumFilled; Get; Get; Get; Get; Get] in
  (0 <= 2 < 32 /\ 0 <= 2 ^ 32 - 2 < 2 ^ 32 /\ f_max (fifo_init 0 4) = 2 ^ 2 /\
   zlen (f_buf (fifo_init 0 4)) = 2 ^ 2 /\ resizes ops = []) /\
  queue_outputs 0 4 [] ops =
    [RBool true; RBool true; ROpt (Some 1); RBool true; RBool true; RBool true; RBool false; RNum 4;
     ROpt (Some 2); ROpt (Some 3); ROpt (Some 4); ROpt (Some 5); ROpt None].
Proof. vm_compute; repeat split; congruence. Qed.

(** C01/C06.  The constructor with a head offset of [n] (n = 0: the default
    constructor) starts as a queue already holding [n] default items. *)
Theorem C06_spsc_head_offset_is_fixed_delay :
  forall (T : Type) (dflt : T) (W k n : Z) (ops : list (qop T)),
    0 <= k < W -> 0 <= n <= 2 ^ k -> resizes ops = [] ->
    exists s', run (fifo_step W dflt slot_static) (fifo_init_head dflt (2 ^ k) n) ops
               = Ok (s', queue_outputs dflt (2 ^ k) (zrepeat dflt n) ops).
Proof. exact @Fifo.static_run_head. Qed.
Print Assumptions C06_spsc_head_offset_is_fixed_delay.

Example C06_head_offset_hypotheses_met :
  (0 <= 2 < 32 /\ 0 <= 3 <= 2 ^ 2) /\
  queue_outputs 0 4 (zrepeat 0 3) [Put 7; Put 8; Get; Get; Get; Get] =
    [RBool true; RBool false; ROpt (Some 0); ROpt (Some 0); ROpt (Some 0); ROpt (Some 7)].
Proof. vm_compute; repeat split; congruence. Qed.

(** C05.  The dynamic FIFO, any capacity (0 included), any offset: a bounded queue
    as long as either the write counter never wraps or every capacity used
    divides 2^W.  [Resize] is part of the histories. *)
Theorem C05_dyn_is_bounded_queue :
  forall (T : Type) (dflt : T) (W cap n : Z) (ops : list (qop T)),
    0 <= W -> 0 <= cap < 2 ^ W -> 0 <= n <= cap ->
    Forall (fun m => 0 <= m < 2 ^ W) (resizes ops) ->
    ((cap | 2 ^ W) /\ Forall (fun m => (m | 2 ^ W)) (resizes ops) \/ n + count_puts ops <= 2 ^ W) ->
    exists s', run (fifo_step W dflt slot_dyn) (fifo_init_head dflt cap n) ops
               = Ok (s', queue_outputs dflt cap (zrepeat dflt n) ops).
Proof. exact @Fifo.dyn_run. Qed.
Print Assumptions C05_dyn_is_bounded_queue.

Example C05_hypotheses_met :
  let ops := [Put 1; Put 2; Put 3; Put 4; Get; Resize 5; NumFilled; Put 6; Get; Resize 0; Put 7] in
  0 <= 32 /\ 0 <= 3 < 2 ^ 32 /\ 0 <= 0 <= 3 /\
  Forall (fun m => 0 <= m < 2 ^ 32) (resizes (T := Z) ops) /\ 0 + count_puts ops <= 2 ^ 32 /\
  queue_outputs 0 3 (zrepeat 0 0) ops =
    [RBool true; RBool true; RBool true; RBool false; ROpt (Some 1); RUnit; RNum 0; RBool true;
     ROpt (Some 6); RUnit; RBool false].
Proof.
  split; [lia|]; split; [lia|]; split; [lia|].
  split; [repeat constructor; lia|]; split; [vm_compute; discriminate|vm_compute; reflexivity].
Qed.

(** C05, the violation: for every capacity that does not divide 2^W there is a
    history (crossing the counter wrap) on which the outputs are not those of a
    queue.  The hypothesis of the theorem above is therefore necessary. *)
Theorem C05_dyn_counter_wrap_refuted :
  forall (T : Type) (W cap : Z) (dflt a b : T),
    0 <= W -> 0 < cap < 2 ^ W -> ~ (cap | 2 ^ W) -> a <> b ->
    exists ops s' outs, resizes ops = [] /\
      run (fifo_step W dflt slot_dyn) (fifo_init dflt cap) ops = Ok (s', outs) /\
      outs <> queue_outputs dflt cap [] ops.
Proof. exact @FifoWrap.dyn_wrap_wrong. Qed.
Print Assumptions C05_dyn_counter_wrap_refuted.

Example C05_refuted_hypotheses_met : 0 < 3 < 2 ^ 32 /\ ~ (3 | 2 ^ 32) /\ 0 < 100 < 2 ^ 64 /\ ~ (100 | 2 ^ 64).
Proof.
  repeat split; try lia; intros [c Hc].
  - assert (H : 2 ^ 32 mod 3 = 0) by (rewrite Hc; apply Z.mod_mul; lia). vm_compute in H; discriminate.
  - assert (H : 2 ^ 64 mod 100 = 0) by (rewrite Hc; apply Z.mod_mul; lia). vm_compute in H; discriminate.
Qed.

(** C06.  Moving the reader: with moves no further back than the capacity, the
    FIFO behaves as a tape of the last 2^k items, for every history. *)
Theorem C06_spsc_set_read_offset_is_tape :
  forall (T : Type) (dflt : T) (W k n : Z) (ops : list (top T)),
    0 <= k < W -> 0 <= n <= 2 ^ k ->
    guarded (tape_step W) (move_ok W) (tape_start dflt (2 ^ k) n) ops ->
    exists s', run (tape_fifo_step W slot_static) (fifo_init_head dflt (2 ^ k) n) ops
               = Ok (s', snd (srun (tape_step W) (tape_start dflt (2 ^ k) n) ops)).
Proof. exact @FifoTape.static_tape_run. Qed.
Print Assumptions C06_spsc_set_read_offset_is_tape.

Theorem C06_dyn_set_read_offset_is_tape :
  forall (T : Type) (dflt : T) (W cap n : Z) (ops : list (top T)),
    0 <= W -> 0 < cap < 2 ^ W -> 0 <= n <= cap ->
    guarded (tape_step W) (move_ok W) (tape_start dflt cap n) ops ->
    n + tcount_puts ops <= 2 ^ W -> forallb (fun o => negb (is_set_read_pos o)) ops = true ->
    exists s', run (tape_fifo_step W slot_dyn) (fifo_init_head dflt cap n) ops
               = Ok (s', snd (srun (tape_step W) (tape_start dflt cap n) ops)).
Proof. exact @FifoTape.dyn_tape_run. Qed.
Print Assumptions C06_dyn_set_read_offset_is_tape.

(* Re-reading the last two of three items already read. *)
Example C06_tape_hypotheses_met :
  let ops := [TPut 1; TGet; TPut 2; TGet; TPut 3; TGet; TSetReadOffset 2; TNumFilled; TGet; TGet; TGet;
              TSetReadOffset 4; TNumFilled] in
  guarded (tape_step 32) (move_ok 32) (tape_start 0 (2 ^ 2) 0) ops /\
  snd (srun (tape_step 32) (tape_start 0 (2 ^ 2) 0) ops) =
    [TBool true; TOpt (Some 1); TBool true; TOpt (Some 2); TBool true; TOpt (Some 3); TUnit; TNum 2;
     TOpt (Some 2); TOpt (Some 3); TOpt None; TUnit; TNum 0].
Proof. vm_compute; repeat split; congruence. Qed.

(** C06, the violation: after any history, an offset larger than the capacity but not than the
    number of items written is accepted; the FIFO then reports that many items, more than it can
    hold, and put does not report full. *)
Theorem C06_offset_beyond_capacity_refuted :
  forall (T : Type) (W k : Z) (dflt x : T) (ops : list (top T)) s outs n,
    0 <= k < W -> run (tape_fifo_step W slot_static) (fifo_init dflt (2 ^ k)) ops = Ok (s, outs) ->
    2 ^ k < n <= puts_done outs -> puts_done outs < 2 ^ W ->
    exists s', run (tape_fifo_step W slot_static) s [TSetReadOffset n; TNumFilled; TPut x] = Ok (s', [TUnit; TNum n; TBool true]) /\
      max_size s' = 2 ^ k.
Proof. exact @FifoTape.offset_beyond. Qed.
Print Assumptions C06_offset_beyond_capacity_refuted.

Example C06_offset_beyond_hypotheses_met :
  exists s outs, run (tape_fifo_step 32 slot_static) (fifo_init 0 (2 ^ 1)) [TPut 1; TGet; TPut 2; TGet; TPut 3; TGet] = Ok (s, outs) /\
    2 ^ 1 < 3 <= puts_done outs /\ puts_done outs < 2 ^ 32.
Proof. do 2 eexists. split; [vm_compute; reflexivity|]. vm_compute; repeat split; congruence. Qed.
