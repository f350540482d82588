(* C03: the hand-off of items under the C++ release/acquire rules. *)
From Verif.Common Require Import Base.
From Verif.Spec Require Import FifoLog.
From Verif.Model Require Import Fifo FifoWeak.
From Verif.Proofs Require FifoWeak.

(** C03, the violation.  With the memory orders written in the source, for every
    capacity 2^k and counter width W, one put followed by one get that observes
    it already has an execution in which the consumer's buffer read is a data race. *)
Theorem C03_relaxed_head_load_refuted :
  forall W k, 0 <= k < W ->
  exists sched : list (waction Z),
    wrun W (2 ^ k) slot_static code_orders (winit (2 ^ k) 0 (zrepeat 0 (2 ^ k))) sched = UB DataRace.
Proof. intros W k Hk. exact (ex_intro _ _ (FifoWeak.code_get_races W k Hk)). Qed.
Print Assumptions C03_relaxed_head_load_refuted.

Example C03_refuted_hypotheses_met : 0 <= 5 < 32.
Proof. lia. Qed.

(** C03.  With the get loads of head_ made acquire and the store in reset made
    release, every execution (any choice of visible messages at every load, any
    interleaving, any calls of put / get / get_move / remove_first / reset by
    the consumer) is free of data races and of out-of-bounds accesses, and the
    successful operations form a legal history of a bounded FIFO queue: every
    get returns the oldest unread item put. *)
Theorem C03_acquire_makes_static_fifo_race_free :
  forall (T : Type) (W k h : Z) (buf : list T) (sched : list (waction T)),
    0 <= k < W -> 0 <= h < 2 ^ W -> zlen buf = 2 ^ k ->
    exists s' log, wrun W (2 ^ k) slot_static fixed_orders (winit (2 ^ k) h buf) sched = Ok (s', log) /\
                   replay (2 ^ k) [] log.
Proof. exact @FifoWeak.static_race_free. Qed.
Print Assumptions C03_acquire_makes_static_fifo_race_free.

Theorem C03_acquire_makes_dyn_fifo_race_free :
  forall (T : Type) (W cap h : Z) (buf : list T) (sched : list (waction T)),
    0 < cap < 2 ^ W -> 0 <= h < 2 ^ W -> zlen buf = cap ->
    ((cap | 2 ^ W) \/ h + begun_puts sched <= 2 ^ W) ->
    exists s' log, wrun W cap slot_dyn fixed_orders (winit cap h buf) sched = Ok (s', log) /\
                   replay cap [] log.
Proof. exact @FifoWeak.dyn_race_free. Qed.
Print Assumptions C03_acquire_makes_dyn_fifo_race_free.

(* The same schedule that races in the source hands over 5 and then 6 here, across the counter wrap. *)
Example C03_hypotheses_met :
  let sched := [PBegin 5; PStep 0; PStep 0; PStep 0; PStep 0; CGet; CStep 0 None; CStep 1 None; PBegin 6;
                CStep 0 (Some 9); PStep 1; PStep 0; PStep 0; CStep 0 None; PStep 0;
                CGet; CStep 1 None; CStep 2 None; CStep 0 None; CStep 0 None] in
  (0 <= 1 < 32 /\ 0 <= 2 ^ 32 - 1 < 2 ^ 32 /\ zlen [0; 0] = 2 ^ 1) /\
  match wrun 32 (2 ^ 1) slot_static fixed_orders (winit (2 ^ 1) (2 ^ 32 - 1) [0; 0]) sched with
  | Ok (_, log) => log = [EffPut 5; EffGot 5; EffPut 6; EffGot 6]
  | _ => False
  end /\
  (0 < 3 < 2 ^ 32 /\ 7 + begun_puts sched <= 2 ^ 32).
Proof. split; [repeat split; lia|]. split; [vm_compute; reflexivity|]. split; [lia|vm_compute; discriminate]. Qed.

(** C03.  None of the five orders of the corrected version can be dropped: weakening
    any single one to relaxed admits a racy execution (with the release in reset
    missing, as in the source, a reset following a get is already racy). *)
Theorem C03_each_order_is_needed :
  forall ord : orders,
    In ord [Orders false true true true true; Orders true false true true true; Orders true true false true true;
            Orders true true true false true; Orders true true true true false] ->
    exists sched : list (waction Z), wrun 32 1 slot_static ord (winit 1 0 [0]) sched = UB DataRace.
Proof. exact FifoWeak.weakenings_race. Qed.
Print Assumptions C03_each_order_is_needed.

Example C03_each_order_hypotheses_met :
  In (Orders true true true true false)
     [Orders false true true true true; Orders true false true true true; Orders true true false true true;
      Orders true true true false true; Orders true true true true false].
Proof. cbn; auto 10. Qed.
