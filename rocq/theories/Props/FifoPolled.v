(* C141: a consumer that asks num_filled() first is safe with the memory orders of the source. *)
From Verif.Common Require Import Base.
From Verif.Spec Require Import FifoLog PolledLog.
From Verif.Model Require Import Fifo FifoWeak FifoPolled.
From Verif.Proofs Require FifoPolled.

(** C141.  A consumer that takes at most as many items as its last num_filled()
    reported (get and get_move; remove_first at any time), against a producer
    that calls put at any time: with the memory orders as written, in every
    execution (any interleaving, any choice of visible messages at every load)
    there is no data race and no out-of-bounds access, a count never announces
    more than is there, every get of an announced item succeeds and returns the
    oldest item, and puts never exceed the capacity. *)
Theorem C141_polled_consumer_is_race_free :
  forall (T : Type) (W k h : Z) (buf : list T) (l : list (paction T)),
    0 <= k < W -> 0 <= h < 2 ^ W -> zlen buf = 2 ^ k ->
    exists s' log, polled_run W (2 ^ k) slot_static code_orders 0 (polled_init (2 ^ k) h buf) l = Ok (s', log) /\
                   polled_legal (2 ^ k) [] log.
Proof. exact @FifoPolled.polled_static. Qed.
Print Assumptions C141_polled_consumer_is_race_free.

(** The same for the variant whose capacity is given at construction, with any
    capacity, as long as the counters do not wrap or the capacity divides 2^W. *)
Theorem C141_polled_dyn_consumer_is_race_free :
  forall (T : Type) (W cap h : Z) (buf : list T) (l : list (paction T)),
    0 < cap < 2 ^ W -> 0 <= h < 2 ^ W -> zlen buf = cap ->
    ((cap | 2 ^ W) \/ h + polled_puts l <= 2 ^ W) ->
    exists s' log, polled_run W cap slot_dyn code_orders 0 (polled_init cap h buf) l = Ok (s', log) /\
                   polled_legal cap [] log.
Proof. exact @FifoPolled.polled_dyn. Qed.
Print Assumptions C141_polled_dyn_consumer_is_race_free.

(* Two items are announced, and taken while a third is put; the count after that is stale. *)
Example C141_hypotheses_met :
  let l := map Base [PBegin 5; PStep 0; PStep 0; PStep 0; PStep 0; PBegin 6; PStep 1; PStep 0; PStep 0; PStep 0] ++
           [Count 2] ++
           map Base [CGet; CStep 0 None; CStep 2 None; CStep 0 (Some 9); PBegin 7; PStep 2; CStep 0 None; PStep 1;
                     PStep 0; PStep 0; CGet; CStep 1 None; CStep 2 None; CStep 0 None; CStep 0 None; CGet] ++
           [Count 2; Count 3] in
  (0 <= 1 < 32 /\ 0 <= 2 ^ 32 - 1 < 2 ^ 32 /\ zlen [0; 0] = 2 ^ 1) /\
  match polled_run 32 (2 ^ 1) slot_static code_orders 0 (polled_init (2 ^ 1) (2 ^ 32 - 1) [0; 0]) l with
  | Ok (_, log) => log = [Eff (EffPut 5); Eff (EffPut 6); Counted 2; Eff (EffGot 5); Eff (EffPut 7); Eff (EffGot 6);
                          Counted 0; Counted 1]
  | _ => False
  end /\
  (0 < 3 < 2 ^ 32 /\ 7 + polled_puts l <= 2 ^ 32).
Proof. split; [repeat split; lia|]. split; [vm_compute; reflexivity|]. split; [lia|vm_compute; discriminate]. Qed.

(** The discipline matters, for every element type, capacity and counter value and in both classes:
    a consumer that takes one item more than announced can race. *)
Theorem C141_one_more_item_races_refuted :
  (forall (T : Type) (W k h : Z) (buf : list T), 0 <= k < W -> 0 <= h < 2 ^ W -> zlen buf = 2 ^ k -> forall x : T,
     exists l, In (Base (PBegin x)) l /\
       polled_run W (2 ^ k) slot_static code_orders 1 (polled_init (2 ^ k) h buf) l = UB DataRace) /\
  (forall (T : Type) (W cap h : Z) (buf : list T), 0 < cap < 2 ^ W -> 0 <= h < 2 ^ W -> zlen buf = cap -> forall x : T,
     exists l, In (Base (PBegin x)) l /\
       polled_run W cap slot_dyn code_orders 1 (polled_init cap h buf) l = UB DataRace).
Proof.
  split; intros; exists (FifoPolled.greedy x); (split; [left; reflexivity|]);
    [apply FifoPolled.greedy_static|apply FifoPolled.greedy_dyn]; assumption.
Qed.
Print Assumptions C141_one_more_item_races_refuted.
