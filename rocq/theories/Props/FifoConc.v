(* C02, C04: one producer and one consumer under every interleaving. *)
From Verif.Common Require Import Base.
From Verif.Spec Require Import Queue Linearizable.
From Verif.Model Require Import Fifo FifoConc.
From Verif.Proofs Require FifoConc.

(** C02.  Every schedule of single memory accesses (and every choice of calls) of one producer
    and one consumer of a LockFreeFifoSpsc of capacity 2^k, started empty with
    both counters at any W-bit value [h]: no access is out of bounds, the
    history of calls and returns is linearizable to the bounded queue, and the
    two threads are never about to access the same slot.  The only exclusion
    is reset called by the producer (see C04). *)
Theorem C02_spsc_linearizable :
  forall (T : Type) (dflt : T) (W k h : Z) (buf : list T) (sched : list (action T)),
    0 <= k < W -> 0 <= h < 2 ^ W -> zlen buf = 2 ^ k ->
    forallb (action_ok false) sched = true ->
    exists s' hist,
      crun W dflt slot_static (cinit (2 ^ k) h buf) sched = Ok (s', hist) /\
      linearizable dflt (Queue (2 ^ k) []) hist /\
      (forall i j, slot_access slot_static Prod s' = Some (Ok i) ->
                   slot_access slot_static Cons s' = Some (Ok j) -> i <> j).
Proof. exact @FifoConc.static_linearizable. Qed.
Print Assumptions C02_spsc_linearizable.

(** The same for LockFreeFifoSpscDyn, under the wrap condition of C05. *)
Theorem C02_dyn_linearizable :
  forall (T : Type) (dflt : T) (W cap h : Z) (buf : list T) (sched : list (action T)),
    0 <= W -> 0 < cap < 2 ^ W -> 0 <= h < 2 ^ W -> zlen buf = cap ->
    ((cap | 2 ^ W) \/ h + invoked_puts sched <= 2 ^ W) ->
    forallb (action_ok false) sched = true ->
    exists s' hist,
      crun W dflt slot_dyn (cinit cap h buf) sched = Ok (s', hist) /\
      linearizable dflt (Queue cap []) hist /\
      (forall i j, slot_access slot_dyn Prod s' = Some (Ok i) ->
                   slot_access slot_dyn Cons s' = Some (Ok j) -> i <> j).
Proof. exact @FifoConc.dyn_linearizable. Qed.
Print Assumptions C02_dyn_linearizable.

(* A schedule in which put and get overlap, near the 32-bit wrap; the two threads
   really are inside their buffer accesses at the same time. *)
Example C02_hypotheses_met :
  let sched := [Invoke Prod (Put 5); Step Prod; Step Prod; Step Prod; Step Prod; Step Prod;
                Invoke Prod (Put 6); Invoke Cons Get; Step Prod; Step Cons; Step Cons; Step Prod] in
  let s0 := cinit (2 ^ 1) (2 ^ 32 - 1) [0; 0] in
  (0 <= 1 < 32 /\ 0 <= 2 ^ 32 - 1 < 2 ^ 32 /\ zlen [0; 0] = 2 ^ 1 /\
   forallb (action_ok false) sched = true) /\
  (exists s', crun 32 0 slot_static s0 sched
              = Ok (s', [EInv Prod (Put 5); ERes Prod (RBool true); EInv Prod (Put 6); EInv Cons Get]) /\
              slot_access slot_static Prod s' = Some (Ok 0) /\ slot_access slot_static Cons s' = Some (Ok 1)) /\
  (exists s', crun 32 0 slot_static s0 (sched ++ [Step Cons; Step Cons; Step Cons])
              = Ok (s', [EInv Prod (Put 5); ERes Prod (RBool true); EInv Prod (Put 6); EInv Cons Get;
                         ERes Cons (ROpt (Some 5))])).
Proof.
  split; [repeat split; lia|]. split; eexists; vm_compute; [repeat split|reflexivity].
Qed.

(** C04.  reset by the consumer (only): covered by C02, here stated for the schedules that
    use it: a consumer reset discards exactly the items present at one instant of the call. *)
Theorem C04_consumer_reset_linearizable :
  forall (T : Type) (dflt : T) (W k h : Z) (buf : list T) (sched : list (action T)),
    0 <= k < W -> 0 <= h < 2 ^ W -> zlen buf = 2 ^ k ->
    forallb (fun a => match a with Invoke Prod Reset => false | _ => true end) sched = true ->
    exists s' hist,
      crun W dflt slot_static (cinit (2 ^ k) h buf) sched = Ok (s', hist) /\
      linearizable dflt (Queue (2 ^ k) []) hist.
Proof. exact @FifoConc.consumer_reset_linearizable. Qed.
Print Assumptions C04_consumer_reset_linearizable.

Example C04_hypotheses_met :
  let sched := [Invoke Prod (Put 5); Step Prod; Step Prod; Step Prod; Step Prod; Step Prod;
                Invoke Cons Reset; Step Cons; Invoke Prod (Put 6); Step Prod; Step Prod; Step Prod; Step Prod;
                Step Cons; Step Cons; Invoke Cons NumFilled; Step Cons; Step Cons; Step Cons] in
  forallb (fun a => match a with Invoke Prod Reset => false | _ => true end) sched = true /\
  exists s', crun 32 0 slot_static (cinit (2 ^ 1) 0 [0; 0]) sched
     = Ok (s', [EInv Prod (Put 5); ERes Prod (RBool true); EInv Cons Reset; EInv Prod (Put 6); ERes Cons RUnit;
                EInv Cons NumFilled; ERes Cons (RNum 1)]).
Proof. split; [reflexivity|eexists; vm_compute; reflexivity]. Qed.

(** C04, the violation: with reset called by the producer (documented as allowed) there is, for
    every capacity above 1 and every starting value of the counters, a schedule after which
    num_filled() returns twice the capacity less 1 and a further put still succeeds; no
    linearization exists, even if a reset may take effect in two instants. *)
Theorem C04_producer_reset_refuted :
  forall (T : Type) (dflt x : T) (W k h : Z) (buf : list T),
    1 <= k < W -> 0 <= h < 2 ^ W -> zlen buf = 2 ^ k ->
    exists (sched : list (action T)) s' hist before after,
      crun W dflt slot_static (cinit (2 ^ k) h buf) sched = Ok (s', hist) /\
      hist = before ++ [EInv Cons NumFilled; ERes Cons (RNum (2 * 2 ^ k - 1))] ++ after /\
      after = [EInv Prod (Put x); ERes Prod (RBool true)] /\
      ~ linearizable dflt (Queue (2 ^ k) []) hist.
Proof. exact @FifoConc.producer_reset_overfills. Qed.
Print Assumptions C04_producer_reset_refuted.

Example C04_producer_reset_hypotheses_met :
  1 <= 1 < 32 /\ 0 <= 0 < 2 ^ 32 /\ zlen [0; 0] = 2 ^ 1 /\
  exists (sched : list (action Z)) s' hist,
    crun 32 0 slot_static (cinit (2 ^ 1) 0 [0; 0]) sched = Ok (s', hist) /\ In (ERes Cons (RNum 3)) hist.
Proof. do 3 (split; [cbn; lia|]). destruct FifoConc.producer_reset_witness as (sched & s' & hist & A & B & _). eauto. Qed.
