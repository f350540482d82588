(* C147: a circular buffer filled by an interrupt handler and emptied by the main program. *)
From Verif.Common Require Import Base.
From Verif.Spec Require Import RingSpec IrqSpec.
From Verif.Model Require Import Circular Irq CircularIrq.
From Verif.Proofs Require CircularIrq.

(** C147.  The handler stores an item only while count() is below max_size() - 1; the main program
    calls get and remove_first.  Wherever the handler interrupts them, every call acts as one on a
    queue that loses nothing and repeats nothing: each get answers with the oldest item not taken. *)
Theorem C147_interrupted_ring :
  forall {T} W k (buf : list T) t h, 0 <= k < W -> zlen buf = 2 ^ k -> 0 <= t < 2 ^ k -> Forall (calls_by takes puts) h ->
    exists s' items rs qs, irun (cq_step W (2 ^ k)) (cq_main W (2 ^ k)) (CBuf buf t t false) h = Ok (s', rs, qs) /\
      atomically (total (lossless_step (2 ^ k))) [] h rs qs items.
Proof. exact @CircularIrq.from_empty. Qed.
Print Assumptions C147_interrupted_ring.
(** What does not hold.  With a full buffer: a get interrupted by put answers with the oldest item [a],
    and the next gets skip [b] as well, although put replaced only one item. *)
Theorem C147_put_on_full_refuted :
  forall {T} W k (buf : list T) t a b q x, 0 <= k < W -> zlen buf = 2 ^ k -> 0 <= t < 2 ^ k -> zlen (a :: b :: q) = 2 ^ k ->
    exists s o s1 s2, run (cq_step W (2 ^ k)) (CBuf buf t t false) (map QPutAny (a :: b :: q)) = Ok (s, o) /\
      irun (cq_step W (2 ^ k)) (cq_main W (2 ^ k)) s [Call QGet [[]; []; []; [QPutAny x]]] = Ok (s1, [OOpt (Some a)], [OUnit]) /\
      run (cq_step W (2 ^ k)) s1 (repeat QGet (length (q ++ [x]) + 1)) = Ok (s2, map (fun v => OOpt (Some v)) (q ++ [x]) ++ [OOpt None]).
Proof. intros. apply CircularIrq.item_skipped; assumption. Qed.
Print Assumptions C147_put_on_full_refuted.
(** With one place free: a put during get and a put after it lose [b], although there was room for both. *)
Theorem C147_put_below_full_refuted :
  forall {T} W k (buf : list T) t a b q x y, 0 <= k < W -> zlen buf = 2 ^ k -> 0 <= t < 2 ^ k -> zlen (a :: b :: q) = 2 ^ k - 1 ->
    exists s o s1 s2, run (cq_step W (2 ^ k)) (CBuf buf t t false) (map QPutAny (a :: b :: q)) = Ok (s, o) /\
      irun (cq_step W (2 ^ k)) (cq_main W (2 ^ k)) s [Call QGet [[]; []; []; []; []; []; []; [QPutAny x]]; Irq (QPutAny y)]
        = Ok (s1, [OOpt (Some a)], [OUnit; OUnit]) /\
      run (cq_step W (2 ^ k)) s1 (repeat QGet (length (q ++ [x; y]) + 1)) = Ok (s2, map (fun v => OOpt (Some v)) (q ++ [x; y]) ++ [OOpt None]).
Proof. intros. apply CircularIrq.room_lost; assumption. Qed.
Print Assumptions C147_put_below_full_refuted.
(** count() interrupted by one put can answer with a number near 2^W. *)
Theorem C147_count_refuted :
  forall {T} W k (buf : list T) t q x, 0 <= k < W -> zlen buf = 2 ^ k -> 0 < t < 2 ^ k -> zlen q = 2 ^ k - 1 - t ->
    exists s o s1, run (cq_step W (2 ^ k)) (CBuf buf t t false) (map QPutAny q) = Ok (s, o) /\
      irun (cq_step W (2 ^ k)) (cq_main W (2 ^ k)) s [Call QCount [[]; []; []; [QPutAny x]]] = Ok (s1, [ONum (2 ^ W - t)], [OUnit]).
Proof. intros. apply CircularIrq.count_wrong; assumption. Qed.
Print Assumptions C147_count_refuted.
(** The main program puts and the handler gets: one put into an empty buffer, taken by the handler
    during the put, leaves a buffer that counts as full of items put long before. *)
Theorem C147_get_during_put_refuted :
  forall {T} W k (buf : list T) t x old, 0 <= k < W -> 1 <= k -> zlen buf = 2 ^ k -> 0 <= t < 2 ^ k -> znth buf ((t + 1) mod 2 ^ k) = Some old ->
    exists s1 s2, irun (cq_step W (2 ^ k)) (cq_main W (2 ^ k)) (CBuf buf t t false) [Call (QPutAny x) [[]; []; []; []; []; [QGet]]]
        = Ok (s1, [OUnit], [OOpt (Some x)]) /\
      run (cq_step W (2 ^ k)) s1 [QCount; QGet] = Ok (s2, [ONum (2 ^ k); OOpt (Some old)]).
Proof. intros. apply CircularIrq.stale_items; assumption. Qed.
Print Assumptions C147_get_during_put_refuted.
(** With one place free, the handler's get during a put answers that nothing is there. *)
Theorem C147_hidden_items_refuted :
  forall {T} W k (buf : list T) t q x, 0 <= k < W -> zlen buf = 2 ^ k -> 0 <= t < 2 ^ k -> 1 <= zlen q -> zlen q = 2 ^ k - 1 ->
    exists s o s1 s2, run (cq_step W (2 ^ k)) (CBuf buf t t false) (map QPutAny q) = Ok (s, o) /\
      irun (cq_step W (2 ^ k)) (cq_main W (2 ^ k)) s [Call (QPutAny x) [[]; []; []; []; []; [QGet]]] = Ok (s1, [OUnit], [OOpt None]) /\
      run (cq_step W (2 ^ k)) s1 (repeat QGet (length (q ++ [x]) + 1)) = Ok (s2, map (fun v => OOpt (Some v)) (q ++ [x]) ++ [OOpt None]).
Proof. intros. apply CircularIrq.hidden_items; assumption. Qed.
Print Assumptions C147_hidden_items_refuted.
(** A call that is not interrupted does what the call does, in every state. *)
Theorem C147_uninterrupted :
  forall {T} W cap (s : cbuf T) o, irun (cq_step W cap) (cq_main W cap) s [Call o []] =
    match cq_step W cap s o with Ok (s', r) => Ok (s', [r], []) | UB k => UB k | OutOfFuel => OutOfFuel end.
Proof. exact @CircularIrq.uninterrupted_ring. Qed.
Print Assumptions C147_uninterrupted.

(** A buffer of four places starting at place 3. *)
Example C147_hypotheses_met :
  let s := CBuf [0; 0; 0; 0] 3 3 false in
  let h := [Irq (QPut 1); Call QGet [[]; []; []; [QPut 2]; []; [QPut 3]]; Irq (QPut 4); Irq (QPut 5); Call QRemove [[]; [QPut 6]]; Call QGet []] in
  Forall (calls_by takes puts) h /\
  exists s', irun (cq_step 32 4) (cq_main 32 4) s h = Ok (s', [OOpt (Some 1); OUnit; OOpt (Some 3)],
    [OBool true; OBool true; OBool true; OBool true; OBool false; OBool false]).
Proof.
  cbn zeta. split.
  - repeat (apply Forall_cons); try apply Forall_nil; cbn; unfold takes, puts; repeat (apply Forall_cons); try apply Forall_nil; eauto;
      try (split; [auto|]); repeat (apply Forall_cons); try apply Forall_nil; eauto.
  - eexists. vm_compute. reflexivity.
Qed.
