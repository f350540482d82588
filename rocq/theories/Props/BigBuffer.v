(* C137: BigBuffer. *)
From Verif.Common Require Import Base.
From Verif.Spec Require Import HeapSpec.
From Verif.Model Require Import BigBuffer.
From Verif.Proofs Require BigBuffer.

(** C137.  Without copies and assignments, buffer variables behave like arrays held by value (same
    results, undefined exactly for the misuses that are undefined for those), no two variables
    share a block, and the blocks allocated are at every moment exactly those the living variables own. *)
Theorem C137_buffers_own_their_storage :
  forall (E : Type) (n : Z) (ops : list (bop E)), Forall no_copy ops ->
    match run (value_step n) (fun _ => None) ops with
    | Ok (q, outs) => exists s, run (bb_step n) bh0 ops = Ok (s, outs) /\
        (forall a, bh_heap s a <> None <-> exists v, bh_vars s v = Some a) /\ (forall v, bh_vars s v = None <-> q v = None) /\
        (forall v w a, bh_vars s v = Some a -> bh_vars s w = Some a -> v = w)
    | UB k => run (bb_step n) bh0 ops = UB k
    | OutOfFuel => True
    end.
Proof. exact @BigBuffer.history. Qed.
Print Assumptions C137_buffers_own_their_storage.
(** The class can be copied, and then both destructors delete the same block, *)
Theorem C137_copies_can_be_destroyed_refuted :
  forall (E : Type) (n : Z) (s : bigheap E) v w a l, bh_vars s v = Some a -> bh_heap s a = Some l -> bh_vars s w = None -> v <> w ->
    run (bb_step n) s [BCopy w v; BEnd v; BEnd w] = UB BadDeref.
Proof. exact @BigBuffer.copy_deletes_twice. Qed.
Print Assumptions C137_copies_can_be_destroyed_refuted.
(** writing to the copy changes the original, *)
Theorem C137_copies_are_independent_refuted :
  forall (E : Type) (n : Z) (s : bigheap E) v w a l i x, bh_vars s v = Some a -> bh_heap s a = Some l -> bh_vars s w = None -> v <> w -> 0 <= i < zlen l ->
    exists s', run (bb_step n) s [BCopy w v; BSet w i x; BGet v i] = Ok (s', [None; None; Some x]).
Proof. exact @BigBuffer.copy_shares. Qed.
Print Assumptions C137_copies_are_independent_refuted.
(** and assignment leaves the block of the left side allocated without an owner. *)
Theorem C137_assignment_releases_refuted :
  forall (E : Type) (n : Z) (s : bigheap E) v w a b lb, bh_vars s v = Some a -> bh_vars s w = Some b -> bh_heap s b = Some lb -> (forall u, bh_vars s u = Some b -> u = w) -> a <> b ->
    exists s', run (bb_step n) s [BAssign w v] = Ok (s', [None]) /\ bh_heap s' b = Some lb /\ forall u, bh_vars s' u <> Some b.
Proof. exact @BigBuffer.assign_leaks. Qed.
Print Assumptions C137_assignment_releases_refuted.
Example C137_hypotheses_met :
  let ops := [BNew 1; BNew 2; BSet 1 0 10; BSet 2 0 20; BGet 1 0; BEnd 1; BNew 3; BGet 2 0] in
  Forall no_copy ops /\
  (exists q, run (value_step 4) (fun _ => None) ops = Ok (q, [None; None; None; None; Some 10; None; None; Some 20])) /\
  (exists s, run (bb_step 4) bh0 ops = Ok (s, [None; None; None; None; Some 10; None; None; Some 20]) /\ bh_vars s 2 = Some 1 /\ bh_vars s 3 = Some 2 /\ bh_heap s 0 = None) /\
  run (bb_step 4) bh0 [BNew 1; BGet 1 0] = UB (A := bigheap Z * list (option Z)) Indeterminate /\ run (bb_step 4) bh0 [BNew 1; BSet 1 4 7] = UB (A := bigheap Z * list (option Z)) OutOfBounds.
Proof.
  cbn zeta. split; [repeat constructor|]. split; [eexists; vm_compute; reflexivity|]. split; [eexists; split; [vm_compute; reflexivity|repeat split; reflexivity]|]. split; reflexivity.
Qed.
