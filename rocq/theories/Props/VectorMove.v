(* C157: containers of elements that own something. *)
From Verif.Common Require Import Base Lists.
From Verif.Spec Require Import VectorSpec PoolSpec Queue RingSpec RetainSpec.
From Verif.Model Require Import FixedVector VectorMove Pool Circular Fifo.
From Verif.Proofs Require VectorMove.

(** C157.  Whatever moving from an element leaves behind in it, FixedVector is a list capped at N. *)
Theorem C157_moved_elements_are_not_seen :
  forall (T : Type) (moved : T -> T) (N : Z) (dflt : T) (ts : list T) (ops : list (vop T)),
    zlen ts <= N -> Forall (vop_ok N) ops ->
    exists s' outs l',
      run (mv_step moved N dflt) (fv_init N dflt ts) ops = Ok (s', outs) /\
      rel_run (vec_spec dflt N) ts ops outs l' /\ fv_contents s' = l' /\ zlen l' <= N /\ zlen (v_data s') = N.
Proof. exact @VectorMove.mv_run. Qed.
Print Assumptions C157_moved_elements_are_not_seen.

(** The whole storage after erasing a range, and after erasing one element. *)
Theorem C157_storage_after_erase :
  forall (T : Type) (moved : T -> T) (s : fvec T) f e,
    0 <= f < e -> e <= v_n s <= zlen (v_data s) ->
    exists d, mv_erase_range moved s f e = Ok (FVec d (v_n s - (e - f))) /\
      (forall j, 0 <= j -> znth d j = erased moved (v_data s) (v_n s) f e j).
Proof. exact @VectorMove.range_storage. Qed.
Print Assumptions C157_storage_after_erase.
Theorem C157_storage_after_erase_index :
  forall (T : Type) (moved : T -> T) (s : fvec T) i,
    0 <= i < v_n s -> v_n s <= zlen (v_data s) ->
    exists d, mv_erase moved s i = Ok (FVec d (v_n s - 1)) /\
      (forall j, 0 <= j -> znth d j = erased moved (v_data s) (v_n s) i (i + 1) j).
Proof. exact @VectorMove.index_storage. Qed.
Print Assumptions C157_storage_after_erase_index.

(** Erasing releases what an element owned, unless it was the last element. *)
Theorem C157_erase_releases_unless_last_refuted :
  forall (R : Type) (s : fvec (handle R)) i r,
    0 <= i < v_n s -> v_n s <= zlen (v_data s) ->
    (forall j, znth (v_data s) j = Some (Some r) <-> j = i) ->
    exists s', mv_erase emptied s i = Ok s' /\ (keeps (v_data s') r <-> i = v_n s - 1).
Proof. exact @VectorMove.index_keeps. Qed.
Print Assumptions C157_erase_releases_unless_last_refuted.
(** Of an erased range, exactly the elements at or after f + (n - e) are kept alive: when the range is
    longer than what follows it, its end. *)
Theorem C157_erased_range_is_released_partly_refuted :
  forall (R : Type) (s : fvec (handle R)) f e i r,
    0 <= f < e -> e <= v_n s <= zlen (v_data s) -> f <= i < e ->
    (forall j, znth (v_data s) j = Some (Some r) <-> j = i) ->
    exists s', mv_erase_range emptied s f e = Ok s' /\ (keeps (v_data s') r <-> f + (v_n s - e) <= i).
Proof. exact @VectorMove.range_keeps. Qed.
Print Assumptions C157_erased_range_is_released_partly_refuted.
(** pop_back, clear and making the vector smaller release nothing. *)
Theorem C157_pop_and_clear_release_refuted :
  forall (T : Type) (N : Z) (dflt : T) (moved : T -> T) s o s' r,
    o = VPop \/ o = VClear \/ (exists n, o = VResizeOverwrite n) \/ (exists n x, n <= v_n s /\ o = VResize n x) ->
    mv_step moved N dflt s o = Ok (s', r) -> v_data s' = v_data s.
Proof. exact @VectorMove.shrink_keeps. Qed.
Print Assumptions C157_pop_and_clear_release_refuted.
(** destroy releases nothing. *)
Theorem C157_destroy_releases_refuted :
  forall (T : Type) (l : list (entry T)) (p : ptr) i, pool_storage (fst (release p i l)) = pool_storage l.
Proof. exact @VectorMove.pool_keeps. Qed.
Print Assumptions C157_destroy_releases_refuted.
(** What went into a CircularBuffer stays in its storage, although taken out, until as many elements
    as the buffer has places followed it. *)
Theorem C157_taken_from_ring_released_refuted :
  forall (T : Type) (W k : Z) (dflt : T), 0 <= k < W ->
  forall pre x post s' outs,
    Forall ring_plain post -> ring_puts post < 2 ^ k ->
    run (cb_step W (2 ^ k) dflt) (cb_init (2 ^ k) dflt) (pre ++ RPut x :: post) = Ok (s', outs) -> In x (cb_buf s').
Proof. exact @VectorMove.ring_keeps. Qed.
Print Assumptions C157_taken_from_ring_released_refuted.
(** The same for the lock-free FIFO when it is read without get_move. *)
Theorem C157_taken_from_fifo_released_refuted :
  forall (T : Type) (W k : Z) (dflt : T), 0 <= k < W ->
  forall pre x post s1 o1 s2 s3 o3,
    Forall queue_static pre -> Forall queue_plain post -> queue_puts post < 2 ^ k ->
    run (fifo_step W dflt slot_static) (fifo_init dflt (2 ^ k)) pre = Ok (s1, o1) ->
    fifo_step W dflt slot_static s1 (Put x) = Ok (s2, RBool true) ->
    run (fifo_step W dflt slot_static) s2 post = Ok (s3, o3) -> In x (f_buf s3).
Proof. exact @VectorMove.queue_keeps. Qed.
Print Assumptions C157_taken_from_fifo_released_refuted.

Example C157_hypotheses_met :
  let h (n : Z) := Some n in
  let v := FVec [h 1; h 2; h 3; h 4; h 5; None] 5 in
  mv_erase emptied v 1 = Ok (FVec [h 1; h 3; h 4; h 5; None; None] 4) /\
  mv_erase emptied v 4 = Ok (FVec [h 1; h 2; h 3; h 4; h 5; None] 4) /\
  mv_erase_range emptied v 1 4 = Ok (FVec [h 1; h 5; h 3; h 4; None; None] 2) /\
  (forall j, znth (v_data v) j = Some (h 3) <-> j = 2) /\
  run (mv_step emptied 6 None) v [VInsert 1 (h 9); VContents; VErase 0; VPop; VContents] =
    Ok (FVec [h 9; h 2; h 3; h 4; h 5; None] 4,
        [VUnit; VList [h 1; h 9; h 2; h 3; h 4; h 5]; VUnit; VItem (h 5); VList [h 9; h 2; h 3; h 4]]) /\
  run (cb_step 32 (2 ^ 1) 0) (cb_init (2 ^ 1) 0) ([RPut 5] ++ RPut 7 :: [RGet; RGet; RPut 9; RGet]) =
    Ok (CBuf [9; 7] 1 1 false, [OUnit; OUnit; OItem 5; OItem 7; OUnit; OItem 9]) /\
  run (fifo_step 32 0 slot_static) (fifo_init 0 (2 ^ 1)) [Put 5; Put 7; Get; Get; Empty] =
    Ok (Fifo 2 2 2 [5; 7], [RBool true; RBool true; ROpt (Some 5); ROpt (Some 7); RBool true]).
Proof.
  cbn zeta. repeat split; try (vm_compute; reflexivity).
  - intros H. pose proof (Lemmas.znth_some_range _ _ _ H) as Hr. unfold zlen in Hr. cbn in Hr.
    assert (j = 0 \/ j = 1 \/ j = 2 \/ j = 3 \/ j = 4 \/ j = 5) as [->|[->|[->|[->|[->| ->]]]]] by Lia.lia; try reflexivity; discriminate.
  - intros ->. reflexivity.
Qed.
