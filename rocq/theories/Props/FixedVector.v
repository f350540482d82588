(* C13: FixedVector is a list capped at its capacity. *)
From Verif.Common Require Import Base Lists.
From Verif.Spec Require Import VectorSpec.
From Verif.Model Require Import FixedVector.
From Verif.Proofs Require FixedVector.

(** C13.  From any constructor arguments that fit, every history is the history of a
    list capped at N ([vec_spec]); nothing accesses memory outside the array. *)
Theorem C13_fixed_vector_is_bounded_list :
  forall (T : Type) (N : Z) (dflt : T) (ts : list T) (ops : list (vop T)),
    zlen ts <= N -> Forall (vop_ok N) ops ->
    exists s' outs l',
      run (fv_step false N dflt) (fv_init N dflt ts) ops = Ok (s', outs) /\
      rel_run (vec_spec dflt N) ts ops outs l' /\ fv_contents s' = l' /\ zlen l' <= N.
Proof. exact @FixedVector.fv_run. Qed.
Print Assumptions C13_fixed_vector_is_bounded_list.

Example C13_hypotheses_met :
  let ops := [VPush 3; VPush 4; VPush 5; VInsert 1 9; VErase 0; VInsert 1 9; VContents; VPop; VEraseRange 0 2; VContents; VResize 3 7;
              VContents; VResize 9 1; VSize; VBack; VAvailable; VPushOverwrite; VClear; VPop] in
  zlen [1; 2] <= 4 /\ Forall (vop_ok 4) ops /\
  exists s', run (fv_step false 4 0) (fv_init 4 0 [1; 2]) ops =
    Ok (s', [VBool true; VBool true; VBool false; VUnit; VUnit; VUnit; VList [2; 9; 3; 4]; VItem 4; VUnit; VList [3]; VBool true;
             VList [3; 7; 7]; VBool false; VNum 4; VItem 1; VNum 0; VNum 4; VUnit; VItem 0]).
Proof.
  split; [vm_compute; congruence|]. split; [repeat constructor; cbn; try Lia.lia|].
  exists (FVec [3; 7; 7; 1] 0). vm_compute. reflexivity.
Qed.

(** C13, the strict reading of std::array::operator[]: erasing anything but the last
    element of a full vector, or inserting in front of the last free slot, forms
    data[MaxElements], which the standard leaves undefined. *)
Theorem C13_full_erase_names_element_past_the_end_refuted :
  forall (T : Type) (N : Z) (s : fvec T) (i : Z),
    v_n s = N -> 0 <= i -> i + 1 < N -> fv_erase true N s i = UB OutOfBounds.
Proof. exact @FixedVector.erase_strict. Qed.
Print Assumptions C13_full_erase_names_element_past_the_end_refuted.

Theorem C13_last_slot_insert_names_element_past_the_end_refuted :
  forall (T : Type) (N : Z) (s : fvec T) (i : Z) (x : T),
    v_n s = N - 1 -> 0 <= i -> i < N - 1 -> fv_insert true N s i x = UB OutOfBounds.
Proof. exact @FixedVector.insert_strict. Qed.
Print Assumptions C13_last_slot_insert_names_element_past_the_end_refuted.

Example C13_strict_hypotheses_met :
  fv_erase true 3 (fv_init 3 0 [1; 2; 3]) 0 = UB OutOfBounds /\
  fv_erase false 3 (fv_init 3 0 [1; 2; 3]) 0 = Ok (FVec [2; 3; 3] 2) /\
  fv_insert true 3 (fv_init 3 0 [1; 2]) 0 5 = UB OutOfBounds.
Proof. vm_compute; auto. Qed.
