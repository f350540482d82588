(* Model of util/fixed_vector.hh (FixedVector<T, MaxElements>) for elements that have a move
   assignment of their own: [moved x] is what std::move leaves behind in an element that was
   moved from (for an owning handle: the empty handle; for a plain value: the value itself). *)
From Verif.Common Require Import Base.
From Verif.Spec Require Import VectorSpec.
From Verif.Model Require Import FixedVector Pool.

Section Moving.
Context {T : Type}.
Variables (moved : T -> T) (N : Z) (dflt : T).

(* d[dst] = std::move(d[src]) for two different elements *)
Definition move_one (d : list T) (src dst : Z) : outcome (list T) :=
  let* x := rd d src in
  let* d1 := wr d dst x in
  wr d1 src (moved x).

(* std::move_backward(first, last, dlast) on k = last - first elements: fixed_vector.hh:108 *)
Fixpoint mmove_backward (k : nat) (d : list T) (last dlast : Z) : outcome (list T) :=
  match k with
  | O => Ok d
  | S k' => let* d1 := move_one d (last - 1) (dlast - 1) in mmove_backward k' d1 (last - 1) (dlast - 1)
  end.
(* std::move(first, last, dst) on k = last - first elements: fixed_vector.hh:123, 134 *)
Fixpoint mmove_forward (k : nat) (d : list T) (first dst : Z) : outcome (list T) :=
  match k with
  | O => Ok d
  | S k' => let* d1 := move_one d first dst in mmove_forward k' d1 (first + 1) (dst + 1)
  end.

(* insert: fixed_vector.hh:99-112 *)
Definition mv_insert (s : fvec T) (index : Z) (x : T) : outcome (fvec T) :=
  if (v_n s >=? N) || (index >? v_n s) then Ok s
  else if index =? v_n s then let* (s', _) := fv_push N s x in Ok s'
  else
    let* d := mmove_backward (Z.to_nat (v_n s - index)) (v_data s) (v_n s) (v_n s + 1) in
    let* d := wr d index x in
    Ok (FVec d (v_n s + 1)).

(* erase(index): fixed_vector.hh:114-125 *)
Definition mv_erase (s : fvec T) (index : Z) : outcome (fvec T) :=
  if (v_n s =? 0) || (index >=? v_n s) then Ok s
  else if index =? v_n s - 1 then Ok (FVec (v_data s) (v_n s - 1))
  else
    let* d := mmove_forward (Z.to_nat (v_n s - (index + 1))) (v_data s) (index + 1) index in
    Ok (FVec d (v_n s - 1)).

(* erase(first, last): fixed_vector.hh:127-137, iterators as indices *)
Definition mv_erase_range (s : fvec T) (first last : Z) : outcome (fvec T) :=
  let count := last - first in
  if (v_n s =? 0) || (count <=? 0) then Ok s
  else
    let* d := mmove_forward (Z.to_nat (v_n s - last)) (v_data s) last first in
    Ok (FVec d (v_n s - count)).

(* the remaining calls copy elements: as in FixedVector.v *)
Definition mv_step (s : fvec T) (o : vop T) : outcome (fvec T * vout T) :=
  match o with
  | VInsert i x => let* s' := mv_insert s i x in Ok (s', VUnit)
  | VErase i => let* s' := mv_erase s i in Ok (s', VUnit)
  | VEraseRange f l =>
      if (f <=? v_n s) && (l <=? v_n s) then let* s' := mv_erase_range s f l in Ok (s', VUnit) else Ok (s, VUnit)
  | _ => fv_step false N dflt s o
  end.
End Moving.

(* An owning handle (std::shared_ptr and the like): None is the empty handle, Some r refers to r. *)
Definition handle (R : Type) : Type := option R.
Definition emptied {R : Type} (h : handle R) : handle R := None.

(* What an object keeps alive: every resource some element of its storage refers to, inside the
   current size or not (the elements of the std::array live as long as the object). *)
Definition keeps {R : Type} (storage : list (handle R)) (r : R) : Prop := In (Some r) storage.
(* the storage of a pool: pool.hh:13-17 *)
Definition pool_storage {T : Type} (l : list (entry T)) : list T := map e_data l.
