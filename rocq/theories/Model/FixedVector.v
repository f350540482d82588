(* Model of util/fixed_vector.hh (FixedVector<T, MaxElements>).
   [N] is MaxElements.  [strict]: whether merely forming data[MaxElements]
   (to take its address) is undefined, as the standard says of
   std::array::operator[]; with strict = false only real accesses count. *)
From Verif.Common Require Import Base.
From Verif.Spec Require Import VectorSpec.

Section FV.
Context {T : Type}.
Variables (strict : bool) (N : Z) (dflt : T).

(* fixed_vector.hh:10-11 *)
Record fvec := FVec { v_data : list T; v_n : Z }.

(* constructor: fixed_vector.hh:14-18; data{t...} value-initialises the rest *)
Definition fv_init (ts : list T) : fvec := FVec (ts ++ zrepeat dflt (N - zlen ts)) (zlen ts).

(* &data[i]: fixed_vector.hh:108, 123 *)
Definition addr (i : Z) : outcome Z :=
  if strict && (N <=? i) then UB OutOfBounds else Ok i.

(* operator[]: fixed_vector.hh:21-27 *)
Definition fv_at (s : fvec) (i : Z) : outcome T := rd (v_data s) i.
Definition fv_set (s : fvec) (i : Z) (x : T) : outcome fvec :=
  let* d := wr (v_data s) i x in Ok (FVec d (v_n s)).

(* back: fixed_vector.hh:29-34 *)
Definition fv_back (s : fvec) : outcome T :=
  if v_n s >? 0 then rd (v_data s) (v_n s - 1) else Ok dflt.

(* push_back: fixed_vector.hh:36-43 *)
Definition fv_push (s : fvec) (x : T) : outcome (fvec * bool) :=
  if v_n s >=? N then Ok (s, false)
  else let* d := wr (v_data s) (v_n s) x in Ok (FVec d (v_n s + 1), true).

(* the loop of resize: fixed_vector.hh:50-52; k iterations from index i *)
Fixpoint fill_from (k : nat) (i : Z) (d : list T) (x : T) : outcome (list T) :=
  match k with
  | O => Ok d
  | S k' => let* d1 := wr d i x in fill_from k' (i + 1) d1 x
  end.

(* resize: fixed_vector.hh:46-57 *)
Definition fv_resize (s : fvec) (num : Z) (x : T) : outcome (fvec * bool) :=
  let nb := Z.min num N in
  let* d := if nb >? v_n s then fill_from (Z.to_nat (nb - v_n s)) (v_n s) (v_data s) x else Ok (v_data s) in
  Ok (FVec d nb, num =? nb).

(* resize_for_overwrite: fixed_vector.hh:59-62 *)
Definition fv_resize_ow (s : fvec) (num : Z) : fvec * bool :=
  let nb := Z.min num N in (FVec (v_data s) nb, num =? nb).

(* push_back_for_overwrite: fixed_vector.hh:65-73 *)
Definition fv_push_ow (s : fvec) : fvec * Z :=
  if v_n s >=? N then (s, N) else (FVec (v_data s) (v_n s + 1), v_n s).

(* pop_back: fixed_vector.hh:75-81 *)
Definition fv_pop (s : fvec) : outcome (fvec * T) :=
  if v_n s =? 0 then Ok (s, dflt)
  else let* x := rd (v_data s) (v_n s - 1) in Ok (FVec (v_data s) (v_n s - 1), x).

(* std::move_backward(first, last, dlast) on k = last - first elements *)
Fixpoint move_backward (k : nat) (d : list T) (last dlast : Z) : outcome (list T) :=
  match k with
  | O => Ok d
  | S k' =>
      let* x := rd d (last - 1) in
      let* d1 := wr d (dlast - 1) x in
      move_backward k' d1 (last - 1) (dlast - 1)
  end.
(* std::move(first, last, dst) on k = last - first elements *)
Fixpoint move_forward (k : nat) (d : list T) (first dst : Z) : outcome (list T) :=
  match k with
  | O => Ok d
  | S k' =>
      let* x := rd d first in
      let* d1 := wr d dst x in
      move_forward k' d1 (first + 1) (dst + 1)
  end.

(* insert: fixed_vector.hh:99-112 *)
Definition fv_insert (s : fvec) (index : Z) (x : T) : outcome fvec :=
  if (v_n s >=? N) || (index >? v_n s) then Ok s
  else if index =? v_n s then let* (s', _) := fv_push s x in Ok s'
  else
    let* f := addr index in
    let* l := addr (v_n s) in
    let* dl := addr (v_n s + 1) in
    let* d := move_backward (Z.to_nat (l - f)) (v_data s) l dl in
    let* d := wr d index x in
    Ok (FVec d (v_n s + 1)).

(* erase(index): fixed_vector.hh:114-125 *)
Definition fv_erase (s : fvec) (index : Z) : outcome fvec :=
  if (v_n s =? 0) || (index >=? v_n s) then Ok s
  else if index =? v_n s - 1 then Ok (FVec (v_data s) (v_n s - 1))
  else
    let* f := addr (index + 1) in
    let* l := addr (v_n s) in
    let* dst := addr index in
    let* d := move_forward (Z.to_nat (l - f)) (v_data s) f dst in
    Ok (FVec d (v_n s - 1)).

(* erase(first, last): fixed_vector.hh:127-137, iterators as indices *)
Definition fv_erase_range (s : fvec) (first last : Z) : outcome fvec :=
  let count := last - first in
  if (v_n s =? 0) || (count <=? 0) then Ok s
  else
    let* d := move_forward (Z.to_nat (v_n s - last)) (v_data s) last first in
    Ok (FVec d (v_n s - count)).

(* size, max_size, available, clear: fixed_vector.hh:83-97 *)
Definition fv_available (s : fvec) : Z := N - v_n s.
Definition fv_clear (s : fvec) : fvec := FVec (v_data s) 0.

(* begin()..end(), span(): fixed_vector.hh:141-163 *)
Definition fv_contents (s : fvec) : list T := firstn (Z.to_nat (v_n s)) (v_data s).

(* Dispatch.  An iterator-range erase is only called with iterators in [begin(), end()]. *)
Definition fv_step (s : fvec) (o : vop T) : outcome (fvec * vout T) :=
  match o with
  | VPush x => let* (s', b) := fv_push s x in Ok (s', VBool b)
  | VPushOverwrite => let (s', i) := fv_push_ow s in Ok (s', VNum i)
  | VPop => let* (s', x) := fv_pop s in Ok (s', VItem x)
  | VBack => let* x := fv_back s in Ok (s, VItem x)
  | VInsert i x => let* s' := fv_insert s i x in Ok (s', VUnit)
  | VErase i => let* s' := fv_erase s i in Ok (s', VUnit)
  | VEraseRange f l =>
      if (f <=? v_n s) && (l <=? v_n s) then let* s' := fv_erase_range s f l in Ok (s', VUnit) else Ok (s, VUnit)
  | VResize n x => let* (s', b) := fv_resize s n x in Ok (s', VBool b)
  | VResizeOverwrite n => let (s', b) := fv_resize_ow s n in Ok (s', VBool b)
  | VSize => Ok (s, VNum (v_n s))
  | VMaxSize => Ok (s, VNum N)
  | VAvailable => Ok (s, VNum (fv_available s))
  | VClear => Ok (fv_clear s, VUnit)
  | VContents => Ok (s, VList (fv_contents s))
  | VAt i => let* x := fv_at s i in Ok (s, VItem x)
  | VSet i x => let* s' := fv_set s i x in Ok (s', VUnit)
  end.
End FV.
Arguments fvec : clear implicits.
