(* Model of util/sequential_map.hh (SequentialMap<K,V,N>) and util/seq_map.hh
   (SeqMap<K,V,MaxSize>).  [keq] is operator== of the key type. *)
From Verif.Common Require Import Base.
From Verif.Spec Require Import MapSpec.
From Verif.Model Require Import FixedVector.

Section SM.
Context {K V : Type}.
Variables (keq : K -> K -> bool) (N : Z) (dk : K) (dv : V).

(* Index of the first element of a range whose key equals [k]: the loops of
   sequential_map.hh:16-19, 24-28, 41-45, 78-81, 87-90, 105-108. *)
Fixpoint key_index (k : K) (i : Z) (l : list (K * V)) : option Z :=
  match l with
  | [] => None
  | p :: r => if keq (fst p) k then Some i else key_index k (i + 1) r
  end.

(* sequential_map.hh:12-13 *)
Definition smap := fvec (K * V).
Definition sm_find_idx (s : smap) (k : K) : option Z := key_index k 0 (fv_contents s).

(* operator[]: sequential_map.hh:23-37; returns the index the reference designates *)
Definition sm_ref (s : smap) (k : K) : outcome (smap * Z) :=
  match sm_find_idx s k with
  | Some i => Ok (s, i)
  | None =>
      let (s1, newsize) := fv_push_ow N s in
      let newsize := if newsize =? N then newsize - 1 else newsize in
      let* e := fv_at s1 newsize in
      let* s2 := fv_set s1 newsize (k, snd e) in
      Ok (s2, newsize)
  end.
(* m[k] = v *)
Definition sm_assign (s : smap) (k : K) (v : V) : outcome smap :=
  let* (s1, i) := sm_ref s k in
  let* e := fv_at s1 i in
  fv_set s1 i (fst e, v).
(* reading through the reference *)
Definition sm_read_ref (s : smap) (k : K) : outcome (smap * V) :=
  let* (s1, i) := sm_ref s k in
  let* e := fv_at s1 i in Ok (s1, snd e).
(* const operator[]: sequential_map.hh:15-21; a missing key yields a reference to a dead temporary *)
Definition sm_const_ref (s : smap) (k : K) : outcome V :=
  match sm_find_idx s k with
  | Some i => let* e := fv_at s i in Ok (snd e)
  | None => UB BadDeref
  end.

(* insert: sequential_map.hh:40-54 (the iterator part of the result is dropped) *)
Definition sm_insert (s : smap) (entry : K * V) : outcome (smap * bool) :=
  match sm_find_idx s (fst entry) with
  | Some i => Ok (s, false)
  | None =>
      let (s1, newsize) := fv_push_ow N s in
      if newsize =? N then Ok (s1, false)
      else
        let* e := fv_at s1 newsize in
        let* s2 := fv_set s1 newsize (fst entry, snd e) in
        Ok (s2, true)
  end.

(* find: sequential_map.hh:77-92, dereferenced when found *)
Definition sm_find (s : smap) (k : K) : outcome (option V) :=
  match sm_find_idx s k with
  | Some i => let* e := fv_at s i in Ok (Some (snd e))
  | None => Ok None
  end.

(* erase: sequential_map.hh:96-102 *)
Definition sm_erase (s : smap) (k : K) : outcome (smap * Z) :=
  match sm_find_idx s k with
  | Some i => let* s' := fv_erase_range s i (i + 1) in Ok (s', 1)
  | None => Ok (s, 0)
  end.

(* contains: sequential_map.hh:104-110 *)
Definition sm_contains (s : smap) (k : K) : bool :=
  match sm_find_idx s k with Some _ => true | None => false end.

(* size, max_size, clear, empty, is_full: sequential_map.hh:56-74 *)
Definition sm_step (s : smap) (o : mop K V) : outcome (smap * mout K V) :=
  match o with
  | MAssign k v => let* s' := sm_assign s k v in Ok (s', MoUnit)
  | MRef k => let* (s', v) := sm_read_ref s k in Ok (s', MoVal v)
  | MFind k => let* r := sm_find s k in Ok (s, MoOpt r)
  | MContains k => Ok (s, MoBool (sm_contains s k))
  | MErase k => let* (s', n) := sm_erase s k in Ok (s', MoNum n)
  | MInsert k v => let* (s', b) := sm_insert s (k, v) in Ok (s', MoBool b)
  | MSize => Ok (s, MoNum (v_n s))
  | MMaxSize => Ok (s, MoNum N)
  | MEmpty => Ok (s, MoBool (v_n s =? 0))
  | MFull => Ok (s, MoBool (v_n s =? N))
  | MClear => Ok (fv_clear s, MoUnit)
  | MList => Ok (s, MoList (fv_contents s))
  end.
Definition sm_init : smap := fv_init N (dk, dv) [].

(* ---- SeqMap: seq_map.hh:8-11 ---- *)
Record seqmap := SeqMap { q_keys : list K; q_vals : list V; q_sz : Z; q_oldest : Z }.

(* the loops over active_keys: seq_map.hh:24-31, 49-54, 65-73, 78-82 *)
Fixpoint find_key (k : K) (i : Z) (l : list K) : option Z :=
  match l with
  | [] => None
  | k' :: r => if keq k' k then Some i else find_key k (i + 1) r
  end.
(* span{keys}.subspan(0, sz): undefined when sz exceeds the array *)
Definition active (s : seqmap) : outcome (list K) :=
  if q_sz s <=? zlen (q_keys s) then Ok (firstn (Z.to_nat (q_sz s)) (q_keys s)) else UB OutOfBounds.

(* insert: seq_map.hh:13-20 *)
Definition q_insert (s : seqmap) (k : K) (v : V) : outcome (seqmap * bool) :=
  if q_sz s >=? N then Ok (s, false)
  else
    let* ks := wr (q_keys s) (q_sz s) k in
    let* vs := wr (q_vals s) (q_sz s) v in
    Ok (SeqMap ks vs (q_sz s + 1) (q_oldest s), true).

(* overwrite: seq_map.hh:22-46; the observation is the value behind the returned pointer *)
Definition q_overwrite (s : seqmap) (k : K) (v : V) : outcome (seqmap * V) :=
  let* a := active s in
  match find_key k 0 a with
  | Some i =>
      let* vs := wr (q_vals s) i v in
      let* r := rd vs i in
      Ok (SeqMap (q_keys s) vs (q_sz s) (q_oldest s), r)
  | None =>
      let '(index, sz, oldest) :=
        if q_sz s >=? N then
          let o := q_oldest s + 1 in
          (q_oldest s, q_sz s, if o >=? N then 0 else o)
        else (q_sz s, q_sz s + 1, q_oldest s) in
      let* ks := wr (q_keys s) index k in
      let* vs := wr (q_vals s) index v in
      let* r := rd vs index in
      Ok (SeqMap ks vs sz oldest, r)
  end.

(* get: seq_map.hh:48-56 *)
Definition q_get (s : seqmap) (k : K) : outcome (option V) :=
  let* a := active s in
  match find_key k 0 a with
  | Some i => let* v := rd (q_vals s) i in Ok (Some v)
  | None => Ok None
  end.

(* remove_last: seq_map.hh:58-61 *)
Definition q_remove_last (s : seqmap) : seqmap :=
  if q_sz s >? 0 then SeqMap (q_keys s) (q_vals s) (q_sz s - 1) (q_oldest s) else s.

(* remove: seq_map.hh:64-75 *)
Definition q_remove (s : seqmap) (k : K) : outcome (seqmap * bool) :=
  let* a := active s in
  match find_key k 0 a with
  | Some i =>
      let* ks := wr (q_keys s) i dk in
      let* vs := wr (q_vals s) i dv in
      Ok (SeqMap ks vs (q_sz s) (q_oldest s), true)
  | None => Ok (s, false)
  end.

(* key_exists: seq_map.hh:77-84; size: 86-88 *)
Definition q_exists (s : seqmap) (k : K) : outcome bool :=
  let* a := active s in
  Ok (match find_key k 0 a with Some _ => true | None => false end).

Definition q_step (s : seqmap) (o : qmop K V) : outcome (seqmap * mout K V) :=
  match o with
  | QOverwrite k v => let* (s', r) := q_overwrite s k v in Ok (s', MoOpt (Some r))
  | QGet k => let* r := q_get s k in Ok (s, MoOpt r)
  | QExists k => let* b := q_exists s k in Ok (s, MoBool b)
  | QSize => Ok (s, MoNum (q_sz s))
  | QInsert k v => let* (s', b) := q_insert s k v in Ok (s', MoBool b)
  | QRemove k => let* (s', b) := q_remove s k in Ok (s', MoBool b)
  | QRemoveLast => Ok (q_remove_last s, MoUnit)
  end.

(* seq_map.hh:8-11: the arrays are default-initialised, so arbitrary *)
Definition q_init (ks : list K) (vs : list V) : seqmap := SeqMap ks vs 0 0.
End SM.
Arguments seqmap : clear implicits.
