(* util/zip.hh, util/countzip.hh, util/iterator_helpers.hh and util/partition.hh. *)
From Verif.Common Require Import Base.
From Verif.Spec Require Import RangeSpec.

(* for (auto &&[n, a, b, ...] : countzip(...)) body, over the containers [cs]; all containers
   have one element type here, a tuple is a list.  The body gets the index and references to the
   elements: it returns the values it leaves in them.  Random access iterators are indices. *)
Section Zip.
Context {A S : Type}.
(* any_match, iterator_helpers.hh lines 29-38 *)
Definition any_match (lhs rhs : list Z) : bool := existsb (fun p => fst p =? snd p) (combine lhs rhs).
(* operator*, zip.hh lines 63-65; countzip.hh lines 65-67 *)
Fixpoint rd_all (cs : list (list A)) (its : list Z) : outcome (list A) :=
  match cs, its with
  | c :: cs', i :: its' => let* x := rd c i in let* xs := rd_all cs' its' in Ok (x :: xs)
  | _, _ => Ok []
  end.
(* assignments of the body through the references *)
Fixpoint wr_all (cs : list (list A)) (its : list Z) (vs : list A) : outcome (list (list A)) :=
  match cs, its, vs with
  | c :: cs', i :: its', v :: vs' => let* c' := wr c i v in let* r := wr_all cs' its' vs' in Ok (c' :: r)
  | _, _, _ => Ok cs
  end.
(* the range-for loop: begin() and end(), zip.hh lines 83-88; !=, lines 51-61; ++, lines 40-43 and
   countzip.hh lines 41-45; zip is countzip without the index *)
Fixpoint zip_loop (fuel : nat) (body : S -> Z * list A -> S * list A) (s : S) (cs : list (list A)) (cnt : Z) (its : list Z)
  : outcome (S * list (list A)) :=
  if any_match its (map zlen cs) then Ok (s, cs)
  else
    match fuel with
    | O => OutOfFuel
    | Datatypes.S f =>
        let* vs := rd_all cs its in
        let (s', vs') := body s (cnt, vs) in
        let* cs' := wr_all cs its vs' in
        zip_loop f body s' cs' (word 64 (cnt + 1)) (map (fun i => i + 1) its)
    end.
Definition zip_for (fuel : nat) (body : S -> Z * list A -> S * list A) (s : S) (cs : list (list A)) : outcome (S * list (list A)) :=
  zip_loop fuel body s cs 0 (map (fun _ => 0) cs).
End Zip.

(* Partition<NumP, MaxE, unsigned>, partition.hh lines 8-49; FixedVector::push_back drops what does
   not fit (C13); the sort is a parameter *)
Definition push {A} (cap : Z) (l : list A) (x : A) : list A := if zlen l <? cap then l ++ [x] else l.
(* lines 28-31 *)
Definition with_ids (MaxE : Z) (vals : list Z) : list (Z * Z) :=
  fold_left (fun ordered val => push MaxE ordered (val, zlen ordered)) vals [].
(* lines 35-39 *)
Fixpoint set_init (sums : list Z) (i : Z) (init : list Z) : outcome (list Z) :=
  match init with
  | [] => Ok sums
  | v :: r => let* sums' := wr sums i v in set_init sums' (i + 1) r
  end.
(* std::ranges::min_element, the first of the smallest *)
Fixpoint min_index (best besti i : Z) (l : list Z) : Z :=
  match l with
  | [] => besti
  | x :: r => if x <? best then min_index x i (i + 1) r else min_index best besti (i + 1) r
  end.
Definition argmin (l : list Z) : Z := match l with [] => 0 | x :: r => min_index x 0 1 r end.
(* lines 42-47 *)
Fixpoint place (MaxE : Z) (sums : list Z) (parts : list (list Z)) (ordered : list (Z * Z)) : outcome (list (list Z)) :=
  match ordered with
  | [] => Ok parts
  | (val, i) :: r =>
      let idx := argmin sums in
      let* s := rd sums idx in
      let* sums' := wr sums idx (word 32 (s + val)) in
      let* p := rd parts idx in
      let* parts' := wr parts idx (push MaxE p i) in
      place MaxE sums' parts' r
  end.
Definition calc_partitions (NumP MaxE : Z) (sort : list (Z * Z) -> list (Z * Z)) (vals init : list Z) : outcome (list (list Z)) :=
  let ordered := sort (with_ids MaxE vals) in
  let* sums := set_init (zrepeat 0 NumP) 0 init in
  place MaxE sums (zrepeat [] NumP) ordered.
