(* util/fixed_vector.hh: calls of a main program interrupted by a handler that uses the same vector,
   as in Model/Irq.v.  Loading or storing back_idx or one element is one access; taking an address is
   none, and only real accesses can be out of bounds (strict = false in Model/FixedVector.v).
   back_idx is not reduced modulo 2^32: -1 here stands for the huge index it wraps to, and both lie
   outside the array. *)
From Verif.Common Require Import Base.
From Verif.Spec Require Import VectorSpec.
From Verif.Model Require Import FixedVector Irq.

Section Accesses.
Context {T R : Type}.
Notation P := (prog (fvec T) R).
Definition load_n (k : Z -> P) : P := Acc (fun s => Ok (s, k (v_n s))).
Definition store_n (n : Z) (k : P) : P := Acc (fun s => Ok (FVec (v_data s) n, k)).
Definition load_el (i : Z) (k : T -> P) : P := Acc (fun s => let* x := rd (v_data s) i in Ok (s, k x)).
Definition store_el (i : Z) (x : T) (k : P) : P := Acc (fun s => let* d := wr (v_data s) i x in Ok (FVec d (v_n s), k)).
End Accesses.

Section VectorIrq.
Context {T : Type}.
Variables (N : Z) (dflt : T).

Notation P := (prog (fvec T) (vout T)).
(* push_back, lines 36-43 *)
Definition push_prog (x : T) (no yes : P) : P :=
  load_n (fun n => if n >=? N then no else
  load_n (fun i => store_el i x (load_n (fun n => store_n (n + 1) yes)))).
(* the loop of resize, lines 50-52 *)
Fixpoint fill_prog (k : nat) (i : Z) (x : T) (rest : P) : P :=
  match k with O => rest | S k' => store_el i x (fill_prog k' (i + 1) x rest) end.
(* std::move_backward and std::move, one element at a time *)
Fixpoint shift_up (k : nat) (last dlast : Z) (rest : P) : P :=
  match k with
  | O => rest
  | S k' => load_el (last - 1) (fun x => store_el (dlast - 1) x (shift_up k' (last - 1) (dlast - 1) rest))
  end.
Fixpoint shift_down (k : nat) (first dst : Z) (rest : P) : P :=
  match k with
  | O => rest
  | S k' => load_el first (fun x => store_el dst x (shift_down k' (first + 1) (dst + 1) rest))
  end.
(* a loop over begin()..end(), lines 141-155; end() is called once *)
Fixpoint list_prog (k : nat) (i : Z) (seen : list T) : P :=
  match k with O => Ret (VList (rev seen)) | S k' => load_el i (fun x => list_prog k' (i + 1) (x :: seen)) end.

(* lines 21-27, 29-34, 36-43, 46-57, 59-62, 65-73, 75-81, 83-97, 99-112, 114-125, 127-137; back_idx is
   loaded each time the text names it *)
Definition v_main (o : vop T) : P :=
  match o with
  | VPush x => push_prog x (Ret (VBool false)) (Ret (VBool true))
  | VPushOverwrite =>
      load_n (fun n => if n >=? N then Ret (VNum N) else
      load_n (fun idx => load_n (fun n => store_n (n + 1) (Ret (VNum idx)))))
  | VPop =>
      load_n (fun n => if n =? 0 then Ret (VItem dflt) else
      load_n (fun n => store_n (n - 1) (load_n (fun i => load_el i (fun x => Ret (VItem x))))))
  | VBack =>
      load_n (fun n => if n >? 0 then load_n (fun n => load_el (n - 1) (fun x => Ret (VItem x))) else Ret (VItem dflt))
  | VInsert index x =>
      load_n (fun n => if n >=? N then Ret VUnit else
      load_n (fun n => if index >? n then Ret VUnit else
      load_n (fun n => if index =? n then push_prog x (Ret VUnit) (Ret VUnit) else
      load_n (fun l => load_n (fun dl =>
      shift_up (Z.to_nat (l - index)) l (dl + 1) (store_el index x (load_n (fun n => store_n (n + 1) (Ret VUnit)))))))))
  | VErase index =>
      load_n (fun n => if n =? 0 then Ret VUnit else
      load_n (fun n => if index >=? n then Ret VUnit else
      load_n (fun n => if index =? n - 1 then load_n (fun n => store_n (n - 1) (Ret VUnit)) else
      load_n (fun l =>
      shift_down (Z.to_nat (l - (index + 1))) (index + 1) index (load_n (fun n => store_n (n - 1) (Ret VUnit)))))))
  | VEraseRange first last =>
      (* called with iterators of the vector as it is; lines 128-136 *)
      load_n (fun n => if negb ((first <=? n) && (last <=? n)) then Ret VUnit else
      load_n (fun n => if (n =? 0) || (last - first <=? 0) then Ret VUnit else
      load_n (fun e =>
      shift_down (Z.to_nat (e - last)) last first (load_n (fun n => store_n (n - (last - first)) (Ret VUnit))))))
  | VResize num x =>
      let nb := Z.min num N in
      let done := store_n nb (Ret (VBool (num =? nb))) in
      load_n (fun n => if nb >? n then load_n (fun i => fill_prog (Z.to_nat (nb - i)) i x done) else done)
  | VResizeOverwrite num => store_n (Z.min num N) (load_n (fun n => Ret (VBool (num =? n))))
  | VSize => load_n (fun n => Ret (VNum n))
  | VMaxSize => Ret (VNum N)
  | VAvailable => load_n (fun n => Ret (VNum (N - n)))
  | VClear => store_n 0 (Ret VUnit)
  | VContents => load_n (fun n => list_prog (Z.to_nat n) 0 [])
  | VAt i => load_el i (fun x => Ret (VItem x))
  | VSet i x => store_el i x (Ret VUnit)
  end.
End VectorIrq.
