(* util/circular_stack.hh: calls of a main program interrupted by a handler that uses the same stack,
   as in Model/Irq.v.  Loading or storing top_idx, bottom_idx, full or one element is one access, and
   the members are loaded each time the text names them. *)
From Verif.Common Require Import Base.
From Verif.Spec Require Import RingSpec.
From Verif.Model Require Import Circular Irq.

Section StackIrq.
Context {T : Type}.
Variables (cap : Z) (dflt : T).
Notation P := (prog (cstk T) (rout T)).
Definition ld_top (k : Z -> P) : P := Acc (fun s => Ok (s, k (st_top s))).
Definition ld_bot (k : Z -> P) : P := Acc (fun s => Ok (s, k (st_bot s))).
Definition ld_full (k : bool -> P) : P := Acc (fun s => Ok (s, k (st_full s))).
Definition ld_el (i : Z) (k : T -> P) : P := Acc (fun s => let* x := rd (st_data s) i in Ok (s, k x)).
Definition sto_top (t : Z) (k : P) : P := Acc (fun s => Ok (CStk (st_data s) t (st_bot s) (st_full s), k)).
Definition sto_bot (b : Z) (k : P) : P := Acc (fun s => Ok (CStk (st_data s) (st_top s) b (st_full s), k)).
Definition sto_full (f : bool) (k : P) : P := Acc (fun s => Ok (CStk (st_data s) (st_top s) (st_bot s) f, k)).
Definition sto_el (i : Z) (x : T) (k : P) : P := Acc (fun s => let* d := wr (st_data s) i x in Ok (CStk d (st_top s) (st_bot s) (st_full s), k)).

(* size, lines 77-84 *)
Definition size_prog (k : Z -> P) : P :=
  ld_full (fun f => if f then k cap else
  ld_top (fun t => ld_bot (fun b =>
  if t >=? b then ld_top (fun t => ld_bot (fun b => k (t - b)))
  else ld_top (fun t => ld_bot (fun b => k (t + cap - b)))))).
(* push_back, lines 27-39 *)
Definition push_prog (x : T) : P :=
  let fin := ld_top (fun t => ld_bot (fun b => if t =? b then sto_full true (Ret OUnit) else Ret OUnit)) in
  let bottom := ld_full (fun f => if f then ld_top (fun t => sto_bot t fin) else fin) in
  ld_top (fun i => sto_el i x (ld_top (fun t => sto_top (t + 1) (ld_top (fun t => if t >=? cap then sto_top 0 bottom else bottom))))).
(* pop_back, lines 41-53, and pop_back_or_zero, lines 63-75 *)
Definition pop_prog (none : rout T) (some : T -> rout T) : P :=
  let fin := sto_full false (ld_top (fun i => ld_el i (fun x => Ret (some x)))) in
  size_prog (fun n => if n =? 0 then Ret none else
  ld_top (fun t => if t =? 0 then sto_top (cap - 1) fin else ld_top (fun t => sto_top (t - 1) fin))).
(* back, lines 55-62; max_size, lines 86-88; clear, lines 90-94; empty, lines 96-102 *)
Definition stk_main (o : sop T) : P :=
  match o with
  | SPush x => push_prog x
  | SPop => pop_prog (OOpt None) (fun x => OOpt (Some x))
  | SPopOrZero => pop_prog (OItem dflt) OItem
  | SBack =>
      size_prog (fun n => if n =? 0 then Ret (OOpt None) else
      ld_top (fun t => if t =? 0 then ld_el (cap - 1) (fun x => Ret (OOpt (Some x)))
                       else ld_top (fun t => ld_el (t - 1) (fun x => Ret (OOpt (Some x))))))
  | SSize => size_prog (fun n => Ret (ONum n))
  | SMaxSize => Ret (ONum cap)
  | SClear => sto_top 0 (sto_bot 0 (sto_full false (Ret OUnit)))
  | SEmpty => ld_full (fun f => if f then Ret (OBool false) else ld_top (fun t => ld_bot (fun b => Ret (OBool (t =? b)))))
  end.
End StackIrq.
