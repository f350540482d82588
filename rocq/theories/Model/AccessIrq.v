(* util/circular_buffer_ext.hh: calls of a main program interrupted by a handler that uses the same
   CircularBufferAccess, as in Model/Irq.v.  Loading or storing rd, wr or one element is one access;
   sz is never stored, so it is loaded together with the position it is compared with. *)
From Verif.Common Require Import Base.
From Verif.Model Require Import CircularExt Irq.

Section AccessIrq.
Context {T : Type}.
Variables (W : Z) (mix : T -> T -> T) (zero : T).
Notation P := (prog (acc T) (@aout T)).
Definition load_rd (k : Z -> Z -> P) : P := Acc (fun s => Ok (s, k (a_rd s) (a_sz s))).
Definition store_rd (r : Z) (k : P) : P := Acc (fun s => Ok (CircularExt.Acc (a_buf s) (a_sz s) r (a_wr s), k)).
Definition load_wr (k : Z -> Z -> P) : P := Acc (fun s => Ok (s, k (a_wr s) (a_sz s))).
Definition store_wr (p : Z) (k : P) : P := Acc (fun s => Ok (CircularExt.Acc (a_buf s) (a_sz s) (a_rd s) p, k)).
Definition load_buf (i : Z) (k : T -> P) : P := Acc (fun s => let* x := rd (a_buf s) i in Ok (s, k x)).
Definition store_buf (i : Z) (x : T) (k : P) : P := Acc (fun s => let* b := wr (a_buf s) i x in Ok (CircularExt.Acc b (a_sz s) (a_rd s) (a_wr s), k)).

(* rd++ or rd--, and where it goes when it is outside *)
Definition next_pos (up : bool) (p : Z) : Z := word W (if up then p + 1 else p - 1).
Definition from_end (up : bool) (sz : Z) : Z := if up then 0 else word W (sz - 1).
(* read and read_reverse, lines 36-58: buf[rd++] stores rd before it loads the element *)
Fixpoint read_prog (up : bool) (n : nat) (got : list T) (wrapped : bool) (k : list T -> bool -> P) : P :=
  match n with
  | O => k (rev got) wrapped
  | S n' =>
      load_rd (fun r _ => store_rd (next_pos up r) (load_buf r (fun d => load_rd (fun r sz =>
      if r >=? sz then store_rd (from_end up sz) (read_prog up n' (d :: got) true k)
      else read_prog up n' (d :: got) wrapped k))))
  end.
(* write and write_reverse, lines 60-84: buf[wr++] = xfade stores wr before the element *)
Fixpoint write_prog (up : bool) (data : list T) (wrapped : bool) (k : bool -> P) : P :=
  match data with
  | [] => k wrapped
  | d :: ds =>
      load_wr (fun i _ => load_buf i (fun old => load_wr (fun j _ => store_wr (next_pos up j) (store_buf j (mix d old) (load_wr (fun p sz =>
      if p >=? sz then store_wr (from_end up sz) (write_prog up ds true k)
      else write_prog up ds wrapped k))))))
  end.
(* clear, lines 30-34 *)
Fixpoint clear_prog (n : nat) (i : Z) : P :=
  match n with O => Ret ANone | S n' => store_buf i zero (clear_prog n' (i + 1)) end.
(* the two comparisons with the marker, lines 86-111 *)
Definition crossed (was is wrapped : bool) : bool := negb (Bool.eqb (negb (Bool.eqb was is)) wrapped).

Definition a_main (o : aop T) : P :=
  match o with
  | ARead n => read_prog true (Z.to_nat n) [] false (fun d w => Ret (AData d w))
  | AReadRev n => read_prog false (Z.to_nat n) [] false (fun d w => Ret (AData d w))
  | AWrite d => write_prog true d false (fun w => Ret (AFlag w))
  | AWriteRev d => write_prog false d false (fun w => Ret (AFlag w))
  | AReadCheck n m => load_rd (fun r0 _ => read_prog true (Z.to_nat n) [] false (fun d w => load_rd (fun r1 _ => Ret (AData d (crossed (r0 <=? m) (r1 <=? m) w)))))
  | AReadRevCheck n m => load_rd (fun r0 _ => read_prog false (Z.to_nat n) [] false (fun d w => load_rd (fun r1 _ => Ret (AData d (crossed (r0 <=? m) (r1 <=? m) w)))))
  | AWriteCheck d m => load_wr (fun p0 _ => write_prog true d false (fun w => load_wr (fun p1 _ => Ret (AFlag (crossed (p0 <? m) (p1 <? m) w)))))
  | AClear => Acc (fun s => Ok (s, clear_prog (Z.to_nat (a_sz s)) 0))
  | ASetRd p => store_rd (word W p) (Ret ANone)
  | ASetWr p => store_wr (word W p) (Ret ANone)
  | AGetRd => load_rd (fun r _ => Ret (APos r))
  | AGetWr => load_wr (fun p _ => Ret (APos p))
  end.
End AccessIrq.
