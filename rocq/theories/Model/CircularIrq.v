(* util/circular_buffer_opt.hh, CircularBufferOpt (circular_buffer.hh has the same text except
   get's result): calls of a main program interrupted by a handler, as in Model/Irq.v. *)
From Verif.Common Require Import Base.
From Verif.Spec Require Import RingSpec IrqSpec.
From Verif.Model Require Import Circular Irq.

Section CircularIrq.
Context {T : Type}.
Variables W cap : Z.

(* the handler's calls, not interrupted; QPut is "if (count() < max_size() - 1) put(x)" *)
Definition cq_step (s : cbuf T) (o : qop T) : outcome (cbuf T * rout T) :=
  match o with
  | QPut x => if cb_count W cap s <? cap - 1 then let* s' := cb_put W cap s x in Ok (s', OBool true) else Ok (s, OBool false)
  | QPutAny x => let* s' := cb_put W cap s x in Ok (s', OUnit)
  | QGet => let* (s', r) := cb_get_opt W cap s in Ok (s', OOpt r)
  | QRemove => Ok (cb_remove_first W cap s, OUnit)
  | QCount => Ok (s, ONum (cb_count W cap s))
  end.

Notation P := (prog (cbuf T) (rout T)).
Definition set_buf (b : list T) (s : cbuf T) : cbuf T := CBuf b (cb_head s) (cb_tail s) (cb_full s).
Definition set_hd (h : Z) (s : cbuf T) : cbuf T := CBuf (cb_buf s) h (cb_tail s) (cb_full s).
Definition set_tl (t : Z) (s : cbuf T) : cbuf T := CBuf (cb_buf s) (cb_head s) t (cb_full s).
Definition set_full (f : bool) (s : cbuf T) : cbuf T := CBuf (cb_buf s) (cb_head s) (cb_tail s) f.
Definition load {A} (f : cbuf T -> A) (k : A -> P) : P := Acc (fun s => Ok (s, k (f s))).
Definition store (f : cbuf T -> cbuf T) (k : P) : P := Acc (fun s => Ok (f s, k)).
Definition load_item (i : Z) (k : T -> P) : P := Acc (fun s => let* v := rd (cb_buf s) i in Ok (s, k v)).
Definition store_item (i : Z) (x : T) (k : P) : P := Acc (fun s => let* b := wr (cb_buf s) i x in Ok (set_buf b s, k)).
(* inc_tail, inc_head, lines 119-127: load and store *)
Definition inc_tail (k : P) : P := load cb_tail (fun t => store (set_tl (inc W cap t)) k).
Definition inc_head (k : P) : P := load cb_head (fun h => store (set_hd (inc W cap h)) k).
(* empty, lines 66-69: full_ first, then head_ == tail_ *)
Definition if_empty (yes no : P) : P :=
  load cb_full (fun f => if f then no else load cb_head (fun h => load cb_tail (fun t => if h =? t then yes else no))).

(* get, lines 26-37; remove_first, lines 47-52; put, lines 16-24; count, lines 84-95: head_ and
   tail_ are read once for the comparison and once for the difference *)
Definition cq_main (o : qop T) : P :=
  match o with
  | QGet => if_empty (Ret (OOpt None)) (load cb_tail (fun i => load_item i (fun v => store (set_full false) (inc_tail (Ret (OOpt (Some v)))))))
  | QRemove => if_empty (Ret OUnit) (store (set_full false) (inc_tail (Ret OUnit)))
  | QPutAny x =>
      let finish := inc_head (load cb_head (fun h => load cb_tail (fun t => store (set_full (h =? t)) (Ret OUnit)))) in
      load cb_head (fun h => store_item h x (load cb_full (fun f => if f then inc_tail finish else finish)))
  | QCount =>
      load cb_full (fun f => if f then Ret (ONum cap) else
      load cb_head (fun h => load cb_tail (fun t =>
      if h >=? t then load cb_head (fun h => load cb_tail (fun t => Ret (ONum (word W (h - t)))))
      else load cb_head (fun h => load cb_tail (fun t => Ret (ONum (word W (cap + h - t))))))))
  | QPut x => Acc (fun s => let* (s', r) := cq_step s (QPut x) in Ok (s', Ret r))
  end.
End CircularIrq.
