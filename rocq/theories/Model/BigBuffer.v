(* util/big_buffer.hh: BigBuffer<T> for T an array of [n] elements of trivial type. *)
From Verif.Common Require Import Base.
From Verif.Spec Require Import HeapSpec.

Section Big.
Context {E : Type}.
Variable n : Z.
(* The variables with their pointer [data] (line 11), and the blocks of the heap that are
   allocated.  Addresses are not used again after delete. *)
Record bigheap := BH { bh_vars : Z -> option Z; bh_heap : Z -> option (list (option E)); bh_next : Z }.
Definition bh0 : bigheap := BH (fun _ => None) (fun _ => None) 0.
Definition deref (s : bigheap) (a : Z) : outcome (list (option E)) := match bh_heap s a with Some l => Ok l | None => UB BadDeref end.
Definition bb_step (s : bigheap) (o : bop E) : outcome (bigheap * option E) :=
  match o with
  (* lines 14-16: new T leaves the elements uninitialised *)
  | BNew v =>
      match bh_vars s v with
      | None => Ok (BH (set_at (bh_vars s) v (Some (bh_next s))) (set_at (bh_heap s) (bh_next s) (Some (zrepeat None n))) (bh_next s + 1), None)
      | Some _ => UB BadDeref
      end
  (* lines 17-19: delete of a pointer that is not allocated is undefined *)
  | BEnd v =>
      match bh_vars s v with
      | Some a => let* _ := deref s a in Ok (BH (set_at (bh_vars s) v None) (set_at (bh_heap s) a None) (bh_next s), None)
      | None => UB BadDeref
      end
  (* lines 25-27 *)
  | BSet v i x =>
      match bh_vars s v with
      | Some a => let* l := deref s a in let* l' := wr l i (Some x) in Ok (BH (bh_vars s) (set_at (bh_heap s) a (Some l')) (bh_next s), None)
      | None => UB BadDeref
      end
  (* lines 30-32 *)
  | BGet v i =>
      match bh_vars s v with
      | Some a => let* l := deref s a in let* c := rd l i in match c with Some x => Ok (s, Some x) | None => UB Indeterminate end
      | None => UB BadDeref
      end
  (* the implicit copy constructor and copy assignment copy the pointer; the destructor
     suppresses the implicit moves *)
  | BCopy v w =>
      match bh_vars s v, bh_vars s w with
      | None, Some a => Ok (BH (set_at (bh_vars s) v (Some a)) (bh_heap s) (bh_next s), None)
      | _, _ => UB BadDeref
      end
  | BAssign v w =>
      match bh_vars s v, bh_vars s w with
      | Some _, Some a => Ok (BH (set_at (bh_vars s) v (Some a)) (bh_heap s) (bh_next s), None)
      | _, _ => UB BadDeref
      end
  end.
End Big.
Arguments bigheap : clear implicits.
