(* util/pool.hh: calls of a main program interrupted by a handler that uses the same pool, as in
   Model/Irq.v.  used and data of an entry are one access each; comparing addresses is none. *)
From Verif.Common Require Import Base.
From Verif.Spec Require Import PoolSpec.
From Verif.Model Require Import Pool Irq.

(* The objects that are live, by slot. *)
Definition live_slots {T} (s : list (entry T)) : list (option T) := map (fun e => if e_used e then Some (e_data e) else None) s.

Section PoolIrq.
Context {T : Type}.
Variables (dflt : T) (N : Z).

Notation P := (prog (list (entry T)) (pout T)).
Definition load_used (i : Z) (k : bool -> P) : P := Acc (fun s => let* e := rd s i in Ok (s, k (e_used e))).
Definition store_used (i : Z) (b : bool) (k : P) : P := Acc (fun s => let* e := rd s i in let* s' := wr s i (Entry (e_data e) b) in Ok (s', k)).
Definition store_data (i : Z) (x : T) (k : P) : P := Acc (fun s => let* e := rd s i in let* s' := wr s i (Entry x (e_used e)) in Ok (s', k)).

(* create, lines 23-33, and create_for_overwrite, lines 37-46; [n] entries are left from entry [i] on *)
Fixpoint create_from (ow : bool) (n : nat) (i : Z) : P :=
  match n with
  | O => Ret (PoPtr None)
  | S n' =>
      load_used i (fun used =>
        if negb used then store_used i true (if ow then Ret (PoPtr (Some i)) else store_data i dflt (Ret (PoPtr (Some i))))
        else create_from ow n' (i + 1))
  end.
(* destroy, lines 49-57 *)
Fixpoint destroy_from (p : ptr) (n : nat) (i : Z) : P :=
  match n with
  | O => Ret (PoBool false)
  | S n' =>
      load_used i (fun used =>
        if used && (match p with Slot j => i =? j | Foreign => false end) then store_used i false (Ret (PoBool true))
        else destroy_from p n' (i + 1))
  end.
(* reading and writing an object is one access *)
Definition p_main (o : pop T) : P :=
  match o with
  | PCreate => create_from false (Z.to_nat N) 0
  | PCreateOverwrite => create_from true (Z.to_nat N) 0
  | PDestroy p => destroy_from p (Z.to_nat N) 0
  | o => Acc (fun s => let* (s', r) := p_step dflt s o in Ok (s', Ret r))
  end.
End PoolIrq.
