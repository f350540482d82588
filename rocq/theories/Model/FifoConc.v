(* Model of util/lockfree_fifo_spsc.hh and util/lockfree_fifo_spsc_dyn.hh used by
   one producer and one consumer thread, as interleavings of single shared-memory
   accesses (sequential consistency; memory orders are the subject of
   Model/FifoWeak.v).  One [Step] performs exactly one load or store of head_,
   tail_ or a buffer slot. *)
From Verif.Common Require Import Base.
From Verif.Spec Require Import Queue Linearizable.

Section Conc.
Context {T : Type}.
Variable W : Z.
Variable dflt : T.
Variable slot : Z -> Z -> outcome Z.

(* Program counters inside a call [o].  [PcRet r]: about to return [r]. *)
Inductive pc :=
| PcIdle
| PcStart (o : qop T)                       (* nothing accessed yet *)
| PcFirst (o : qop T) (v : Z)               (* own (first) counter loaded: v *)
| PcSlot (o : qop T) (v : Z)                (* check passed; about to access slot of v *)
| PcMoveOut (o : qop T) (v : Z) (item : T)  (* get_move: slot read, about to leave the residue *)
| PcStore (o : qop T) (v : Z) (r : qout T)  (* about to store the counter value v *)
| PcRet (r : qout T).

(* lockfree_fifo_spsc.hh:140-142 / spsc_dyn.hh:160-163, plus the two threads *)
Record cstate := CState {
  c_max : Z; c_head : Z; c_tail : Z; c_buf : list T; c_prod : pc; c_cons : pc }.

Definition set_prod (s : cstate) (p : pc) : cstate :=
  CState (c_max s) (c_head s) (c_tail s) (c_buf s) p (c_cons s).
Definition set_cons (s : cstate) (p : pc) : cstate :=
  CState (c_max s) (c_head s) (c_tail s) (c_buf s) (c_prod s) p.
Definition set_pc (t : tid) (s : cstate) (p : pc) : cstate :=
  match t with Prod => set_prod s p | Cons => set_cons s p end.
Definition get_pc (t : tid) (s : cstate) : pc :=
  match t with Prod => c_prod s | Cons => c_cons s end.

(* The calls each side may make (the "Producer"/"Consumer" sections of the class);
   reset: "can be done by consumer or producer" (spsc.hh:129). *)
Definition allowed (t : tid) (o : qop T) : bool :=
  match t, o with
  | Prod, (Put _ | NumFree | Full | Reset) => true
  | Cons, (Get | GetMove _ | GetOrDefault | RemoveFirst | NumFilled | Empty | Reset) => true
  | _, _ => false
  end.

Definition item_result (o : qop T) (item : option T) : qout T :=
  match o with
  | GetOrDefault => RItem (match item with Some x => x | None => dflt end)  (* spsc.hh:94-96 *)
  | RemoveFirst => RUnit
  | _ => ROpt item
  end.

(* One access by thread [t] inside a call. *)
Definition tstep (t : tid) (s : cstate) : outcome (cstate * list (event T)) :=
  let go p := Ok (set_pc t s p, []) in
  match get_pc t s with
  | PcIdle => Ok (s, [])
  (* first load of each method *)
  | PcStart o =>
      match o with
      | Put _ => go (PcFirst o (c_head s))                 (* spsc.hh:34: head_.load *)
      | NumFree | Full => go (PcFirst o (c_head s))        (* spsc.hh:48: head_.load *)
      | Get | GetMove _ | GetOrDefault | RemoveFirst => go (PcFirst o (c_tail s))  (* spsc.hh:67,81,99 *)
      | NumFilled | Empty => go (PcFirst o (c_tail s))     (* spsc.hh:107: tail_.load (order unspecified) *)
      | Reset => go (PcStore o (c_head s) RUnit)           (* spsc.hh:131: head_.load *)
      | MaxSize | Resize _ => Ok (s, [])
      end
  (* second load and the comparison *)
  | PcFirst o v =>
      match o with
      | Put _ => if word W (v - c_tail s) =? c_max s       (* spsc.hh:36 *)
                 then go (PcRet (RBool false)) else go (PcSlot o v)
      | NumFree => go (PcRet (RNum (word W (c_max s - word W (v - c_tail s)))))     (* spsc.hh:48 *)
      | Full => go (PcRet (RBool (word W (c_max s - word W (v - c_tail s)) =? 0)))  (* spsc.hh:60 *)
      | Get | GetMove _ | GetOrDefault =>
          if v =? c_head s then go (PcRet (item_result o None)) else go (PcSlot o v)   (* spsc.hh:69,83 *)
      | RemoveFirst =>
          if negb (v =? c_head s) then go (PcStore o (word W (v + 1)) RUnit)         (* spsc.hh:101-102 *)
          else go (PcRet RUnit)
      | NumFilled => go (PcRet (RNum (word W (c_head s - v))))                       (* spsc.hh:107 *)
      | Empty => go (PcRet (RBool (word W (c_head s - v) =? 0)))                     (* spsc.hh:111 *)
      | _ => Ok (s, [])
      end
  (* buffer access *)
  | PcSlot o v =>
      match o with
      | Put x =>                                                                     (* spsc.hh:39-40 *)
          let* i := slot (c_max s) v in
          let* b := wr (c_buf s) i x in
          Ok (set_pc t (CState (c_max s) (c_head s) (c_tail s) b (c_prod s) (c_cons s))
                     (PcStore o (word W (v + 1)) (RBool true)), [])
      | Get | GetOrDefault =>                                                        (* spsc.hh:73-74 *)
          let* i := slot (c_max s) v in
          let* item := rd (c_buf s) i in
          go (PcStore o (word W (v + 1)) (item_result o (Some item)))
      | GetMove _ =>                                                                 (* spsc.hh:87 *)
          let* i := slot (c_max s) v in
          let* item := rd (c_buf s) i in
          go (PcMoveOut o v item)
      | _ => Ok (s, [])
      end
  | PcMoveOut o v item =>                                                            (* spsc.hh:87-88 *)
      match o with
      | GetMove residue =>
          let* i := slot (c_max s) v in
          let* b := wr (c_buf s) i residue in
          Ok (set_pc t (CState (c_max s) (c_head s) (c_tail s) b (c_prod s) (c_cons s))
                     (PcStore o (word W (v + 1)) (ROpt (Some item))), [])
      | _ => Ok (s, [])
      end
  (* the publishing store: head_ for put (spsc.hh:42), tail_ for everything else
     (spsc.hh:76,90,102,131) *)
  | PcStore o v r =>
      match o with
      | Put _ => Ok (set_pc t (CState (c_max s) v (c_tail s) (c_buf s) (c_prod s) (c_cons s)) (PcRet r), [])
      | _ => Ok (set_pc t (CState (c_max s) (c_head s) v (c_buf s) (c_prod s) (c_cons s)) (PcRet r), [])
      end
  | PcRet r => Ok (set_pc t s PcIdle, [ERes t r])
  end.

(* A schedule is a list of actions; an action that is not enabled does nothing. *)
Inductive action := Invoke (t : tid) (o : qop T) | Step (t : tid).

Definition cstep (s : cstate) (a : action) : outcome (cstate * list (event T)) :=
  match a with
  | Invoke t o =>
      match get_pc t s with
      | PcIdle => if allowed t o then Ok (set_pc t s (PcStart o), [EInv t o]) else Ok (s, [])
      | _ => Ok (s, [])
      end
  | Step t => tstep t s
  end.

Fixpoint crun (s : cstate) (sched : list action) : outcome (cstate * list (event T)) :=
  match sched with
  | [] => Ok (s, [])
  | a :: r =>
      let* (s1, e1) := cstep s a in
      let* (s2, e2) := crun s1 r in
      Ok (s2, e1 ++ e2)
  end.

Definition cinit (cap h : Z) (buf : list T) : cstate := CState cap h h buf PcIdle PcIdle.

(* The slot a thread is about to access non-atomically, if any. *)
Definition slot_access (t : tid) (s : cstate) : option (outcome Z) :=
  match get_pc t s with
  | PcSlot _ v | PcMoveOut _ v _ => Some (slot (c_max s) v)
  | _ => None
  end.

Definition action_ok (prod_may_reset : bool) (a : action) : bool :=
  match a with Invoke Prod Reset => prod_may_reset | _ => true end.

Fixpoint invoked_puts (sched : list action) : Z :=
  match sched with
  | [] => 0
  | Invoke _ (Put _) :: r => 1 + invoked_puts r
  | _ :: r => invoked_puts r
  end.

End Conc.
Arguments pc : clear implicits.
Arguments cstate : clear implicits.
Arguments action : clear implicits.
