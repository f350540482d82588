(* A consumer of util/lockfree_fifo_spsc.hh that polls: it calls num_filled()
   (lines 106-108; empty(), 110-112, is the same load) and then takes at most as
   many items as it was told are there, with get, get_move (lines 66-92) or
   remove_first (98-103).  The producer calls put (33-44) at any time.  The FIFO
   itself is the weak-memory model of Model/FifoWeak.v with the memory orders
   written in the source.
   Simplification: the consumer owns tail_, so the relaxed load of tail_ in
   num_filled (line 107) reads the newest value it stored. *)
From Verif.Common Require Import Base.
From Verif.Spec Require Import FifoLog PolledLog.
From Verif.Model Require Import FifoWeak.

Section Polled.
Context {T : Type}.
Variable W cap : Z.
Variable slot : Z -> Z -> outcome Z.
Variable ord : orders.
(* How many items more than announced the client may take: 0 is the discipline. *)
Variable slack : Z.

(* The queue and the number of items the consumer was told about and has not taken. *)
Record polled := Polled { p_mem : wstate T; p_left : Z }.

Inductive paction :=
| Count (j : Z)               (* num_filled(), its load of head_ reading message j *)
| Base (a : waction T).       (* any other call or access *)

(* lines 106-108: head_.load(acquire) - tail_.load(relaxed) in size_t arithmetic *)
Definition count (s : wstate T) (j : Z) : option (Z * view) :=
  match load_head (cv s) true s j, znth (m_tail s) (zlen (m_tail s) - 1) with
  | Some (h, v), Some (t, _) => Some (word W (h - t), v)
  | _, _ => None
  end.

Definition idle (p : wpc T) : bool := match p with WIdle => true | _ => false end.
Definition asking (p : wpc T) : bool := match p with WGet2 _ => true | _ => false end.

(* One action.  A get begins only while announced items are left (or [slack] more); reset() is not called (see C03 for it). *)
Definition polled_step (s : polled) (a : paction) : outcome (polled * list (pevent T)) :=
  let w := p_mem s in
  match a with
  | Count j =>
      if idle (cpc w) then
        match count w j with
        | Some (n, v) => Ok (Polled (with_c w v WIdle) n, [Counted n])
        | None => Ok (s, [])
        end
      else Ok (s, [])
  | Base CGet =>
      if idle (cpc w) && (- slack <? p_left s) then
        let* (w', es) := wstep W cap slot ord w CGet in
        Ok (Polled w' (p_left s - 1), map Eff es)
      else Ok (s, [])
  | Base CRemove =>
      if idle (cpc w) then
        let* (w', es) := wstep W cap slot ord w CRemove in
        Ok (Polled w' (Z.max 0 (p_left s - 1)), map Eff es)
      else Ok (s, [])
  | Base CReset => Ok (s, [])
  | Base a =>
      let* (w', es) := wstep W cap slot ord w a in
      Ok (Polled w' (p_left s),
          (if asking (cpc w) && idle (cpc w') then [CameBackEmpty] else []) ++ map Eff es)
  end.

Fixpoint polled_run (s : polled) (l : list paction) : outcome (polled * list (pevent T)) :=
  match l with
  | [] => Ok (s, [])
  | a :: r =>
      let* (s1, e1) := polled_step s a in
      let* (s2, e2) := polled_run s1 r in
      Ok (s2, e1 ++ e2)
  end.

Definition polled_init (h : Z) (buf : list T) : polled := Polled (winit cap h buf) 0.
End Polled.
Arguments polled : clear implicits.
Arguments paction : clear implicits.

(* Number of put calls begun in a schedule. *)
Fixpoint polled_puts {T} (l : list (paction T)) : Z :=
  match l with
  | [] => 0
  | Base (PBegin _) :: r => 1 + polled_puts r
  | _ :: r => polled_puts r
  end.
