(* A polling consumer (Model/FifoPolled.v) of util/lockfree_fifo_spsc.hh or
   util/lockfree_fifo_spsc_dyn.hh that also skips ahead with set_read_offset
   (lockfree_fifo_spsc.hh:119-123, lockfree_fifo_spsc_dyn.hh:139-143), in the
   weak-memory model of Model/FifoWeak.v.  set_read_offset is two accesses: the
   load of head_ and the store of tail_; the producer may run between them. *)
From Verif.Common Require Import Base.
From Verif.Spec Require Import FifoLog PolledLog SeekLog.
From Verif.Model Require Import FifoWeak FifoPolled.

Section Seek.
Context {T : Type}.
Variable W cap : Z.
Variable slot : Z -> Z -> outcome Z.
Variable ord : orders.
(* Orders of the two accesses of set_read_offset: acquire load, release store in the source. *)
Variables load_acq store_rel : bool.
(* How many items more than announced the client may ask to keep: 0 is the discipline. *)
Variable slack : Z.

(* The queue with the announced count, and a set_read_offset under way: its argument and the counter it loaded. *)
Record seeker := Seeker { k_pol : polled T; k_pend : option (Z * Z) }.

Inductive saction :=
| SeekLoad (off j : Z)        (* set_read_offset(off) is called and its load of head_ reads message j (line 120) *)
| SeekStore                   (* lines 121-122 *)
| Plain (a : paction T).      (* any other call or access *)

Definition producer_action (a : paction T) : bool :=
  match a with Base (PBegin _) | Base (PStep _) => true | _ => false end.

(* One action; while set_read_offset is under way the consumer does nothing else.
   Afterwards the client counts on the [off] items it asked to keep. *)
Definition seek_step (s : seeker) (a : saction) : outcome (seeker * list (sevent T)) :=
  let w := p_mem (k_pol s) in
  match a, k_pend s with
  | SeekLoad off j, None =>                               (* line 120: head_.load(acquire) *)
      if idle (cpc w) && (0 <=? off) && (off <=? p_left (k_pol s) + slack) then
        match load_head (cv w) load_acq w j, znth (m_tail w) (zlen (m_tail w) - 1) with
        | Some (h, v), Some (t, _) =>
            let n := word W (h - t) in
            Ok (Seeker (Polled (with_c w v WIdle) n) (Some (off, h)), [Saw off n])
        | _, _ => Ok (s, [])
        end
      else Ok (s, [])
  | SeekStore, Some (off, h) =>
      if off <=? h                                        (* line 121 *)
      then Ok (Seeker (Polled (store_tail w (word W (h - off)) store_rel) off) None, [Dropped off])   (* line 122 *)
      else Ok (Seeker (Polled w off) None, [Ignored off])
  | Plain a, None =>
      let* (p, es) := polled_step W cap slot ord 0 (k_pol s) a in
      Ok (Seeker p None, map SE es)
  | Plain a, Some c =>
      if producer_action a then
        let* (p, es) := polled_step W cap slot ord 0 (k_pol s) a in
        Ok (Seeker p (Some c), map SE es)
      else Ok (s, [])
  | _, _ => Ok (s, [])
  end.

Fixpoint seek_run (s : seeker) (l : list saction) : outcome (seeker * list (sevent T)) :=
  match l with
  | [] => Ok (s, [])
  | a :: r =>
      let* (s1, e1) := seek_step s a in
      let* (s2, e2) := seek_run s1 r in
      Ok (s2, e1 ++ e2)
  end.

Definition seek_init (h : Z) (buf : list T) : seeker := Seeker (polled_init cap h buf) None.
End Seek.
Arguments seeker : clear implicits.
Arguments saction : clear implicits.

(* Number of put calls begun in a schedule. *)
Fixpoint seek_puts {T} (l : list (saction T)) : Z :=
  match l with
  | [] => 0
  | Plain (Base (PBegin _)) :: r => 1 + seek_puts r
  | _ :: r => seek_puts r
  end.
