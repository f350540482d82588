(* Weak-memory model of util/lockfree_fifo_spsc.hh (lines 33-44, 66-103, 130-132).
   Each atomic counter is a history of messages (value, view); a thread may read
   any message not older than what it already knows.  An acquire load of a
   message stored with release joins the stored view; relaxed accesses transfer only the
   location's own timestamp (C++20 rules, no release sequences of plain
   stores).  Buffer slots are non-atomic: each keeps the epoch of the last
   producer access and of the last consumer access, and an access that is not
   ordered after the other thread's last access is the outcome UB DataRace.
   Simplification: executions are generated in program order (no load
   buffering); atomic_signal_fence is a compiler fence and has no effect here. *)
From Verif.Common Require Import Base.
From Verif.Spec Require Import FifoLog.

Record view := View {
  v_head : Z;   (* newest known message of head_ *)
  v_tail : Z;   (* newest known message of tail_ *)
  v_pw : Z;     (* producer buffer accesses that happened before *)
  v_cr : Z }.   (* consumer buffer accesses that happened before *)

Definition vbot : view := View 0 0 0 0.
Definition vjoin (a b : view) : view :=
  View (Z.max (v_head a) (v_head b)) (Z.max (v_tail a) (v_tail b))
       (Z.max (v_pw a) (v_pw b)) (Z.max (v_cr a) (v_cr b)).

(* Memory orders of the accesses, as written in the source or varied. *)
Record orders := Orders {
  put_tail_acq : bool;     (* spsc.hh:36  tail_.load(acquire) *)
  put_head_rel : bool;     (* spsc.hh:42  head_.store(release) *)
  get_head_acq : bool;     (* spsc.hh:69,83  head_.load(relaxed) *)
  get_tail_rel : bool;     (* spsc.hh:76,90,102  tail_.store(release) *)
  reset_tail_rel : bool }. (* spsc.hh:131  tail_.store(relaxed) *)

(* The orders in the source. *)
Definition code_orders : orders := Orders true true false true false.
(* The source with acquire at lines 69 and 83 and a release store at line 131. *)
Definition fixed_orders : orders := Orders true true true true true.

Section Weak.
Context {T : Type}.
Variable W cap : Z.
Variable slot : Z -> Z -> outcome Z.
Variable ord : orders.

Inductive wpc :=
| WIdle
| WPut1 (x : T)              (* put: before head_.load *)
| WPut2 (x : T) (h : Z)      (* before tail_.load *)
| WPut3 (x : T) (h : Z)      (* before the buffer write *)
| WPut4 (x : T) (h : Z)      (* before head_.store *)
| WGet1                      (* get/get_move: before tail_.load *)
| WGet2 (t : Z)              (* before head_.load *)
| WGet3 (t : Z)              (* before the buffer access *)
| WGet4 (t : Z) (x : T)      (* before tail_.store *)
| WRem1 | WRem2 (t : Z) | WRem3 (t : Z)      (* remove_first *)
| WReset1 | WReset2 (h : Z).                 (* reset by the consumer *)

Record wstate := WState {
  m_head : list (Z * view); m_tail : list (Z * view);
  w_buf : list T; w_wst : list Z; w_rst : list Z;
  pv : view; cv : view; ppc : wpc; cpc : wpc }.

Inductive waction :=
| PBegin (x : T)              (* producer calls put(x) *)
| CGet | CRemove | CReset     (* consumer calls *)
| PStep (j : Z)               (* one access of the producer, reading message j if it is a load *)
| CStep (j : Z) (residue : option T).  (* residue: what get_move leaves behind, None for get *)

(* Loading message [j]: allowed if it exists and is not older than known. *)
Definition load_head (v : view) (acq : bool) (s : wstate) (j : Z) : option (Z * view) :=
  if j <? v_head v then None
  else match znth (m_head s) j with
       | None => None
       | Some (x, mv) =>
           let v1 := View j (v_tail v) (v_pw v) (v_cr v) in
           Some (x, if acq then vjoin v1 mv else v1)
       end.
Definition load_tail (v : view) (acq : bool) (s : wstate) (j : Z) : option (Z * view) :=
  if j <? v_tail v then None
  else match znth (m_tail s) j with
       | None => None
       | Some (x, mv) =>
           let v1 := View (v_head v) j (v_pw v) (v_cr v) in
           Some (x, if acq then vjoin v1 mv else v1)
       end.

Definition with_p (s : wstate) (v : view) (p : wpc) : wstate :=
  WState (m_head s) (m_tail s) (w_buf s) (w_wst s) (w_rst s) v (cv s) p (cpc s).
Definition with_c (s : wstate) (v : view) (p : wpc) : wstate :=
  WState (m_head s) (m_tail s) (w_buf s) (w_wst s) (w_rst s) (pv s) v (ppc s) p.

(* head_.store(x) by the producer *)
Definition store_head (s : wstate) (x : Z) (rel : bool) : wstate :=
  let ts := zlen (m_head s) in
  let v := View ts (v_tail (pv s)) (v_pw (pv s)) (v_cr (pv s)) in
  let mv := if rel then v else View ts 0 0 0 in
  WState (m_head s ++ [(x, mv)]) (m_tail s) (w_buf s) (w_wst s) (w_rst s) v (cv s) WIdle (cpc s).
(* tail_.store(x) by the consumer *)
Definition store_tail (s : wstate) (x : Z) (rel : bool) : wstate :=
  let ts := zlen (m_tail s) in
  let v := View (v_head (cv s)) ts (v_pw (cv s)) (v_cr (cv s)) in
  let mv := if rel then v else View 0 ts 0 0 in
  WState (m_head s) (m_tail s ++ [(x, mv)]) (w_buf s) (w_wst s) (w_rst s) (pv s) v (ppc s) WIdle.

(* buf_[...] = item, line 39: a write by the producer *)
Definition write_slot (s : wstate) (i : Z) (x : T) (p : wpc) : outcome wstate :=
  let* rst := rd (w_rst s) i in
  if v_cr (pv s) <? rst then UB DataRace
  else
    let e := v_pw (pv s) + 1 in
    let* b := wr (w_buf s) i x in
    let* ws := wr (w_wst s) i e in
    Ok (WState (m_head s) (m_tail s) b ws (w_rst s)
               (View (v_head (pv s)) (v_tail (pv s)) e (v_cr (pv s))) (cv s) p (cpc s)).

(* lines 73 / 87: a read (get) or read and overwrite (get_move) by the consumer *)
Definition take_slot (s : wstate) (i : Z) (residue : option T) : outcome (wstate * T) :=
  let* wst := rd (w_wst s) i in
  if v_pw (cv s) <? wst then UB DataRace
  else
    let e := v_cr (cv s) + 1 in
    let* x := rd (w_buf s) i in
    let* b := match residue with Some r => wr (w_buf s) i r | None => Ok (w_buf s) end in
    let* rs := wr (w_rst s) i e in
    Ok (WState (m_head s) (m_tail s) b (w_wst s) rs (pv s)
               (View (v_head (cv s)) (v_tail (cv s)) (v_pw (cv s)) e) (ppc s) (cpc s), x).

Definition pstep (s : wstate) (j : Z) : outcome (wstate * list (effect T)) :=
  match ppc s with
  | WPut1 x =>                                            (* line 34 *)
      match load_head (pv s) false s j with
      | Some (h, v) => Ok (with_p s v (WPut2 x h), [])
      | None => Ok (s, [])
      end
  | WPut2 x h =>                                          (* line 36 *)
      match load_tail (pv s) (put_tail_acq ord) s j with
      | Some (t, v) =>
          if word W (h - t) =? cap then Ok (with_p s v WIdle, [])
          else Ok (with_p s v (WPut3 x h), [])
      | None => Ok (s, [])
      end
  | WPut3 x h =>                                          (* line 39 *)
      let* i := slot cap h in
      let* s' := write_slot s i x (WPut4 x h) in
      Ok (s', [])
  | WPut4 x h =>                                          (* lines 40-42 *)
      Ok (store_head s (word W (h + 1)) (put_head_rel ord), [EffPut x])
  | _ => Ok (s, [])
  end.

Definition cstepw (s : wstate) (j : Z) (residue : option T) : outcome (wstate * list (effect T)) :=
  match cpc s with
  | WGet1 =>                                              (* lines 67, 81 *)
      match load_tail (cv s) false s j with
      | Some (t, v) => Ok (with_c s v (WGet2 t), [])
      | None => Ok (s, [])
      end
  | WGet2 t =>                                            (* lines 69, 83 *)
      match load_head (cv s) (get_head_acq ord) s j with
      | Some (h, v) => if t =? h then Ok (with_c s v WIdle, []) else Ok (with_c s v (WGet3 t), [])
      | None => Ok (s, [])
      end
  | WGet3 t =>                                            (* lines 73, 87 *)
      let* i := slot cap t in
      let* (s', x) := take_slot s i residue in
      Ok (with_c s' (cv s') (WGet4 t x), [])
  | WGet4 t x =>                                          (* lines 74-76, 88-90 *)
      Ok (store_tail s (word W (t + 1)) (get_tail_rel ord), [EffGot x])
  | WRem1 =>                                              (* line 99 *)
      match load_tail (cv s) false s j with
      | Some (t, v) => Ok (with_c s v (WRem2 t), [])
      | None => Ok (s, [])
      end
  | WRem2 t =>                                            (* line 101: relaxed *)
      match load_head (cv s) false s j with
      | Some (h, v) => if t =? h then Ok (with_c s v WIdle, []) else Ok (with_c s v (WRem3 t), [])
      | None => Ok (s, [])
      end
  | WRem3 t => Ok (store_tail s (word W (t + 1)) (get_tail_rel ord), [EffSkip 1])   (* line 102 *)
  | WReset1 =>                                            (* line 131: head_.load(relaxed) *)
      match load_head (cv s) false s j with
      | Some (h, v) => Ok (with_c s v (WReset2 h), [])
      | None => Ok (s, [])
      end
  | WReset2 h =>                                          (* line 131: tail_.store(relaxed) *)
      match znth (m_tail s) (zlen (m_tail s) - 1) with
      | Some (t, _) => Ok (store_tail s h (reset_tail_rel ord), [EffSkip (word W (h - t))])
      | None => UB OutOfBounds
      end
  | _ => Ok (s, [])
  end.

Definition wstep (s : wstate) (a : waction) : outcome (wstate * list (effect T)) :=
  match a with
  | PBegin x => match ppc s with WIdle => Ok (with_p s (pv s) (WPut1 x), []) | _ => Ok (s, []) end
  | CGet => match cpc s with WIdle => Ok (with_c s (cv s) WGet1, []) | _ => Ok (s, []) end
  | CRemove => match cpc s with WIdle => Ok (with_c s (cv s) WRem1, []) | _ => Ok (s, []) end
  | CReset => match cpc s with WIdle => Ok (with_c s (cv s) WReset1, []) | _ => Ok (s, []) end
  | PStep j => pstep s j
  | CStep j r => cstepw s j r
  end.

Fixpoint wrun (s : wstate) (l : list waction) : outcome (wstate * list (effect T)) :=
  match l with
  | [] => Ok (s, [])
  | a :: r =>
      let* (s1, e1) := wstep s a in
      let* (s2, e2) := wrun s1 r in
      Ok (s2, e1 ++ e2)
  end.

(* Freshly constructed object, published to both threads before they start. *)
Definition winit (h : Z) (buf : list T) : wstate :=
  WState [(h, vbot)] [(h, vbot)] buf (zrepeat 0 cap) (zrepeat 0 cap) vbot vbot WIdle WIdle.

End Weak.
Arguments wpc : clear implicits.
Arguments wstate : clear implicits.
Arguments waction : clear implicits.

(* Number of put calls begun in a schedule (used to bound the counters). *)
Fixpoint begun_puts {T} (l : list (waction T)) : Z :=
  match l with
  | [] => 0
  | PBegin _ :: r => 1 + begun_puts r
  | _ :: r => begun_puts r
  end.
