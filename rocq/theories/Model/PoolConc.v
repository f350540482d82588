(* Concurrent model of util/thread_safe_pool.hh (ThreadSafePool<T, MaxEntries>).

   Threads interleave at the granularity of one compare_exchange (an atomic
   read-modify-write always sees the latest value of its flag, so interleaving
   is exact for the flags) or one access to an element of [data].
   For the elements, which are not atomic, happens-before is tracked with views:
   every access to data gets an id, a thread's view is the set of accesses that
   happen before its next action, a flag's view is what the read-modify-writes
   on it have released (a release sequence).  An access to data[i] races unless
   all earlier accesses to data[i] are in the thread's view.
   [acq]/[rel]: whether the compare_exchange acquires / releases; the source's
   default order seq_cst does both.
   is_used (47-52) is in Model/PoolUsed.v. *)
From Verif.Common Require Import Base.

Inductive pc := Idle | Creating (i : Z) | Destroying (i : Z) | Clearing (i : Z).
Record thread := Thread { t_pc : pc; owned : list Z; t_view : list Z }.
(* thread_safe_pool.hh:13-14; [hist] is ghost: the slot of the access with each id *)
Record cfg := Cfg { flags : list bool; f_view : list (list Z); hist : list Z; threads : Z -> thread }.

Inductive act :=
| ACreate            (* call create() *)
| ADestroy (i : Z)   (* call destroy(i) on an index this thread owns *)
| AStep              (* next atomic step of the call in progress *)
| AAccess (i : Z)    (* read or write data[i] of an owned index, between calls *)
| AClear.            (* call clear() *)
Inductive event := ENone | EReturn (r : option Z) | EDestroyed (b : bool) | ECleared.

Section P.
Variables (acq rel : bool) (N : Z).

Definition set_thread (c : cfg) (t : Z) (x : thread) : Z -> thread :=
  fun u => if u =? t then x else threads c u.

Definition p0 : cfg := Cfg (zrepeat false N) (zrepeat [] N) [] (fun _ => Thread Idle [] []).

(* compare_exchange_strong on flag i (thread_safe_pool.hh:28, 40): returns success and the new configuration of flag and view *)
Definition cas (c : cfg) (t i : Z) (expected : bool) : outcome (bool * list bool * list (list Z) * list Z) :=
  let* f := rd (flags c) i in
  let* fv := rd (f_view c) i in
  let v := t_view (threads c t) in
  let v' := if acq then v ++ fv else v in
  if Bool.eqb f expected then
    let* fl' := wr (flags c) i (negb expected) in
    let* fvs := wr (f_view c) i (if rel then v ++ fv else fv) in
    Ok (true, fl', fvs, v')
  else Ok (false, flags c, f_view c, v').

(* one access to data[i] by thread t *)
Definition access (c : cfg) (t i : Z) : outcome cfg :=
  let th := threads c t in
  if existsb (fun p => (snd p =? i) && negb (existsb (Z.eqb (fst p)) (t_view th)))
             (combine (map Z.of_nat (seq 0 (length (hist c)))) (hist c))
  then UB DataRace
  else Ok (Cfg (flags c) (f_view c) (hist c ++ [i])
               (set_thread c t (Thread (t_pc th) (owned th) (zlen (hist c) :: t_view th)))).

Definition pstep (c : cfg) (l : Z * act) : outcome (cfg * event) :=
  let (t, a) := l in
  let th := threads c t in
  match a, t_pc th with
  (* create(): thread_safe_pool.hh:25-34 *)
  | ACreate, Idle => Ok (Cfg (flags c) (f_view c) (hist c) (set_thread c t (Thread (Creating 0) (owned th) (t_view th))), ENone)
  | AStep, Creating i =>
      if i <? N then
        let* (ok, fl, fv, v) := cas c t i false in
        if ok : bool then Ok (Cfg fl fv (hist c) (set_thread c t (Thread Idle (i :: owned th) v)), EReturn (Some i))
        else Ok (Cfg fl fv (hist c) (set_thread c t (Thread (Creating (i + 1)) (owned th) v)), ENone)
      else Ok (Cfg (flags c) (f_view c) (hist c) (set_thread c t (Thread Idle (owned th) (t_view th))), EReturn None)
  (* destroy(idx): thread_safe_pool.hh:37-45 *)
  | ADestroy i, Idle =>
      if existsb (Z.eqb i) (owned th) then
        Ok (Cfg (flags c) (f_view c) (hist c)
             (set_thread c t (Thread (Destroying i) (filter (fun j => negb (j =? i)) (owned th)) (t_view th))), ENone)
      else Ok (c, ENone)
  | AStep, Destroying i =>
      if i <? N then
        let* (ok, fl, fv, v) := cas c t i true in
        Ok (Cfg fl fv (hist c) (set_thread c t (Thread Idle (owned th) v)), EDestroyed ok)
      else Ok (Cfg (flags c) (f_view c) (hist c) (set_thread c t (Thread Idle (owned th) (t_view th))), EDestroyed false)
  (* operator[](idx): thread_safe_pool.hh:61-67 *)
  | AAccess i, Idle =>
      if existsb (Z.eqb i) (owned th) then let* c' := access c t i in Ok (c', ENone) else Ok (c, ENone)
  (* clear(): thread_safe_pool.hh:54-59 *)
  | AClear, Idle => Ok (Cfg (flags c) (f_view c) (hist c) (set_thread c t (Thread (Clearing 0) (owned th) (t_view th))), ENone)
  | AStep, Clearing i =>
      if i <? N then
        let* c1 := access c t i in
        let* fl := wr (flags c1) i false in
        let* fv := wr (f_view c1) i (t_view (threads c1 t)) in
        let th1 := threads c1 t in
        Ok (Cfg fl fv (hist c1) (set_thread c1 t (Thread (Clearing (i + 1)) (owned th1) (t_view th1))), ENone)
      else Ok (Cfg (flags c) (f_view c) (hist c) (set_thread c t (Thread Idle (owned th) (t_view th))), ECleared)
  | _, _ => Ok (c, ENone)
  end.
End P.

(** An index is held by a thread from the return of create until destroy's exchange. *)
Definition holds (c : cfg) (t i : Z) : Prop := In i (owned (threads c t)) \/ t_pc (threads c t) = Destroying i.
Definition no_clear (l : Z * act) : Prop := snd l <> AClear.
(** Atomic steps a thread takes in a schedule. *)
Fixpoint own_steps (t : Z) (ls : list (Z * act)) : Z :=
  match ls with
  | [] => 0
  | (u, AStep) :: r => (if u =? t then 1 else 0) + own_steps t r
  | _ :: r => own_steps t r
  end.
