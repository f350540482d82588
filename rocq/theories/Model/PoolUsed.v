(* ThreadSafePool::is_used (util/thread_safe_pool.hh:47-52) on top of the concurrent model of
   Model/PoolConc.v.  is_used is a plain acquire load, so it may read an old value of
   its flag: every flag keeps the history of the values stored in it, and a thread may read any
   that is not older than what it knows.  A message carries what its writer knew: the
   accesses to data and, per flag, the newest message.  The exchanges of create and
   destroy are seq_cst and always see the newest message (as in PoolConc.v).
   [operator[]] of an index the thread does not own (lines 61-67) is the action Peek.
   Not modelled: seq_cst ordering of is_used against the exchanges (it has none in the source). *)
From Verif.Common Require Import Base.
From Verif.Model Require Import PoolConc.

Record msg := Msg { m_val : bool; m_view : list Z; m_seen : Z -> Z }.
(* [base]: flags, threads and data accesses; [msgs]: history of each flag; [seen]: per thread
   and flag the newest message known *)
Record vcfg := VCfg { base : cfg; msgs : Z -> list msg; seen : Z -> Z -> Z }.

Inductive vact :=
| Act (l : Z * act)          (* a step of create, destroy, clear or an access of the owner *)
| IsUsed (t i j : Z)         (* thread t calls is_used(i), the load reads message j *)
| Peek (t i : Z).            (* thread t accesses data[i] without owning it *)
Inductive vevent := VBase (e : event) | VUsed (b : bool) | VNone.

Definition upd {A} (f : Z -> A) (k : Z) (x : A) : Z -> A := fun u => if u =? k then x else f u.

Section V.
Variable N : Z.

Definition v0 : vcfg := VCfg (p0 N) (fun _ => [Msg false [] (fun _ => 0)]) (fun _ _ => 0).

(* The flag the next atomic step of thread t works on. *)
Definition flag_of (c : cfg) (l : Z * act) : option Z :=
  match l with
  | (t, AStep) =>
      match t_pc (threads c t) with
      | Creating i | Destroying i => if i <? N then Some i else None
      | _ => None
      end
  | _ => None
  end.

(* compare_exchange_strong (lines 28, 40) by thread t on flag i: reads the newest message and, if
   the value changed, stores a new one *)
Definition exchanged (s : vcfg) (c' : cfg) (t i : Z) : vcfg :=
  let ms := msgs s i in
  match znth ms (zlen ms - 1), znth (flags c') i, znth (f_view c') i with
  | Some m, Some b, Some fv =>
      let known := fun f => Z.max (seen s t f) (m_seen m f) in
      if Bool.eqb (m_val m) b then VCfg c' (msgs s) (upd (seen s) t (upd known i (zlen ms - 1)))
      else let k := upd known i (zlen ms) in VCfg c' (upd (msgs s) i (ms ++ [Msg b fv k])) (upd (seen s) t k)
  | _, _, _ => VCfg c' (msgs s) (seen s)
  end.

Definition vstep (s : vcfg) (a : vact) : outcome (vcfg * vevent) :=
  match a with
  | Act l =>
      let* (c', e) := pstep true true N (base s) l in
      Ok (match flag_of (base s) l with
          | Some i => exchanged s c' (fst l) i
          | None => VCfg c' (msgs s) (seen s)
          end, VBase e)
  | IsUsed t i j =>
      let th := threads (base s) t in
      match t_pc th with
      | Idle =>
          if N <=? i then Ok (s, VUsed false)                              (* lines 49-50 *)
          else if j <? seen s t i then Ok (s, VNone)                       (* not a possible read *)
          else match znth (msgs s i) j with
               | None => Ok (s, VNone)
               | Some m =>                                                 (* line 51 *)
                   let c := base s in
                   let known := fun f => Z.max (seen s t f) (m_seen m f) in
                   Ok (VCfg (Cfg (flags c) (f_view c) (hist c)
                              (set_thread c t (Thread (t_pc th) (owned th) (t_view th ++ m_view m))))
                            (msgs s) (upd (seen s) t (upd known i j)), VUsed (m_val m))
               end
      | _ => Ok (s, VNone)
      end
  | Peek t i =>
      match t_pc (threads (base s) t) with
      | Idle => let* c := access (base s) t i in Ok (VCfg c (msgs s) (seen s), VNone)
      | _ => Ok (s, VNone)
      end
  end.
End V.

(** The schedules considered: clear is not called and only owners access the elements. *)
Definition disciplined (a : vact) : Prop :=
  match a with Act l => no_clear l | IsUsed _ i _ => 0 <= i | Peek _ _ => False end.
(** only thread [t] does anything *)
Definition only_thread (t : Z) (a : vact) : Prop :=
  match a with Act (u, _) => u = t | IsUsed u _ _ => u = t | Peek u _ => u = t end.
