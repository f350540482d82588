(* set_read_offset of util/lockfree_fifo_spsc.hh and util/lockfree_fifo_spsc_dyn.hh, called by the
   consumer while the producer may be in a call: Model/FifoConc.v with one more call. *)
From Verif.Common Require Import Base.
From Verif.Spec Require Import Queue Linearizable SeekSpec.
From Verif.Model Require Import FifoConc.

Section Seek.
Context {T : Type}.
Variable W : Z.
Variable dflt : T.
Variable slot : Z -> Z -> outcome Z.

(* Where the consumer is in set_read_offset(k), lines 119-123 / 139-143. *)
Inductive kpc := KNo | KCalled (k : Z) | KGot (k head : Z) | KRet.
Record kstate := KS { k_c : cstate T; k_pc : kpc }.
(* [Do a]: an action of Model/FifoConc.v; [Seek k]: the consumer calls set_read_offset(k);
   [KStep]: its next access. *)
Inductive kaction := Do (a : action T) | Seek (k : Z) | KStep.

Definition by_producer (a : action T) : bool :=
  match a with Invoke Prod _ | Step Prod => true | _ => false end.
Definition kstep (s : kstate) (a : kaction) : outcome (kstate * list (sev T)) :=
  match a with
  | Do a =>
      match k_pc s with
      | KNo => let* (c, e) := cstep W dflt slot (k_c s) a in Ok (KS c KNo, map Q e)
      | p => if by_producer a then let* (c, e) := cstep W dflt slot (k_c s) a in Ok (KS c p, map Q e)
             else Ok (s, [])   (* the consumer is in set_read_offset *)
      end
  | Seek k =>
      match k_pc s, c_cons (k_c s) with
      | KNo, PcIdle => Ok (KS (k_c s) (KCalled k), [SeekCall k])
      | _, _ => Ok (s, [])
      end
  | KStep =>
      let c := k_c s in
      match k_pc s with
      | KNo => Ok (s, [])
      | KCalled k => Ok (KS c (KGot k (c_head c)), [])                       (* spsc.hh:120: head_.load *)
      | KGot k head =>
          if k <=? head                                                      (* spsc.hh:121-122: tail_.store *)
          then Ok (KS (CState (c_max c) (c_head c) (word W (head - k)) (c_buf c) (c_prod c) (c_cons c)) KRet, [])
          else Ok (KS c KRet, [])
      | KRet => Ok (KS c KNo, [SeekDone])
      end
  end.

Fixpoint krun (s : kstate) (sched : list kaction) : outcome (kstate * list (sev T)) :=
  match sched with
  | [] => Ok (s, [])
  | a :: r =>
      let* (s1, e1) := kstep s a in
      let* (s2, e2) := krun s1 r in
      Ok (s2, e1 ++ e2)
  end.

(* What num_filled() would return, line 107 *)
Definition filled (c : cstate T) : Z := word W (c_head c - c_tail c).
(* Every call set_read_offset(k) is made with a [k] not above what num_filled() would return then. *)
Fixpoint forward (s : kstate) (sched : list kaction) : Prop :=
  match sched with
  | [] => True
  | a :: r =>
      match a with Seek k => k_pc s = KNo -> c_cons (k_c s) = PcIdle -> 0 <= k <= filled (k_c s) | _ => True end /\
      match kstep s a with Ok (s1, _) => forward s1 r | _ => True end
  end.

Definition kinit (cap h : Z) (buf : list T) : kstate := KS (cinit cap h buf) KNo.
(* the producer does not reset *)
Definition kaction_ok (a : kaction) : bool := match a with Do a => action_ok false a | _ => true end.
Fixpoint kputs (sched : list kaction) : Z :=
  match sched with
  | [] => 0
  | Do a :: r => invoked_puts [a] + kputs r
  | _ :: r => kputs r
  end.
End Seek.
Arguments kstate : clear implicits.
Arguments kaction : clear implicits.
