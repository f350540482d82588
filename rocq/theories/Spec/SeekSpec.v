(* Specification: the two-thread histories of Spec/Linearizable.v when the consumer also moves its
   read position to [k] items before the last one.  Nothing here mentions the code. *)
From Verif.Common Require Import Base.
From Verif.Spec Require Import Queue Linearizable.

Section Seek.
Context {T : Type}.

(** [SeekCall k] and [SeekDone]: the consumer calls and returns.  [SeekLook k]: the moment at which
    all items present but the last [k] are chosen.  [SeekMove b]: the moment at which these are
    dropped ([b] true), or the call decides to do nothing. *)
Inductive sev :=
| Q (e : event T)
| SeekCall (k : Z)
| SeekLook (k : Z)
| SeekMove (b : bool)
| SeekDone.

Definition seen (e : sev) : bool :=
  match e with Q e => visible e | SeekCall _ | SeekDone => true | _ => false end.
Definition by_thread (t : tid) (e : sev) : bool :=
  match e with Q e => tid_eqb (ev_tid e) t | _ => tid_eqb Cons t end.

(** One event of a thread, as in [explained] and [legal]. *)
Inductive explains : status T -> event T -> status T -> Prop :=
| xp_inv t o : explains Idle (EInv t o) (Called o)
| xp_lin t o r : explains (Called o) (ELin t o r) (Done r)
| xp_snap t : explains (Called Reset) (ESnap t) Snapped
| xp_drop t : explains Snapped (EDrop t) (Done RUnit)
| xp_res t r : explains (Done r) (ERes t r) Idle.
Inductive happens (dflt : T) : queue T -> (tid -> Z) -> event T -> queue T -> (tid -> Z) -> Prop :=
| hp_vis q sn e : visible e = true -> happens dflt q sn e q sn
| hp_lin q sn t o : happens dflt q sn (ELin t o (snd (queue_step dflt q o))) (fst (queue_step dflt q o)) sn
| hp_snap q sn t : happens dflt q sn (ESnap t) q (fun t' => if tid_eqb t t' then zlen (qitems q) else sn t')
| hp_drop q sn t : happens dflt q sn (EDrop t) (Queue (qcap q) (skipn (Z.to_nat (sn t)) (qitems q))) sn.

(** Each call of a thread takes effect once, between invocation and return. *)
Inductive sstatus := Plain (s : status T) | Seeking (k : Z) | Looked | Moved.
Inductive sexplained : sstatus -> list sev -> Prop :=
| sx_nil st : sexplained st []
| sx_q s e s' h : explains s e s' -> sexplained (Plain s') h -> sexplained (Plain s) (Q e :: h)
| sx_call k h : sexplained (Seeking k) h -> sexplained (Plain Idle) (SeekCall k :: h)
| sx_look k h : sexplained Looked h -> sexplained (Seeking k) (SeekLook k :: h)
| sx_move b h : sexplained Moved h -> sexplained Looked (SeekMove b :: h)
| sx_done h : sexplained (Plain Idle) h -> sexplained Moved (SeekDone :: h).

(** The effects, in order, are those of one bounded queue; [m] items are chosen to be dropped. *)
Inductive slegal (dflt : T) : queue T -> (tid -> Z) -> Z -> list sev -> Prop :=
| sl_nil q sn m : slegal dflt q sn m []
| sl_q q sn m e q' sn' h : happens dflt q sn e q' sn' -> slegal dflt q' sn' m h -> slegal dflt q sn m (Q e :: h)
| sl_call q sn m k h : slegal dflt q sn m h -> slegal dflt q sn m (SeekCall k :: h)
| sl_look q sn m k h : 0 <= k <= zlen (qitems q) -> slegal dflt q sn (zlen (qitems q) - k) h -> slegal dflt q sn m (SeekLook k :: h)
| sl_move q sn m h : slegal dflt (Queue (qcap q) (skipn (Z.to_nat m) (qitems q))) sn 0 h -> slegal dflt q sn m (SeekMove true :: h)
| sl_stay q sn m h : slegal dflt q sn 0 h -> slegal dflt q sn m (SeekMove false :: h)
| sl_done q sn m h : slegal dflt q sn m h -> slegal dflt q sn m (SeekDone :: h).

(** [may_stay]: whether a seek may do nothing. *)
Definition seek_linearizable (dflt : T) (may_stay : bool) (q0 : queue T) (h : list sev) : Prop :=
  exists h', filter seen h' = h /\
             (forall t, sexplained (Plain Idle) (filter (by_thread t) h')) /\
             slegal dflt q0 (fun _ => 0) 0 h' /\
             (may_stay = false -> ~ In (SeekMove false) h').
End Seek.
Arguments sev : clear implicits.
Arguments sstatus : clear implicits.
