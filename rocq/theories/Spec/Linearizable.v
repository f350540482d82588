(* Specification: linearizability of a two-thread history to the bounded queue
   of Spec/Queue.v.  Nothing here mentions the code. *)
From Verif.Common Require Import Base.
From Verif.Spec Require Import Queue.

Inductive tid := Prod | Cons.
Definition tid_eqb (a b : tid) : bool :=
  match a, b with Prod, Prod | Cons, Cons => true | _, _ => false end.

Section Lin.
Context {T : Type}.

(** What can be observed: calls and returns.  Explanations add instants at which
    a call takes effect: one instant for every call, except that a reset may
    take effect in two: [ESnap] fixes the items present, [EDrop] discards them. *)
Inductive event :=
| EInv (t : tid) (o : qop T)
| ERes (t : tid) (r : qout T)
| ELin (t : tid) (o : qop T) (r : qout T)
| ESnap (t : tid)
| EDrop (t : tid).

Definition visible (e : event) : bool :=
  match e with EInv _ _ | ERes _ _ => true | _ => false end.

Definition ev_tid (e : event) : tid :=
  match e with EInv t _ | ERes t _ | ELin t _ _ | ESnap t | EDrop t => t end.

Definition proj (t : tid) (h : list event) : list event := filter (fun e => tid_eqb (ev_tid e) t) h.

(** Each call of a thread takes effect once, between invocation and return, and
    returns the result it had when it took effect. *)
Inductive status := Idle | Called (o : qop T) | Snapped | Done (r : qout T).
Inductive explained : status -> list event -> Prop :=
| ex_nil st : explained st []
| ex_inv t o h : explained (Called o) h -> explained Idle (EInv t o :: h)
| ex_lin t o r h : explained (Done r) h -> explained (Called o) (ELin t o r :: h)
| ex_snap t h : explained Snapped h -> explained (Called Reset) (ESnap t :: h)
| ex_drop t h : explained (Done RUnit) h -> explained Snapped (EDrop t :: h)
| ex_res t r h : explained Idle h -> explained (Done r) (ERes t r :: h).

(** The effects, in order, are those of one bounded queue. *)
Inductive legal (dflt : T) : queue T -> (tid -> Z) -> list event -> Prop :=
| lg_nil q sn : legal dflt q sn []
| lg_vis q sn e h : visible e = true -> legal dflt q sn h -> legal dflt q sn (e :: h)
| lg_lin q sn t o h :
    legal dflt (fst (queue_step dflt q o)) sn h ->
    legal dflt q sn (ELin t o (snd (queue_step dflt q o)) :: h)
| lg_snap q sn t h :
    legal dflt q (fun t' => if tid_eqb t t' then zlen (qitems q) else sn t') h ->
    legal dflt q sn (ESnap t :: h)
| lg_drop q sn t h :
    legal dflt (Queue (qcap q) (skipn (Z.to_nat (sn t)) (qitems q))) sn h ->
    legal dflt q sn (EDrop t :: h).

Definition linearizable (dflt : T) (q0 : queue T) (h : list event) : Prop :=
  exists h', filter visible h' = h /\
             (forall t, explained Idle (proj t h')) /\
             legal dflt q0 (fun _ => 0) h'.

End Lin.
Arguments event : clear implicits.
Arguments status : clear implicits.
