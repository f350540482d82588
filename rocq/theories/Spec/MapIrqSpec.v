(* Maps shared by a main program and an interrupt handler: which calls are meant. *)
From Verif.Common Require Import Base.
From Verif.Spec Require Import MapSpec.

Section MapIrq.
Context {K V : Type} (keq : K -> K -> bool).
(** Calls that only look. *)
Definition q_reads (o : qmop K V) : Prop := match o with QGet _ | QExists _ | QSize => True | _ => False end.
Definition m_reads (o : mop K V) : Prop :=
  match o with MFind _ | MContains _ | MSize | MMaxSize | MEmpty | MFull | MList => True | _ => False end.
(** Calls of a SeqMap holding [l] that change at most one thing: all except removing a key and
    overwriting a key the map does not have. *)
Definition q_simple (l : list (K * V)) (o : qmop K V) : Prop :=
  match o with QRemove _ => False | QOverwrite k _ => has keq k l = true | _ => True end.
(** The same for a SequentialMap: all except bringing in a key and erasing an entry that is not the
    last one. *)
Definition m_simple (N : Z) (l : list (K * V)) (o : mop K V) : Prop :=
  match o with
  | MAssign k _ | MRef k => has keq k l = true
  | MInsert k _ => has keq k l = true \/ N <= zlen l
  | MErase k => has keq k (but_last l) = false
  | _ => True
  end.
(** The key a call is about. *)
Definition q_key (o : qmop K V) : option K :=
  match o with QOverwrite k _ | QGet k | QExists k | QInsert k _ | QRemove k => Some k | QSize | QRemoveLast => None end.
Definition m_key (o : mop K V) : option K :=
  match o with MAssign k _ | MRef k | MFind k | MContains k | MErase k | MInsert k _ => Some k | _ => None end.
(** Calls that may bring in a key. *)
Definition m_adds (o : mop K V) : Prop := match o with MAssign _ _ | MRef _ | MInsert _ _ => True | _ => False end.
(** The entries of [l] such a call leaves alone: a new key on a full map replaces the last entry. *)
Definition m_kept (N : Z) (l : list (K * V)) (o : mop K V) : list (K * V) :=
  match m_key o with
  | Some k => if has keq k l || (zlen l <? N) then l else but_last l
  | None => l
  end.
End MapIrq.
