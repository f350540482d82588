(* Association lists: the specification of SequentialMap and SeqMap. *)
From Verif.Common Require Import Base.

Section Map.
Context {K V : Type}.
Variable keq : K -> K -> bool.
Notation entries := (list (K * V)).

Fixpoint lookup (k : K) (l : entries) : option V :=
  match l with
  | [] => None
  | (k', v) :: r => if keq k' k then Some v else lookup k r
  end.
Definition has (k : K) (l : entries) : bool := match lookup k l with Some _ => true | None => false end.
(** Replace the value of [k], or append a new entry. *)
Fixpoint put (k : K) (v : V) (l : entries) : entries :=
  match l with
  | [] => [(k, v)]
  | (k', v') :: r => if keq k' k then (k', v) :: r else (k', v') :: put k v r
  end.
(** Drop the entry of [k]. *)
Fixpoint del (k : K) (l : entries) : entries :=
  match l with
  | [] => []
  | (k', v') :: r => if keq k' k then r else (k', v') :: del k r
  end.
Definition but_last (l : entries) : entries := firstn (Z.to_nat (zlen l - 1)) l.
Definition last_value (l : entries) : option V := option_map snd (znth l (zlen l - 1)).

(* ---- SequentialMap ---- *)
Inductive mop :=
| MAssign (k : K) (v : V)      (* m[k] = v *)
| MRef (k : K)                 (* reading m[k] on a non-const map *)
| MFind (k : K) | MContains (k : K) | MErase (k : K) | MInsert (k : K) (v : V)
| MSize | MMaxSize | MEmpty | MFull | MClear | MList.
Inductive mout := MoUnit | MoBool (b : bool) | MoNum (n : Z) | MoVal (v : V) | MoOpt (o : option V) | MoList (l : entries).

(** A new key on a full map replaces the entry added last (property C15); the value of a
    key created without assignment is unspecified. *)
Definition map_spec (N : Z) (l : entries) (o : mop) (r : mout) (l' : entries) : Prop :=
  match o with
  | MAssign k v => r = MoUnit /\
      l' = if has k l || (zlen l <? N) then put k v l else but_last l ++ [(k, v)]
  | MRef k => exists v, r = MoVal v /\
      match lookup k l with
      | Some v0 => v = v0 /\ l' = l
      | None => if zlen l <? N then l' = l ++ [(k, v)] else last_value l = Some v /\ l' = but_last l ++ [(k, v)]
      end
  | MFind k => r = MoOpt (lookup k l) /\ l' = l
  | MContains k => r = MoBool (has k l) /\ l' = l
  | MErase k => r = MoNum (if has k l then 1 else 0) /\ l' = del k l
  | MInsert k v =>
      if has k l || (N <=? zlen l) then r = MoBool false /\ l' = l
      else r = MoBool true /\ exists junk, l' = l ++ [(k, junk)]
  | MSize => r = MoNum (zlen l) /\ l' = l
  | MMaxSize => r = MoNum N /\ l' = l
  | MEmpty => r = MoBool (zlen l =? 0) /\ l' = l
  | MFull => r = MoBool (zlen l =? N) /\ l' = l
  | MClear => r = MoUnit /\ l' = []
  | MList => r = MoList l /\ l' = l
  end.

(* ---- SeqMap ---- *)
Inductive qmop :=
| QOverwrite (k : K) (v : V) | QGet (k : K) | QExists (k : K) | QSize
| QInsert (k : K) (v : V) | QRemove (k : K) | QRemoveLast.
(** overwrite and get return a pointer: its target is the observation. *)

(** The map with first-in-first-out eviction: entries oldest first. *)
Definition evict_step (N : Z) (l : entries) (o : qmop) : entries * mout :=
  match o with
  | QOverwrite k v => (if has k l || (zlen l <? N) then put k v l else tl l ++ [(k, v)], MoOpt (Some v))
  | QGet k => (l, MoOpt (lookup k l))
  | QExists k => (l, MoBool (has k l))
  | QSize => (l, MoNum (zlen l))
  | _ => (l, MoUnit)
  end.
Definition overwrite_only (o : qmop) : Prop :=
  match o with QInsert _ _ | QRemove _ | QRemoveLast => False | _ => True end.

(** Blank the first entry of [k]. *)
Fixpoint blank (dk : K) (dv : V) (k : K) (l : entries) : entries :=
  match l with
  | [] => []
  | (k', v') :: r => if keq k' k then (dk, dv) :: r else (k', v') :: blank dk dv k r
  end.

(** The slots of the container in storage order, and the next one to evict. *)
Definition slot_step (dk : K) (dv : V) (N : Z) (s : entries * Z) (o : qmop) : (entries * Z) * mout :=
  let '(l, oldest) := s in
  match o with
  | QOverwrite k v =>
      (if has k l || (zlen l <? N) then (put k v l, oldest)
       else (zupd l oldest (k, v), (oldest + 1) mod N), MoOpt (Some v))
  | QGet k => (s, MoOpt (lookup k l))
  | QExists k => (s, MoBool (has k l))
  | QSize => (s, MoNum (zlen l))
  | QInsert k v => if zlen l <? N then ((l ++ [(k, v)], oldest), MoBool true) else (s, MoBool false)
  | QRemove k => ((blank dk dv k l, oldest), MoBool (has k l))
  | QRemoveLast => ((but_last l, oldest), MoUnit)
  end.
End Map.
Arguments mop : clear implicits.
Arguments mout : clear implicits.
Arguments qmop : clear implicits.
