(* A list capped at N elements: the specification of FixedVector.  The contents
   of elements created "for overwrite" are unspecified, so this is a relation
   between the list before, the call, its result and the list after. *)
From Verif.Common Require Import Base.

Section Vec.
Context {T : Type}.

Inductive vop :=
| VPush (x : T) | VPushOverwrite | VPop | VBack
| VInsert (i : Z) (x : T) | VErase (i : Z) | VEraseRange (first last : Z)
| VResize (n : Z) (x : T) | VResizeOverwrite (n : Z)
| VSize | VMaxSize | VAvailable | VClear | VContents
| VAt (i : Z) | VSet (i : Z) (x : T).
Inductive vout := VUnit | VBool (b : bool) | VItem (x : T) | VNum (n : Z) | VList (l : list T).

Definition take (n : Z) (l : list T) : list T := firstn (Z.to_nat n) l.
Definition drop (n : Z) (l : list T) : list T := skipn (Z.to_nat n) l.

Definition vec_spec (dflt : T) (N : Z) (l : list T) (o : vop) (r : vout) (l' : list T) : Prop :=
  match o with
  | VPush x => if zlen l <? N then r = VBool true /\ l' = l ++ [x] else r = VBool false /\ l' = l
  | VPushOverwrite => if zlen l <? N then r = VNum (zlen l) /\ exists junk, l' = l ++ [junk] else r = VNum N /\ l' = l
  | VPop => (l = [] /\ r = VItem dflt /\ l' = []) \/ (exists x, l = l' ++ [x] /\ r = VItem x)
  | VBack => l' = l /\ ((l = [] /\ r = VItem dflt) \/ (exists l0 x, l = l0 ++ [x] /\ r = VItem x))
  | VInsert i x => r = VUnit /\ l' = if (zlen l <? N) && (i <=? zlen l) then take i l ++ x :: drop i l else l
  | VErase i => r = VUnit /\ l' = if i <? zlen l then take i l ++ drop (i + 1) l else l
  | VEraseRange f e => r = VUnit /\ l' = if (f <? e) && (e <=? zlen l) then take f l ++ drop e l else l
  | VResize n x => r = VBool (n <=? N) /\ l' = take (Z.min n N) l ++ zrepeat x (Z.min n N - zlen l)
  | VResizeOverwrite n => r = VBool (n <=? N) /\
      exists junk, l' = take (Z.min n N) l ++ junk /\ zlen junk = Z.max 0 (Z.min n N - zlen l)
  | VSize => r = VNum (zlen l) /\ l' = l
  | VMaxSize => r = VNum N /\ l' = l
  | VAvailable => r = VNum (N - zlen l) /\ l' = l
  | VClear => r = VUnit /\ l' = []
  | VContents => r = VList l /\ l' = l
  | VAt i => l' = l /\ exists x, r = VItem x /\ (i < zlen l -> znth l i = Some x)
  | VSet i x => r = VUnit /\ l' = zupd l i x
  end.

(** Indices are unsigned; unchecked element access must stay below MaxElements. *)
Definition vop_ok (N : Z) (o : vop) : Prop :=
  match o with
  | VInsert i _ | VErase i => 0 <= i
  | VEraseRange f e => 0 <= f /\ 0 <= e
  | VResize n _ | VResizeOverwrite n => 0 <= n
  | VAt i | VSet i _ => 0 <= i < N
  | _ => True
  end.
End Vec.
Arguments vop : clear implicits.
Arguments vout : clear implicits.
