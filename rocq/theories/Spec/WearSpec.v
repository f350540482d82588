(* Storage with numbered cells, and what wear leveling promises on top of it. *)
From Verif.Common Require Import Base.

(** The storage class a user supplies: reading fills a caller-provided object. *)
Record storage (S D : Type) := Storage {
  st_read : S -> Z -> D -> bool * D;
  st_writeable : S -> Z -> bool;
  st_write : S -> D -> Z -> S * bool;
  st_erase : S -> S * bool }.
Arguments st_read {S D}. Arguments st_writeable {S D}. Arguments st_write {S D}. Arguments st_erase {S D}.
Arguments Storage {S D}.

Inductive content (D : Type) := Blank | Holds (d : D).
Arguments Blank {D}. Arguments Holds {D} d.

Section Spec.
Context {S D : Type} (st : storage S D) (N : Z) (valid : D -> bool).
Variable cell : S -> Z -> content D.     (* what a cell holds *)

(** A written cell reads back; a blank cell never reads as valid data; exactly the blank
    cells below N are writeable; writing a blank cell works; erase may be able to fail. *)
Record reads_back : Prop := {
  g_read : forall s i d x, 0 <= i < N -> cell s i = Holds x -> st_read st s i d = (true, x);
  g_read_blank : forall s i d, 0 <= i < N -> cell s i = Blank -> valid (snd (st_read st s i d)) = false;
  g_writeable : forall s i, st_writeable st s i = true <-> (0 <= i < N /\ cell s i = Blank);
  g_write : forall s x i, 0 <= i < N -> cell s i = Blank ->
      snd (st_write st s x i) = true /\ cell (fst (st_write st s x i)) i = Holds x /\
      (forall j, j <> i -> cell (fst (st_write st s x i)) j = cell s j) }.
(** Erase blanks every cell. *)
Definition erases : Prop :=
  forall s, snd (st_erase st s) = true /\ forall i, 0 <= i < N -> cell (fst (st_erase st s)) i = Blank.

(** Data a cell offers. *)
Definition offers (s : S) (i : Z) (x : D) : Prop := 0 <= i < N /\ cell s i = Holds x /\ valid x = true.
(** The latest data: the valid data of the topmost cell holding any. *)
Definition latest (s : S) (o : option D) : Prop :=
  match o with
  | Some x => exists i, offers s i x /\ forall j y, i < j -> ~ offers s j y
  | None => forall j y, ~ offers s j y
  end.

(** A storage that a power failure during the write of [x] to cell [i] may leave behind. *)
Definition torn (s : S) (i : Z) (x : D) (s' : S) : Prop :=
  (forall j, j <> i -> cell s' j = cell s j) /\
  (cell s' i = Blank \/ cell s' i = Holds x \/ exists t, cell s' i = Holds t /\ valid t = false).
End Spec.

Inductive wop (D : Type) := WWrite (x : D) | WRead (buf : D) | WRestart.
Inductive wout (D : Type) := WoWrite (ok : bool) | WoRead (d : option D) | WoUnit.
Arguments WWrite {D}. Arguments WRead {D}. Arguments WRestart {D}.
Arguments WoWrite {D}. Arguments WoRead {D}. Arguments WoUnit {D}.

(** The promise: a register that survives restarts. *)
Definition register_spec {D} (cur : option D) (o : wop D) : option D * wout D :=
  match o with
  | WWrite x => (Some x, WoWrite true)
  | WRead _ => (cur, WoRead cur)
  | WRestart => (cur, WoUnit)
  end.

(** A concrete storage: flash cells of integers, a blank cell reads as -1 and negative numbers
    are not valid data; [erasable = false] is a device whose erase no longer works. *)
Definition flash (N : Z) (erasable : bool) : storage (Z -> option Z) Z := {|
  st_read s i d := (true, match s i with Some x => x | None => -1 end);
  st_writeable s i := (0 <=? i) && (i <? N) && match s i with Some _ => false | None => true end;
  st_write s x i := ((fun j => if j =? i then Some x else s j), true);
  st_erase s := if erasable then ((fun _ => None), true) else (s, false) |}.
Definition flash_valid (x : Z) : bool := 0 <=? x.
Definition flash_cell (s : Z -> option Z) (i : Z) : content Z :=
  match s i with Some x => Holds x | None => Blank end.
Definition blank_flash : Z -> option Z := fun _ => None.
Definition flash_of (l : list Z) : Z -> option Z := fun i => znth l i.
