(* Storage that wears out: cells that can no longer be written and writes that fail. *)
From Verif.Common Require Import Base.
From Verif.Spec Require Import WearSpec.

Section Spec.
Context {S D : Type} (st : storage S D) (N : Z) (valid : D -> bool) (honest : bool).
Variable cell : S -> Z -> content D.     (* what a cell holds *)

(** A written cell reads back and a blank cell never reads as valid data.  Only blank cells are
    writeable, but not every blank cell need be.  A write changes no other cell; it keeps the data,
    or leaves the cell with no valid data, and an honest storage says which.  An erase leaves no
    valid data anywhere, but need not make every cell writeable. *)
Record ageing : Prop := {
  a_read : forall s i d x, 0 <= i < N -> cell s i = Holds x -> st_read st s i d = (true, x);
  a_read_blank : forall s i d, 0 <= i < N -> cell s i = Blank -> valid (snd (st_read st s i d)) = false;
  a_writeable : forall s i, st_writeable st s i = true -> 0 <= i < N /\ cell s i = Blank;
  a_write : forall s x i, st_writeable st s i = true ->
      (forall j, j <> i -> cell (fst (st_write st s x i)) j = cell s j) /\
      exists kept : bool, (honest = true -> kept = snd (st_write st s x i)) /\
        if kept then cell (fst (st_write st s x i)) i = Holds x
        else forall y, ~ offers N valid cell (fst (st_write st s x i)) i y;
  a_erase : forall s, snd (st_erase st s) = true /\ forall i y, ~ offers N valid cell (fst (st_erase st s)) i y }.

(** An erase always leaves a cell that can be written, and what can be written is. *)
Definition serviceable : Prop :=
  (forall s, exists i, 0 <= i < N /\ st_writeable st (fst (st_erase st s)) i = true) /\
  (forall s x i, st_writeable st s i = true -> snd (st_write st s x i) = true).
(** No cell can be written any more, not even after an erase. *)
Definition worn_out (s : S) : Prop :=
  forall i, st_writeable st s i = false /\ st_writeable st (fst (st_erase st s)) i = false.

(** The data a device has after a write of [x]: the new data if the storage kept it and it is
    valid, otherwise the data it had, otherwise, if the block was erased, none. *)
Definition stored (cur : option D) (x : D) (erased kept : bool) : option D :=
  if kept && valid x then Some x else if erased then None else cur.

(** The register such a device is: [(answer, erased)] for each call. *)
Inductive worn_register : option D -> list (wop D) -> list (wout D * bool) -> option D -> Prop :=
| wr_end cur : worn_register cur [] [] cur
| wr_write cur x ok erased kept ops rs cur' : (honest = true -> kept = ok) ->
    worn_register (stored cur x erased kept) ops rs cur' ->
    worn_register cur (WWrite x :: ops) ((WoWrite ok, erased) :: rs) cur'
| wr_read cur buf ops rs cur' : worn_register cur ops rs cur' ->
    worn_register cur (WRead buf :: ops) ((WoRead cur, false) :: rs) cur'
| wr_restart cur ops rs cur' : worn_register cur ops rs cur' ->
    worn_register cur (WRestart :: ops) ((WoUnit, false) :: rs) cur'.
End Spec.

(** A concrete worn flash: the cells [dead] says cannot be written and stay blank, writes to the
    cells [weak] says are not kept, which the device reports if it is [honest]. *)
Definition worn_flash (N : Z) (honest : bool) (dead weak : Z -> bool) : storage (Z -> option Z) Z := {|
  st_read s i d := (true, match s i with Some x => x | None => -1 end);
  st_writeable s i := (0 <=? i) && (i <? N) && negb (dead i) && match s i with Some _ => false | None => true end;
  st_write s x i := if weak i then (s, negb honest) else ((fun j => if j =? i then Some x else s j), true);
  st_erase s := ((fun _ => None), true) |}.
