(* util/wear_level.hh: WearLeveler (lines 10-77) and WearLevel (79-124), over an arbitrary
   storage.  The two differ only in what a failed erase does to cell_; [reset] is true for
   WearLeveler.  Each call returns the log of the storage accesses it made.
   cell_ is a size_t of W bits. *)
From Verif.Common Require Import Base.
From Verif.Spec Require Import WearSpec.

Inductive access := ARead (i : Z) | AErase | AWrite (i : Z).

Section WearLevel.
Context {S D : Type} (st : storage S D).
Variables (W N : Z) (validate : D -> bool) (reset : bool).

Record wl := WL { wl_cell : Z; wl_store : S }.

(* The constructor's scan from cell [n] downwards; lines 28-39, 86-96.  A failing read leaves
   the local object as the storage left it. *)
Fixpoint scan (n : nat) (s : S) (data : D) : Z :=
  match n with
  | O => 0
  | Datatypes.S n' =>
      let (ok, data) := st_read st s (Z.of_nat n') data in
      if ok && validate data then Z.of_nat n' + 1 else scan n' s data
  end.
(* [d0] stands for the uninitialised local object *)
Definition construct (s : S) (d0 : D) : wl := WL (scan (Z.to_nat N) s d0) s.

(* read(data); lines 43-52, 98-107: found data, and the cells asked for *)
Fixpoint read_down (n : nat) (s : S) (data : D) : option D * list access :=
  match n with
  | O => (None, [])
  | Datatypes.S n' =>
      let data := snd (st_read st s (Z.of_nat n') data) in
      if validate data then (Some data, [ARead (Z.of_nat n')])
      else let (r, l) := read_down n' s data in (r, ARead (Z.of_nat n') :: l)
  end.
Definition wl_read (w : wl) (data : D) : option D * list access :=
  read_down (Z.to_nat (wl_cell w)) (wl_store w) data.

(* write(data); lines 60-76, 109-123 *)
Fixpoint write_loop (fuel : nat) (erased_once : bool) (cell : Z) (s : S) (x : D) (log : list access)
  : outcome (wl * bool * list access) :=
  match fuel with
  | O => OutOfFuel
  | Datatypes.S fuel' =>
      if st_writeable st s cell then
        let (s', ok) := st_write st s x cell in
        Ok (WL (word W (cell + 1)) s', ok, log ++ [AWrite cell])
      else
        let cell := word W (cell + 1) in
        if cell >=? N then
          if erased_once then Ok (WL cell s, false, log)
          else
            let (s', ok) := st_erase st s in
            if ok then write_loop fuel' true 0 s' x (log ++ [AErase])
            else Ok (WL (if reset then 0 else cell) s', false, log ++ [AErase])
        else write_loop fuel' erased_once cell s x log
  end.
(* enough iterations to go twice over the block *)
Definition wl_fuel : nat := Z.to_nat (2 * N + 3).
Definition wl_write (w : wl) (x : D) : outcome (wl * bool * list access) :=
  write_loop wl_fuel false (wl_cell w) (wl_store w) x [].

(* A history on one device; WRestart is the construction of a new object on the same storage. *)
Definition wl_step (d0 : D) (w : wl) (o : wop D) : outcome (wl * (wout D * list access)) :=
  match o with
  | WWrite x => let* (w', ok, l) := wl_write w x in Ok (w', (WoWrite ok, l))
  | WRead buf => let (r, l) := wl_read w buf in Ok (w, (WoRead r, l))
  | WRestart => Ok (construct (wl_store w) d0, (WoUnit, []))
  end.
End WearLevel.
Arguments WL {S}. Arguments wl_cell {S}. Arguments wl_store {S}.

(* Power failure while a write of [x] performs the accesses [log] on storage [s]: before an
   access, inside it, or after it.  An interrupted erase leaves every cell blank, invalid or
   unchanged. *)
Inductive crash {S D} (st : storage S D) (N : Z) (valid : D -> bool) (cell : S -> Z -> content D) (x : D)
  : S -> list access -> S -> Prop :=
| crash_before s log : crash st N valid cell x s log s
| crash_in_write s i log s' : torn valid cell s i x s' -> crash st N valid cell x s (AWrite i :: log) s'
| crash_after_write s i log s' : crash st N valid cell x (fst (st_write st s x i)) log s' ->
    crash st N valid cell x s (AWrite i :: log) s'
| crash_in_erase s log s' :
    (forall j, cell s' j = cell s j \/ cell s' j = Blank \/ exists t, cell s' j = Holds t /\ valid t = false) ->
    crash st N valid cell x s (AErase :: log) s'
| crash_after_erase s log s' : crash st N valid cell x (fst (st_erase st s)) log s' ->
    crash st N valid cell x s (AErase :: log) s'.

(* The accesses the [k]-th write (from 0) of a fresh device should make. *)
Definition nth_write_log (N k : Z) : list access :=
  (if (0 <? k) && (k mod N =? 0) then [AErase] else []) ++ [AWrite (k mod N)].

(* How many erases, writes, and writes to cell [i] a list of accesses contains; accesses inside
   a block of [N] cells; histories that write only data the storage would accept back. *)
Definition erase_count (l : list access) : nat := length (filter (fun a => match a with AErase => true | _ => false end) l).
Definition write_count (l : list access) : nat := length (filter (fun a => match a with AWrite _ => true | _ => false end) l).
Definition writes_to (i : Z) (l : list access) : nat :=
  length (filter (fun a => match a with AWrite j => j =? i | _ => false end) l).
Definition in_block (N : Z) (a : access) : Prop := match a with ARead i | AWrite i => 0 <= i < N | AErase => True end.
Definition writes_valid {D} (valid : D -> bool) (o : wop D) : Prop := match o with WWrite x => valid x = true | _ => True end.
Definition is_erase (a : access) : bool := match a with AErase => true | _ => false end.
