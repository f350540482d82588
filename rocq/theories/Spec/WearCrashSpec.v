(* A register whose device may lose power in any of its writes. *)
From Verif.Common Require Import Base.
From Verif.Spec Require Import WearSpec.

(** One event of a device's life: a call, or a write during which the power fails, after which
    the device starts again. *)
Inductive wevent (D : Type) := Call (o : wop D) | Lost (x : D).
Arguments Call {D}. Arguments Lost {D}.
(** What is seen of it: the answer of a call; for a write that was cut off, whether it was one
    that has to erase the block. *)
Inductive wseen (D : Type) := Answer (r : wout D) | CutOff (erasing : bool).
Arguments Answer {D}. Arguments CutOff {D}.

Definition event_writes {D} (e : wevent D) : list D := match e with Call (WWrite x) => [x] | Lost x => [x] | _ => [] end.
Definition event_valid {D} (valid : D -> bool) (e : wevent D) : Prop := Forall (fun x => valid x = true) (event_writes e).

(** The promise.  [cur] is the data held and [past] everything that was ever there.  A write cut
    off leaves the old or the new data if it does not erase; if it erases it may leave nothing,
    or anything that was ever there. *)
Inductive lossy_register {D} : option D -> list D -> list (wevent D) -> list (wseen D) -> Prop :=
| lr_nil cur past : lossy_register cur past [] []
| lr_call cur past o cur' r es rs :
    register_spec cur o = (cur', r) -> lossy_register cur' (event_writes (Call o) ++ past) es rs ->
    lossy_register cur past (Call o :: es) (Answer r :: rs)
| lr_kept cur past x es rs : lossy_register cur (x :: past) es rs -> lossy_register cur past (Lost x :: es) (CutOff false :: rs)
| lr_written cur past x es rs : lossy_register (Some x) (x :: past) es rs -> lossy_register cur past (Lost x :: es) (CutOff false :: rs)
| lr_erased cur past x o es rs : (forall y, o = Some y -> In y (x :: past)) -> lossy_register o (x :: past) es rs ->
    lossy_register cur past (Lost x :: es) (CutOff true :: rs).
