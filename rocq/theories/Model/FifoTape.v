(* Dispatch of the calls in Spec/Tape.v to the methods modelled in Model/Fifo.v
   (util/lockfree_fifo_spsc.hh:33-132, util/lockfree_fifo_spsc_dyn.hh:53-152). *)
From Verif.Common Require Import Base.
From Verif.Spec Require Import Tape.
From Verif.Model Require Import Fifo.

Definition tape_fifo_step {T} (W : Z) (slot : Z -> Z -> outcome Z) (s : fifo T) (o : top T)
  : outcome (fifo T * tout T) :=
  match o with
  | TPut x => let* (s', b) := put W slot s x in Ok (s', TBool b)
  | TGet => let* (s', r) := get W slot s in Ok (s', TOpt r)
  | TGetMove residue => let* (s', r) := get_move W slot s residue in Ok (s', TOpt r)
  | TRemoveFirst => Ok (remove_first W s, TUnit)
  | TReset => Ok (reset s, TUnit)
  | TNumFilled => Ok (s, TNum (num_filled W s))
  | TSetReadOffset k => Ok (set_read_offset W s k, TUnit)
  | TSetReadPos p => Ok (set_read_pos W s p, TUnit)
  end.
