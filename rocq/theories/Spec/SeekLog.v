(* Specification for a consumer that skips ahead with set_read_offset: what the
   two threads may observe of a bounded FIFO queue.  Nothing here mentions the code. *)
From Verif.Common Require Import Base.
From Verif.Spec Require Import FifoLog PolledLog.

Section Seek.
Context {T : Type}.

Inductive sevent :=
| SE (e : pevent T)          (* a count, or a successful put, get or removal *)
| Saw (off n : Z)            (* a call "keep the last [off]" found n items *)
| Dropped (off : Z)          (* that call dropped all but the last [off] of the items it found *)
| Ignored (off : Z).         (* that call returned without dropping anything *)

(** A legal history of a queue of capacity [cap] that now holds [q], of which the
    last "keep" call found [seen]: items put after it looked stay as well. Only if
    [may_ignore] may such a call do nothing. *)
Fixpoint seek_legal (cap : Z) (may_ignore : bool) (q : list T) (seen : Z) (log : list sevent) : Prop :=
  match log with
  | [] => True
  | SE (Counted n) :: r => 0 <= n <= zlen q /\ zlen q <= cap /\ seek_legal cap may_ignore q seen r
  | SE CameBackEmpty :: _ => False
  | SE (Eff (EffPut x)) :: r => zlen q < cap /\ seek_legal cap may_ignore (q ++ [x]) seen r
  | SE (Eff (EffGot x)) :: r => exists q', q = x :: q' /\ seek_legal cap may_ignore q' seen r
  | SE (Eff (EffSkip n)) :: r => 0 <= n <= zlen q /\ seek_legal cap may_ignore (skipn (Z.to_nat n) q) seen r
  | Saw off n :: r => 0 <= off <= n /\ n <= zlen q /\ seek_legal cap may_ignore q n r
  | Dropped off :: r => 0 <= off <= seen /\ seen <= zlen q /\
                        seek_legal cap may_ignore (skipn (Z.to_nat (seen - off)) q) seen r
  | Ignored _ :: r => may_ignore = true /\ seek_legal cap may_ignore q seen r
  end.
End Seek.
Arguments sevent : clear implicits.
