(* Specification of a FIFO whose reader can be moved: the last [cap] items ever
   written stay available, and reading happens [unread] items behind the write
   position.  Nothing here mentions the code. *)
From Verif.Common Require Import Base.

Section Tape.
Context {T : Type}.

Record tape := Tape {
  recent : list T;   (* the last cap items written, newest first *)
  unread : Z;        (* how far the reader is behind the writer *)
  written : Z        (* initial write position plus number of items written *)
}.

Inductive top :=
| TPut (x : T)
| TGet
| TGetMove (residue : T)
| TRemoveFirst
| TReset
| TNumFilled
| TSetReadOffset (k : Z)
| TSetReadPos (p : Z).

Inductive tout :=
| TUnit
| TBool (b : bool)
| TOpt (o : option T)
| TNum (n : Z).

(** [W]: width of the counters, capacity = length of [recent]. *)
Definition tape_step (W : Z) (t : tape) (o : top) : tape * tout :=
  let cap := zlen (recent t) in
  match o with
  | TPut x =>
      if unread t =? cap then (t, TBool false)
      else (Tape (x :: removelast (recent t)) (unread t + 1) (written t + 1), TBool true)
  | TGet =>
      if unread t =? 0 then (t, TOpt None)
      else (Tape (recent t) (unread t - 1) (written t), TOpt (znth (recent t) (unread t - 1)))
  | TGetMove r =>
      if unread t =? 0 then (t, TOpt None)
      else (Tape (zupd (recent t) (unread t - 1) r) (unread t - 1) (written t),
            TOpt (znth (recent t) (unread t - 1)))
  | TRemoveFirst =>
      if unread t =? 0 then (t, TUnit) else (Tape (recent t) (unread t - 1) (written t), TUnit)
  | TReset => (Tape (recent t) 0 (written t), TUnit)
  | TNumFilled => (t, TNum (unread t))
  | TSetReadOffset k =>
      (* ignored when more than the (W-bit) number of items written is asked for *)
      if k <=? written t mod 2 ^ W then (Tape (recent t) k (written t), TUnit) else (t, TUnit)
  | TSetReadPos p => (Tape (recent t) ((written t - p) mod 2 ^ W) (written t), TUnit)
  end.

(** The reader is never moved further back than the capacity. *)
Definition move_ok (W : Z) (t : tape) (o : top) : Prop :=
  match o with
  | TSetReadOffset k => 0 <= k <= zlen (recent t)
  | TSetReadPos p => 0 <= p < 2 ^ W /\ (written t - p) mod 2 ^ W <= zlen (recent t)
  | _ => True
  end.

Fixpoint tcount_puts (ops : list top) : Z :=
  match ops with
  | [] => 0
  | TPut _ :: r => 1 + tcount_puts r
  | _ :: r => tcount_puts r
  end.

Definition is_set_read_pos (o : top) : bool :=
  match o with TSetReadPos _ => true | _ => false end.

(** A tape that starts with [n] default items to be read. *)
Definition tape_start (dflt : T) (cap n : Z) : tape := Tape (zrepeat dflt cap) n n.

End Tape.
Arguments tape : clear implicits.
Arguments top : clear implicits.
Arguments tout : clear implicits.

(** How many puts were accepted, from the answers. *)
Fixpoint puts_done {T} (outs : list (tout T)) : Z :=
  match outs with
  | [] => 0
  | TBool true :: r => 1 + puts_done r
  | _ :: r => puts_done r
  end.
