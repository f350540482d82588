(* Polling at a period. *)
From Verif.Common Require Import Base.
From Verif.Spec Require Import History.

(** Real time never wraps.  At which of the times [ts] at least [period] passed since the last
    firing ([last] at first). *)
Fixpoint firings (period last : Z) (ts : list Z) : list bool :=
  match ts with
  | [] => []
  | t :: r => if period <=? t - last then true :: firings period t r else false :: firings period last r
  end.
(** A W-bit clock shows real time modulo 2^W.  It wraps at most once since the last firing, and
    if it wraps then the due time lies past the wrap as well. *)
Fixpoint timely (W period last : Z) (ts : list Z) : Prop :=
  match ts with
  | [] => True
  | t :: r =>
      last <= t < last + 2 ^ W /\
      (t / 2 ^ W = last / 2 ^ W \/ last / 2 ^ W < (last + period) / 2 ^ W) /\
      timely W period (if period <=? t - last then t else last) r
  end.

(** Calls on a change poller. *)
Inductive pcop := PReset | PForce | PPoll (now : Z) (state : bool) | PTake.

Section PollChange.
Variable ticks : Z.
(** A poll is due when the 32-bit clock advanced by [ticks] since the last reading. *)
Definition due (last now : Z) : Prop := ticks <= (now - last) mod 2 ^ 32.
(** The time of the last reading (0 at first and when forced) and the value read (false at first). *)
Definition reading (h : list pcop) : Z * bool :=
  fold_left (fun '(last, v) o =>
    match o with
    | PPoll now s => if ticks <=? (now - last) mod 2 ^ 32 then (now, s) else (last, v)
    | PForce => (0, v)
    | _ => (last, v)
    end) h (0, false).
Definition notices (h : list pcop) (o : pcop) : Prop :=
  o = PReset \/ exists now s, o = PPoll now s /\ due (fst (reading h)) now /\ s <> snd (reading h).
End PollChange.
