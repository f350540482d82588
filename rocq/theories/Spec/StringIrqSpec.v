(* A StaticString shared by a main program and an interrupt handler. *)
From Verif.Common Require Import Base.
From Verif.Spec Require Import StaticStringSpec.

(** Calls that only look, calls that change the text. *)
Definition s_reads (o : sop) : Prop := match o with SLength | SAvailable | SText => True | SEqual mem => cstring mem <> None | _ => False end.
Definition s_writes (o : sop) : Prop := match o with SCopyC mem => cstring mem <> None | SCopySV _ | SClear => True | _ => False end.
(** The characters a call stores into a string with text [t], without the final NUL. *)
Definition s_stores (cap : Z) (t : list Z) (o : sop) : list Z :=
  match o with
  | SCopyC mem => match cstring mem with Some w => prefix_of cap w | None => [] end
  | SCopySV l => prefix_of cap l
  | SCopySelf off => skipn (Z.to_nat off) t
  | _ => []
  end.
(** The texts an array [d] shows while the characters [w] are being stored into it: the characters
    stored so far followed by what the array held behind them; or the new text. *)
Definition shows (d w t : list Z) : Prop :=
  t = until_nul w \/ exists j, 0 <= j <= zlen w /\ cstring (firstn (Z.to_nat j) w ++ skipn (Z.to_nat j) d) = Some t.

(** The text [x] read character by character, character number [i] and then the NUL each at a moment
    no earlier than the one before; [at_moment n d] is the array after the handler's first [n] calls. *)
Definition read_in_passing (at_moment : nat -> list Z -> Prop) (x : list Z) : Prop :=
  exists ns : list nat, length ns = S (length x) /\ (forall i j m n, (i <= j)%nat -> nth_error ns i = Some m -> nth_error ns j = Some n -> (m <= n)%nat) /\
    forall i n, nth_error ns i = Some n -> exists d, at_moment n d /\ znth d (Z.of_nat i) = Some (nth i x 0).
(** A character [c] stood at position [i] at some moment. *)
Definition stood (at_moment : nat -> list Z -> Prop) (i c : Z) : Prop := exists n d, at_moment n d /\ znth d i = Some c.
(** The answer of a reading call in terms of the text read. *)
Definition answers (cap : Z) (at_moment : nat -> list Z -> Prop) (m : sop) (x : list Z) (r : sout) : Prop :=
  match m with
  | SText => r = SoText x
  | SLength => r = SoNum (zlen x)
  | SAvailable => r = SoNum (cap - zlen x)
  | SEqual mem => exists u, cstring mem = Some u /\
      ((r = SoBool true /\ zlen x = zlen u /\ forall i c, znth u i = Some c -> stood at_moment i c) \/
       (r = SoBool false /\ (zlen x <> zlen u \/ exists i c c', znth u i = Some c /\ stood at_moment i c' /\ c' <> c)))
  | _ => False
  end.
