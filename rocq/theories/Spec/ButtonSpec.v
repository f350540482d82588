(* Buttons: what presses and releases a history of calls leaves unread. *)
From Verif.Common Require Import Base.
From Verif.Spec Require Import History.

(** Calls on a toggler. *)
Inductive top :=
| TReg (b : bool)      (* register_state / process with a sample *)
| TPressed | TReleased (* is_just_pressed / is_just_released *)
| TSet (b : bool)      (* set_state_no_events *)
| TClear | TReset      (* clear_events, reset *)
| TRise | TFall.       (* register_rising_edge, register_falling_edge *)

(** The level after a history; low at first. *)
Definition level_step (l : bool) (o : top) : bool :=
  match o with TReg b | TSet b => b | TRise => true | TFall | TReset => false | _ => l end.
Definition level (h : list top) : bool := fold_left level_step h false.

(** A press (release) happened and has not been read or discarded since. *)
Definition press_pending : list top -> Prop :=
  since (fun h o => o = TRise \/ (o = TReg true /\ level h = false))
        (fun _ o => o = TPressed \/ o = TClear \/ o = TReset \/ o = TFall).
Definition release_pending : list top -> Prop :=
  since (fun h o => o = TFall \/ (o = TReg false /\ level h = true))
        (fun _ o => o = TReleased \/ o = TClear \/ o = TReset \/ o = TRise).

(** Debouncing.  [recent bs i] is the i-th most recent of the samples [bs] (oldest first);
    before the first sample the line was low. *)
Definition recent (bs : list bool) (i : nat) : bool := nth i (rev bs) false.
(** The [n] most recent samples are the low [n] bits of [pattern], the newest in bit 0. *)
Definition matches (n : nat) (pattern : Z) (bs : list bool) : Prop :=
  forall i, (i < n)%nat -> recent bs i = Z.testbit pattern (Z.of_nat i).

(** Calls on a debouncer; the samples among them; an edge is detected at a call. *)
Inductive dop := DReg (b : bool) | DPressed | DReleased.
Definition samples (h : list dop) : list bool := flat_map (fun o => match o with DReg b => [b] | _ => [] end) h.
Definition rises (n : nat) (Rising : Z) (h : list dop) (o : dop) : Prop :=
  exists b, o = DReg b /\ matches n Rising (samples h ++ [b]).
Definition falls (n : nat) (Rising Falling : Z) (h : list dop) (o : dop) : Prop :=
  exists b, o = DReg b /\ matches n Falling (samples h ++ [b]) /\ ~ matches n Rising (samples h ++ [b]).
Definition sampled (_ : list dop) (o : dop) : Prop := exists b, o = DReg b.

(** How many samples at the end of a history repeat the one before (low before the first). *)
Fixpoint repeats_rev (rs : list bool) : Z :=
  match rs with
  | [] => 0
  | b :: r => if Bool.eqb b (match r with c :: _ => c | [] => false end) then repeats_rev r + 1 else 0
  end.
Definition repeats (bs : list bool) : Z := repeats_rev (rev bs).

(** The samples since the last edge: the history ends in [post], which has no edge, and either
    the whole history has none or the call just before [post] is one. *)
Definition samples_since (edge : list dop -> dop -> Prop) (h : list dop) (k : Z) : Prop :=
  exists pre post, h = pre ++ post /\ k = zlen (samples post) /\
    (forall p1 x p2, post = p1 ++ x :: p2 -> ~ edge (pre ++ p1) x) /\
    (pre = [] \/ exists p x, pre = p ++ [x] /\ edge p x).
