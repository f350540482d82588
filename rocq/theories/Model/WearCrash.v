(* util/wear_level.hh, WearLeveler and WearLevel (lines 10-124), through a life with any number of
   power failures.  The calls are those of Model/WearLevel.v; what a failure leaves is its [crash]. *)
From Verif.Common Require Import Base.
From Verif.Spec Require Import WearSpec WearCrashSpec.
From Verif.Model Require Import WearLevel.

Definition erasing (l : list access) : bool := existsb (fun a => match a with AErase => true | _ => false end) l.

Section Life.
Context {S D : Type} (st : storage S D).
Variables (W N : Z) (valid : D -> bool) (cell : S -> Z -> content D) (reset : bool) (d0 : D).

(* A call completes (lines 43-76, 98-123), or the power fails in a write (60-76, 109-123) and a new
   object is constructed (28-39, 86-96) on what is left. *)
Inductive wl_life : @wl S -> list (wevent D) -> list (wseen D) -> @wl S -> Prop :=
| life_nil w : wl_life w [] [] w
| life_call w o w1 r l es rs w' :
    wl_step st W N valid reset d0 w o = Ok (w1, (r, l)) -> wl_life w1 es rs w' ->
    wl_life w (Call o :: es) (Answer r :: rs) w'
| life_lost w x w1 ok log s' es rs w' :
    wl_write st W N reset w x = Ok (w1, ok, log) -> crash st N valid cell x (wl_store w) log s' ->
    wl_life (construct st N valid s' d0) es rs w' ->
    wl_life w (Lost x :: es) (CutOff (erasing log) :: rs) w'.
End Life.
