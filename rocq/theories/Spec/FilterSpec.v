(* Filters and oscillators. *)
From Coq Require Import QArith Floats.SpecFloat.
From Verif.Common Require Import Base F32.
From Verif.Spec Require Export Sums.
Open Scope Z_scope.

(** Calls on a resizing oversampler. *)
Inductive roop := OSize (n : Z) | OAdd (x : f32).
(** What it should do: collect samples into a block; the block is complete when it has the
    current size, or when a new size not above its length is set. *)
Record blocks := Blocks { b_size : Z; b_cur : list f32; b_done : option (list f32) }.
Definition blocks_step (s : blocks) (o : roop) : blocks :=
  match o with
  | OAdd x =>
      let cur := b_cur s ++ [x] in
      if zlen cur >=? b_size s then Blocks (b_size s) [] (Some cur) else Blocks (b_size s) cur (b_done s)
  | OSize n =>
      if zlen (b_cur s) >=? n then Blocks n [] (Some (b_cur s)) else Blocks n (b_cur s) (b_done s)
  end.
(** the mean, as floats are summed from left to right *)
Definition fmean (l : list f32) : f32 := fdiv (fold_left fadd l f32_zero) (f32_of_int (zlen l)).
Definition last_mean (s : blocks) : f32 := match b_done s with Some l => fmean l | None => f32_zero end.

(** the point of [[lo, hi]] nearest to [x] *)
Definition nearest_in (lo hi x r : Q) : Prop :=
  (lo <= r)%Q /\ (r <= hi)%Q /\ ((lo <= x)%Q -> (x <= hi)%Q -> (r == x)%Q) /\ ((x < lo)%Q -> (r == lo)%Q) /\ ((hi < x)%Q -> (r == hi)%Q).

(** what an averager over blocks of [n] samples reports: a function [mean] of the sum of the last
    complete block, [v0] before the first is complete *)
Definition last_block_value {R} (mean : Z -> R) (n : Z) (v0 : R) (h : list Z) : R :=
  if zlen h <? n then v0 else mean (zsum (block n (zlen h / n - 1) h)).
