(* Calls on an RGB LED. *)
From Verif.Common Require Import Base F32.
From Verif.Spec Require Export ColorSpec.

Inductive ledop :=
| LBase (c : color)            (* set_base_color *)
| LBlend (c : color)           (* blend_base_color *)
| LAdd (c : color)             (* add_base_color *)
| LFlash (c : color) (ms : f32)
| LFade (c : color) (ms : f32)
| LBreathe (c : color) (freq : f32)
| LNoBreathe                   (* reset_breathe *)
| LCal (adj : color)           (* set_color_calibration *)
| LUpdate.                     (* update_animation *)

(** calls that start no animation *)
Definition quiet (o : ledop) : Prop :=
  match o with LFlash _ _ | LFade _ _ | LBreathe _ _ => False | _ => True end.
(** the base colour and the calibration a history of calls has set, given what blending and
    adding colours do *)
Definition base_after (blend add : color -> color -> color) (c0 : color) (h : list ledop) : color :=
  fold_left (fun c o => match o with LBase d => d | LBlend d => blend c d | LAdd d => add c d | _ => c end) h c0.
Definition cal_after (a0 : color) (h : list ledop) : color := fold_left (fun a o => match o with LCal b => b | _ => a end) h a0.

(** calls whose colours are colours; calls that start no breathing, no flash and no fade *)
Definition proper (o : ledop) : Prop :=
  match o with LBase c | LBlend c | LAdd c | LFlash c _ | LFade c _ | LBreathe c _ | LCal c => is_color c | LNoBreathe | LUpdate => True end.
Definition not_breathing (o : ledop) : Prop := match o with LBreathe _ _ => False | _ => True end.
Definition not_flashing (o : ledop) : Prop := match o with LFlash _ _ | LFade _ _ => False | _ => True end.
(** each channel of [x] lies between those of [a] and [b] *)
Definition between (a b x : color) : Prop :=
  within (red a) (red b) (red x) /\ within (green a) (green b) (green x) /\ within (blue a) (blue b) (blue x).
(** [k]/256 of the way from [a] to [b], rounded down in each channel *)
Definition part_way (k : Z) (a b : color) : color := each2 (fun x y => (x * (256 - k) + y * k) / 256) a b.
