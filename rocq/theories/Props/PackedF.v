(* C144: packed colours blended with a float weight, and a colour times a float. *)
From Coq Require Import ZArith Reals Lra Lia List Floats.SpecFloat.
From Flocq Require Import Core.
From Verif.Common Require Import Base F32 F32Real.
From Verif.Spec Require Import ColorSpec.
From Verif.Model Require Import Color.
From Verif.Proofs Require PackedF.
Open Scope R_scope.

(** C144.  For a weight from 0 to 1 both packed blends are defined, close to the exact mixture in
    every channel, and within one step of each other. *)
Theorem C144_packed_blends :
  forall c1 c2 a, uint16 c1 -> uint16 c2 -> finite_f32 a -> 0 <= fval a <= 1 ->
    let mixed (e : R) x y r := Rabs (IZR r - (IZR x + fval a * (IZR y - IZR x))) < e in
    exists s b, slow_blend c1 c2 a = Ok s /\ blend565f c1 c2 a = Ok b /\
      mixed (5 / 4) (red5 c1) (red5 c2) (red5 s) /\ mixed (5 / 4) (green6 c1) (green6 c2) (green6 s) /\ mixed (5 / 4) (blue5 c1) (blue5 c2) (blue5 s) /\
      mixed (9 / 4) (red5 c1) (red5 c2) (red5 b) /\ mixed (9 / 4) (green6 c1) (green6 c2) (green6 b) /\ mixed (9 / 4) (blue5 c1) (blue5 c2) (blue5 b).
Proof. exact PackedF.blends_mixed. Qed.
Print Assumptions C144_packed_blends.
Theorem C144_packed_blends_agree :
  forall c1 c2 a, uint16 c1 -> uint16 c2 -> finite_f32 a -> 0 <= fval a <= 1 ->
    exists s b, slow_blend c1 c2 a = Ok s /\ blend565f c1 c2 a = Ok b /\ uint16 s /\ uint16 b /\
      near 1 (red5 s) (red5 b) /\ near 1 (green6 s) (green6 b) /\ near 1 (blue5 s) (blue5 b).
Proof. exact PackedF.blends_near. Qed.
Print Assumptions C144_packed_blends_agree.
Theorem C144_packed_ends :
  forall c1 c2 s, uint16 c1 -> uint16 c2 ->
    slow_blend c1 c2 (S754_zero s) = Ok c1 /\ slow_blend c1 c2 f32_one = Ok c2 /\ blend565f c1 c2 (S754_zero s) = Ok c1 /\ blend565f c1 c2 f32_one = Ok c2.
Proof. exact PackedF.blends_ends. Qed.
Print Assumptions C144_packed_ends.
(** A colour times a number from 0 to 1 is dimmed, never brighter. *)
Theorem C144_scaling_dims :
  forall c p, is_color c -> finite_f32 p -> 0 <= fval p <= 1 ->
    let dimmed y r := (0 <= r <= y)%Z /\ fval p * IZR y - 1 - / 16384 < IZR r <= fval p * IZR y + / 16384 in
    exists r, scale c p = Ok r /\ dimmed (red c) (red r) /\ dimmed (green c) (green r) /\ dimmed (blue c) (blue r).
Proof. exact PackedF.scale_within. Qed.
Print Assumptions C144_scaling_dims.
(** What does not hold: weights are clamped; a colour can be brightened up to white. *)
Theorem C144_weight_out_of_range_refuted :
  forall c1 c2 a, finite_f32 a -> Rabs (fval a) <= bpow radix2 100 -> fval a <= - / 255 \/ 256 / 255 <= fval a ->
    slow_blend c1 c2 a = UB BadCast /\ blend565f c1 c2 a = UB BadCast.
Proof. exact PackedF.blends_out. Qed.
Print Assumptions C144_weight_out_of_range_refuted.
Theorem C144_scaling_up_refuted :
  forall c p, is_color c -> finite_f32 p -> 1 <= fval p <= bpow radix2 100 -> 256 <= fval p * IZR (red c) -> scale c p = UB BadCast.
Proof. exact PackedF.scale_up_ub. Qed.
Print Assumptions C144_scaling_up_refuted.
Example C144_hypotheses_met :
  let half := f32_of 1 (-1) in let two := f32_of_int 2 in
  uint16 0xF81F /\ uint16 0x07E0 /\ finite_f32 half /\ 0 <= fval half <= 1 /\
  slow_blend 0xF81F 0x07E0 half = Ok 0x7BEF%Z /\ blend565f 0xF81F 0x07E0 half = Ok 0x7BEF%Z /\
  slow_blend 0xF81F 0x07E0 (f32_of 3 (-2)) = Ok 0x3DE7%Z /\ blend565f 0xF81F 0x07E0 (f32_of 3 (-2)) = Ok 0x3DE7%Z /\
  scale (RGB 200 101 7) half = Ok (RGB 100 50 3) /\
  finite_f32 two /\ 1 <= fval two /\ 256 / 255 <= fval two /\ 256 <= fval two * IZR (red (RGB 200 101 7)) /\ scale (RGB 200 101 7) two = UB BadCast.
Proof.
  cbv zeta. assert (V : fval (f32_of 1 (-1)) = / 2). { change (fval (f32_of 1 (-1))) with (F2R (Float radix2 8388608 (-24))). unfold F2R. cbn [Fnum Fexp]. change (bpow radix2 (-24)) with (/ 16777216). lra. }
  assert (V2 : fval (f32_of_int 2) = 2). { change (fval (f32_of_int 2)) with (F2R (Float radix2 8388608 (-22))). unfold F2R. cbn [Fnum Fexp]. change (bpow radix2 (-22)) with (/ 4194304). lra. }
  rewrite V, V2. split; [unfold uint16; lia|]. split; [unfold uint16; lia|]. split; [split; vm_compute; reflexivity|]. split; [lra|].
  split; [vm_compute; reflexivity|]. split; [vm_compute; reflexivity|]. split; [vm_compute; reflexivity|]. split; [vm_compute; reflexivity|]. split; [vm_compute; reflexivity|].
  split; [split; vm_compute; reflexivity|]. cbn [red]. split; [lra|]. split; [lra|]. split; [lra|]. vm_compute. reflexivity.
Qed.
