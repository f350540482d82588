From Coq Require Import Reals Lra Floats.SpecFloat.
From Flocq Require Import Core.
From Verif.Common Require Import Base F32 F32Order F32Real.
From Verif.Model Require Import MathFloat.
From Verif.Proofs Require Absorb MathFloat SineArc.
Open Scope R_scope.

(** C119.  interpolate and interpolate3 in single precision. *)
Theorem C119_interpolate_end_points :
  forall a b s, finite_f32 a -> finite_f32 b ->
    finite_f32 (finterpolate a b (S754_zero s)) /\ fval (finterpolate a b (S754_zero s)) = fval a /\
    finite_f32 (finterpolate a b f32_one) /\ fval (finterpolate a b f32_one) = fval b.
Proof. intros a b s Ha Hb. destruct (MathFloat.interp_at_0 a b s Ha Hb). destruct (MathFloat.interp_at_1 a b Ha Hb). auto. Qed.
Print Assumptions C119_interpolate_end_points.

(** signals within [-2^e, 2^e] stay there *)
Theorem C119_interpolate_bounded :
  forall (e : Z) a b p, (0 <= e <= 125)%Z -> finite_f32 a -> finite_f32 b -> finite_f32 p -> Rabs (fval a) <= bpow radix2 e -> Rabs (fval b) <= bpow radix2 e -> 0 <= fval p <= 1 ->
    Rabs (fval (finterpolate a b p)) <= bpow radix2 e.
Proof. exact MathFloat.interp_bounded. Qed.
Print Assumptions C119_interpolate_bounded.

Theorem C119_interpolate_accuracy :
  forall (e : Z) a b p, (0 <= e <= 125)%Z -> finite_f32 a -> finite_f32 b -> finite_f32 p -> Rabs (fval a) <= bpow radix2 e -> Rabs (fval b) <= bpow radix2 e -> 0 <= fval p <= 1 ->
    Rabs (fval (finterpolate a b p) - (fval a + fval p * (fval b - fval a))) <= 5 * bpow radix2 (e - 25).
Proof. exact MathFloat.interp_accurate. Qed.
Print Assumptions C119_interpolate_accuracy.

Theorem C119_interpolate3_accuracy :
  forall (e : Z) a b p, (0 <= e <= 125)%Z -> finite_f32 a -> finite_f32 b -> finite_f32 p -> Rabs (fval a) <= bpow radix2 e -> Rabs (fval b) <= bpow radix2 e -> 0 <= fval p <= 1 ->
    Rabs (fval (finterpolate3 a b p) - (fval a + fval p * (fval b - fval a))) <= 3 * bpow radix2 (e - 24).
Proof. exact MathFloat.interp3_accurate. Qed.
Print Assumptions C119_interpolate3_accuracy.

Theorem C119_interpolate3_start :
  forall a b s, finite_f32 a -> finite_f32 b -> Rabs (fval b - fval a) <= bpow radix2 127 ->
    finite_f32 (finterpolate3 a b (S754_zero s)) /\ fval (finterpolate3 a b (S754_zero s)) = fval a.
Proof. exact MathFloat.interp3_at_0. Qed.
Print Assumptions C119_interpolate3_start.

(** interpolate3 does not always reach the second end point: if that is below the first times 2^-26 it ends at 0 *)
Theorem C119_interpolate3_end_refuted :
  forall a b, finite_f32 a -> finite_f32 b -> fval a <> 0 -> Rabs (fval b) <= Rabs (fval a) * bpow radix2 (-26) -> Rabs (fval a) <= bpow radix2 126 ->
    finite_f32 (finterpolate3 a b f32_one) /\ fval (finterpolate3 a b f32_one) = 0.
Proof. exact Absorb.step_to_small. Qed.
Print Assumptions C119_interpolate3_end_refuted.

(** an infinite end point spoils even the other end *)
Theorem C119_infinite_end_refuted : forall a s, finite_f32 a -> finterpolate a (S754_infinity s) f32_zero = S754_nan.
Proof. intros a s H. apply MathFloat.interp_inf_nan; [exact H|reflexivity]. Qed.
Print Assumptions C119_infinite_end_refuted.

(** C120.  f_abs and faster_sine. *)
Theorem C120_f_abs : forall x, finite_f32 x -> finite_f32 (f_abs x) /\ fval (f_abs x) = Rabs (fval x).
Proof. exact MathFloat.f_abs_val. Qed.
Print Assumptions C120_f_abs.

(** the sign of a negative zero is not removed *)
Theorem C120_f_abs_sign_refuted : f_abs (S754_zero true) = S754_zero true.
Proof. reflexivity. Qed.
Print Assumptions C120_f_abs_sign_refuted.

Theorem C120_faster_sine_bounded : forall x, finite_f32 x -> 0 <= fval x <= 1 -> -1 <= fval (faster_sine x) <= 1.
Proof. exact MathFloat.sine_bounded. Qed.
Print Assumptions C120_faster_sine_bounded.

(** the parabolic arcs 4 (t - t |t|), t = 2 x - 1 *)
Theorem C120_faster_sine_accuracy :
  forall x, finite_f32 x -> 0 <= fval x <= 1 -> let t := 2 * fval x - 1 in Rabs (fval (faster_sine x) - 4 * (t - t * Rabs t)) <= 5 * bpow radix2 (-24).
Proof. exact MathFloat.sine_accurate. Qed.
Print Assumptions C120_faster_sine_accuracy.

(** and therefore minus the sine of a turn, to within 0.06 *)
Theorem C120_faster_sine_is_minus_sine :
  forall x, finite_f32 x -> 0 <= fval x <= 1 -> Rabs (fval (faster_sine x) + sin (2 * PI * fval x)) <= 6 / 100.
Proof. exact SineArc.sine_close. Qed.
Print Assumptions C120_faster_sine_is_minus_sine.

Theorem C120_faster_sine_quarters :
  faster_sine f32_zero = f32_zero /\ faster_sine (f32_of 1 (-2)) = f32_of_int (-1) /\ faster_sine (f32_of 1 (-1)) = f32_zero /\ faster_sine (f32_of 3 (-2)) = f32_one /\ faster_sine f32_one = f32_zero.
Proof. vm_compute. auto. Qed.
Print Assumptions C120_faster_sine_quarters.

Example C120_hypotheses_met :
  finite_f32 (f32_of 3 (-3)) /\ 0 <= fval (f32_of 3 (-3)) <= 1 /\ faster_sine (f32_of 3 (-3)) = f32_of (-3) (-2) /\ f_abs (f32_of (-3) (-2)) = f32_of 3 (-2).
Proof.
  assert (V : fval (f32_of 3 (-3)) = 3 / 8). { change (fval (f32_of 3 (-3))) with (F2R (Float radix2 12582912 (-25))). unfold F2R. cbn [Fnum Fexp]. change (bpow radix2 (-25)) with (/ 33554432). lra. }
  rewrite V. split; [split; vm_compute; reflexivity|]. split; [lra|]. vm_compute. auto.
Qed.

(** C121.  The hysteresis gates in single precision. *)
Theorem C121_gate_is_0_or_1 :
  forall off on last x, (hysteresis_gate_f off on last x = f32_one \/ hysteresis_gate_f off on last x = f32_zero) /\
    (hysteresis_feedback_f off on last x = f32_one \/ hysteresis_feedback_f off on last x = f32_zero) /\ hysteresis_gate_f off on last S754_nan = f32_zero.
Proof. intros. split; [apply MathFloat.gate_0_1|]. split; [apply MathFloat.feedback_0_1|apply MathFloat.gate_nan]. Qed.
Print Assumptions C121_gate_is_0_or_1.

(** signals and thresholds on a grid of 22 bits (multiples of 2^-k): a gate that is on stays on exactly
    while the input is above the turn-off threshold *)
Theorem C121_gate_on :
  forall (k : Z) off on x noff non nx, (0 <= k <= 120)%Z -> finite_f32 off -> finite_f32 on -> finite_f32 x ->
    fval off = IZR noff * bpow radix2 (- k) -> fval on = IZR non * bpow radix2 (- k) -> fval x = IZR nx * bpow radix2 (- k) ->
    (Z.abs noff <= 2 ^ 21)%Z -> (Z.abs non <= 2 ^ 21)%Z -> (Z.abs nx <= 2 ^ 21)%Z ->
    (hysteresis_gate_f off on f32_one x = f32_one <-> fval off < fval x).
Proof. exact MathFloat.grid_on. Qed.
Print Assumptions C121_gate_on.

(** but a gate that is off turns on half way between the thresholds, not at the turn-on threshold *)
Theorem C121_gate_off :
  forall (k : Z) off on x noff non nx, (0 <= k <= 120)%Z -> finite_f32 off -> finite_f32 on -> finite_f32 x ->
    fval off = IZR noff * bpow radix2 (- k) -> fval on = IZR non * bpow radix2 (- k) -> fval x = IZR nx * bpow radix2 (- k) ->
    (Z.abs noff <= 2 ^ 21)%Z -> (Z.abs non <= 2 ^ 21)%Z -> (Z.abs nx <= 2 ^ 21)%Z ->
    (hysteresis_gate_f off on f32_zero x = f32_one <-> (fval on + fval off) / 2 < fval x).
Proof. exact MathFloat.grid_off. Qed.
Print Assumptions C121_gate_off.

Theorem C121_monotone :
  forall off on last x y, finite_f32 x -> finite_f32 y -> fval x <= fval y ->
    finite_f32 (fmul (fmul (fsub on off) (f32_of 1 (-1))) last) -> finite_f32 (fmul (fadd on off) (f32_of 1 (-1))) ->
    hysteresis_gate_f off on last x = f32_one -> hysteresis_gate_f off on last y = f32_one.
Proof. exact MathFloat.gate_monotone. Qed.
Print Assumptions C121_monotone.

(** hysteresis_feedback: a gate that is off turns on exactly above thresh *)
Theorem C121_feedback_off :
  forall coef thresh x, finite_f32 coef -> finite_f32 thresh -> finite_f32 x -> (hysteresis_feedback_f coef thresh f32_zero x = f32_one <-> fval thresh < fval x).
Proof. exact MathFloat.feedback_off. Qed.
Print Assumptions C121_feedback_off.

(** and one that is on stays on exactly while the input, raised by the feedback and rounded, is above it;
    for inputs and coefficients on a 24-bit grid that is thresh - coef *)
Theorem C121_feedback_on :
  forall coef thresh x, finite_f32 coef -> finite_f32 thresh -> finite_f32 x -> Rabs (fval x + fval coef) <= bpow radix2 127 ->
    (hysteresis_feedback_f coef thresh f32_one x = f32_one <-> fval thresh < RN (fval x + fval coef)).
Proof. exact MathFloat.feedback_on. Qed.
Print Assumptions C121_feedback_on.

Theorem C121_feedback_on_exact :
  forall (k : Z) coef thresh x nc nx, (0 <= k <= 125)%Z -> finite_f32 coef -> finite_f32 thresh -> finite_f32 x ->
    fval coef = IZR nc * bpow radix2 (- k) -> fval x = IZR nx * bpow radix2 (- k) -> (Z.abs nc <= 2 ^ 23)%Z -> (Z.abs nx <= 2 ^ 23)%Z ->
    (hysteresis_feedback_f coef thresh f32_one x = f32_one <-> fval thresh - fval coef < fval x).
Proof. exact MathFloat.feedback_on_grid. Qed.
Print Assumptions C121_feedback_on_exact.

Theorem C121_feedback_monotone :
  forall coef thresh last x y, finite_f32 x -> finite_f32 y -> finite_f32 thresh -> finite_f32 (fmul last coef) -> fval x <= fval y ->
    hysteresis_feedback_f coef thresh last x = f32_one -> hysteresis_feedback_f coef thresh last y = f32_one.
Proof. exact MathFloat.feedback_monotone. Qed.
Print Assumptions C121_feedback_monotone.

Example C121_hypotheses_met :
  let q := f32_of 1 (-2) in let h := f32_of 1 (-1) in let x := f32_of 3 (-3) in
  finite_f32 q /\ finite_f32 h /\ finite_f32 x /\
  hysteresis_feedback_f q h f32_zero x = f32_zero /\ hysteresis_feedback_f q h f32_one x = f32_one /\ hysteresis_feedback_f q h f32_one q = f32_zero /\
  hysteresis_feedback_f q h f32_zero (f32_of 5 (-3)) = f32_one.
Proof. cbn zeta. repeat match goal with |- _ /\ _ => split end; try (vm_compute; reflexivity); try (split; vm_compute; reflexivity). Qed.

Example C119_hypotheses_met :
  let h := f32_of 1 (-1) in let q := f32_of 1 (-2) in let t := f32_of 3 (-2) in
  finite_f32 h /\ finite_f32 q /\ finite_f32 t /\ fval (f32_of_int 1) = IZR 1 * bpow radix2 (- 0) /\
  finterpolate (f32_of_int 2) (f32_of_int 4) h = f32_of_int 3 /\ finterpolate3 (f32_of_int 2) (f32_of_int 4) h = f32_of_int 3 /\ finterpolate3 f32_one (f32_of 1 (-30)) f32_one = f32_zero /\ faster_sine t = f32_one /\
  hysteresis_gate_f q t f32_zero (f32_of 5 (-3)) = f32_one /\ hysteresis_gate_f q t f32_one (f32_of 3 (-3)) = f32_one /\ hysteresis_gate_f q t f32_one q = f32_zero /\ hysteresis_gate_f q t f32_zero (f32_of 3 (-3)) = f32_zero.
Proof.
  cbn zeta. repeat match goal with |- _ /\ _ => split end; try (vm_compute; reflexivity); try (split; vm_compute; reflexivity). destruct (f32_of_int_val 1 ltac:(lia)) as [E _]. rewrite E. change (bpow radix2 (- 0)) with 1. lra.
Qed.
