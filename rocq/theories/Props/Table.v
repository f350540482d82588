From Coq Require Import Reals Lra QArith Floats.SpecFloat.
From Verif.Common Require Import Base F32 F32Order F32Real.
From Verif.Model Require Import Table.
From Verif.Spec Require Import TableSpec.
From Verif.Proofs Require Table TableF.
Open Scope Z_scope.

(** C81.  LookupTable in exact arithmetic: [t] of the way between two neighbouring sample points the
    result is [t] of the way between the two table entries. *)
Theorem C81_lookup_is_linear_between_samples :
  forall (pts : list Q) (mn mx : Q) (j : Z) (t val lo up : Q), 2 <= zlen pts < 2 ^ 32 -> ~ (mx == mn)%Q -> 0 <= j < zlen pts - 1 -> (0 <= t <= 1)%Q ->
    (val == sample_point (zlen pts) mn mx j + t * ((mx - mn) / inject_Z (zlen pts - 1)))%Q -> at_ pts j lo -> at_ pts (j + 1) up ->
    gives (Qlookup pts mn mx val) (lerp lo up t).
Proof. intros pts mn mx j t val lo up HN Hm. apply Table.lookup_between; assumption. Qed.
Print Assumptions C81_lookup_is_linear_between_samples.

Theorem C81_lookup_at_samples :
  forall (pts : list Q) (mn mx : Q) (i : Z) (val x : Q), 2 <= zlen pts < 2 ^ 32 -> ~ (mx == mn)%Q -> (val == sample_point (zlen pts) mn mx i)%Q -> at_ pts i x ->
    gives (Qlookup pts mn mx val) x.
Proof. exact Table.lookup_sample. Qed.
Print Assumptions C81_lookup_at_samples.

Theorem C81_lookup_clamps :
  forall (pts : list Q) (mn mx val : Q), 2 <= zlen pts < 2 ^ 32 -> (mn < mx)%Q ->
    ((val <= mn)%Q -> forall x, at_ pts 0 x -> gives (Qlookup pts mn mx val) x) /\
    ((mx <= val)%Q -> forall x, at_ pts (zlen pts - 1) x -> gives (Qlookup pts mn mx val) x).
Proof. exact Table.lookup_clamps. Qed.
Print Assumptions C81_lookup_clamps.

Theorem C81_lookup_total :
  forall (pts : list Q) (mn mx val : Q), 2 <= zlen pts < 2 ^ 32 -> ~ (mx == mn)%Q -> exists r, Qlookup pts mn mx val = Ok r.
Proof. exact Table.lookup_total. Qed.
Print Assumptions C81_lookup_total.

(** C81.  A generated table reproduces its function at the sample points. *)
Theorem C81_generated_table :
  forall (func : Q -> Q) (N : Z) (mn mx : Q) (i : Z), (forall x y, (x == y)%Q -> (func x == func y)%Q) -> 2 <= N < 2 ^ 32 -> ~ (mx == mn)%Q -> 0 <= i < N ->
    gives (Qlookup (Qgenerate N mn mx func) mn mx (sample_point N mn mx i)) (func (sample_point N mn mx i)).
Proof. exact Table.lookup_generated. Qed.
Print Assumptions C81_generated_table.

(** C81.  In single precision lookup never reads outside the table: it returns, unless the computed
    position is NaN, which is then converted to an integer. *)
Theorem C81_float_lookup_in_bounds :
  forall (pts : list f32) (mn mx val : f32), 2 <= zlen pts <= 2 ^ 24 -> valid_f32 mn -> valid_f32 mx -> valid_f32 val ->
    if is_nan_f32 (fmul (fdiv (fsub val mn) (fsub mx mn)) (f32_of_int (zlen pts - 1))) then Flookup pts mn mx val = UB BadCast else exists r, Flookup pts mn mx val = Ok r.
Proof. exact TableF.lookup_float. Qed.
Print Assumptions C81_float_lookup_in_bounds.

(** C81.  In single precision lookup clamps: at and below min the first entry, at and above max the last. *)
Theorem C81_float_lookup_clamps :
  forall (pts : list f32) (mn mx val : f32), 2 <= zlen pts <= 2 ^ 24 -> finite_f32 mn -> finite_f32 mx -> finite_f32 val ->
    (fval mn < fval mx)%R -> ffinite (fsub mx mn) = true ->
    ((fval val <= fval mn)%R -> Flookup pts mn mx val = rd pts 0) /\ ((fval mx <= fval val)%R -> Flookup pts mn mx val = rd pts (zlen pts - 1)).
Proof.
  intros pts mn mx val HN [Vn Fn] [Vx Fx] [Vv Fv] Hlt FD. apply (fltb_val mn mx) in Hlt; auto.
  destruct (TableF.lookup_float_clamps pts mn mx val HN Vn Vx Vv Fn Fx Fv Hlt FD) as [A B]. split; intros H; [apply A|apply B]; apply fleb_val; auto.
Qed.
Print Assumptions C81_float_lookup_clamps.

(** C81.  An empty range (min = max) is undefined at that very value. *)
Theorem C81_empty_range_refuted :
  forall (pts : list f32) (mn : f32), 2 <= zlen pts <= 2 ^ 24 -> valid_f32 mn -> Flookup pts mn mn mn = UB BadCast.
Proof. exact TableF.lookup_float_degenerate. Qed.
Print Assumptions C81_empty_range_refuted.

(** C81.  InterpArray in exact arithmetic: interp_wrap with phase k + (i+t)/Size, the table closed to a loop. *)
Theorem C81_interp_wrap :
  forall (fuel : nat) (data : list Q) (k i : Z) (t phase x y : Q), 0 < zlen data < 2 ^ 32 -> 0 <= k -> 0 <= i < zlen data -> (0 <= t)%Q -> (t < 1)%Q ->
    (phase == inject_Z k + (inject_Z i + t) / inject_Z (zlen data))%Q -> (k + 1) * zlen data <= 2 ^ 32 -> k <= Z.of_nat fuel ->
    at_ data i x -> at_ data ((i + 1) mod zlen data) y -> gives (Qinterp_wrap fuel data phase) (lerp x y t).
Proof. exact Table.wrap_phase. Qed.
Print Assumptions C81_interp_wrap.

Theorem C81_closest_wrap :
  forall (fuel : nat) (data : list Q) (k i : Z) (t phase x : Q), 0 < zlen data < 2 ^ 32 -> 0 <= k -> 0 <= i < zlen data -> (0 <= t)%Q -> (t < 1)%Q ->
    (phase == inject_Z k + (inject_Z i + t) / inject_Z (zlen data))%Q -> (k + 1) * zlen data <= 2 ^ 32 -> k <= Z.of_nat fuel -> at_ data i x ->
    Qclosest_wrap fuel data phase = Ok x.
Proof. exact Table.closest_wrap_floor. Qed.
Print Assumptions C81_closest_wrap.

(** C81.  interp with phase (i+t)/(Size-1), and closest, which takes the element below. *)
Theorem C81_interp :
  forall (data : list Q) (i : Z) (t phase x y : Q), 1 < zlen data < 2 ^ 32 -> 0 <= i < zlen data -> (0 <= t)%Q -> (t < 1)%Q ->
    (phase == (inject_Z i + t) / inject_Z (zlen data - 1))%Q -> at_ data i x -> at_ data ((i + 1) mod zlen data) y ->
    gives (Qinterp data phase) (lerp x y t).
Proof. exact Table.interp_phase. Qed.
Print Assumptions C81_interp.

Theorem C81_closest :
  forall (data : list Q) (i : Z) (t phase x : Q), 1 < zlen data < 2 ^ 32 -> 0 <= i < zlen data -> (0 <= t)%Q -> (t < 1)%Q ->
    (phase == (inject_Z i + t) / inject_Z (zlen data - 1))%Q -> at_ data i x -> Qclosest data phase = Ok x.
Proof. exact Table.closest_floor. Qed.
Print Assumptions C81_closest.

(** C81.  Beyond the documented phases interp reads outside the array. *)
Theorem C81_interp_beyond_refuted :
  forall (data : list Q) (phase : Q), 1 < zlen data < 2 ^ 32 -> (inject_Z (zlen data) <= phase * inject_Z (zlen data - 1))%Q -> (phase * inject_Z (zlen data - 1) < inject_Z (2 ^ 32 - 1))%Q ->
    Qinterp data phase = UB OutOfBounds.
Proof. exact Table.interp_beyond. Qed.
Print Assumptions C81_interp_beyond_refuted.

(** C81.  In single precision every phase of [0,1] is inside for interp and closest. *)
Theorem C81_float_interp_in_bounds :
  forall (data : list f32) (phase : f32), 1 <= zlen data <= 2 ^ 24 -> finite_f32 phase -> (0 <= fval phase <= 1)%R ->
    (exists r, Finterp data phase = Ok r) /\ (exists r, Fclosest data phase = Ok r).
Proof. intros data phase HS [V F]. apply TableF.interp_in_bounds; assumption. Qed.
Print Assumptions C81_float_interp_in_bounds.

(** C81.  In single precision interp_wrap and closest_wrap return for every phase >= 0 as long as
    phase*Size, rounded, is below 2^32; from there on the conversion is undefined. *)
Theorem C81_float_wrap_in_bounds :
  forall (fuel : nat) (data : list f32) (phase : f32), 1 <= zlen data <= 2 ^ 24 -> finite_f32 phase -> (0 <= fval phase)%R -> (RN (fval phase * IZR (zlen data)) < IZR (2 ^ 32))%R -> 2 ^ 32 <= Z.of_nat fuel ->
    (exists r, Finterp_wrap fuel data phase = Ok r) /\ (exists r, Fclosest_wrap fuel data phase = Ok r).
Proof. intros fuel data phase HS [V F]. apply TableF.wrap_in_bounds; assumption. Qed.
Print Assumptions C81_float_wrap_in_bounds.

Theorem C81_float_wrap_large_phase_refuted :
  forall (fuel : nat) (data : list f32) (phase : f32), 1 <= zlen data <= 2 ^ 24 -> finite_f32 phase -> (IZR (2 ^ 32) <= RN (fval phase * IZR (zlen data)))%R ->
    Finterp_wrap fuel data phase = UB BadCast /\ Fclosest_wrap fuel data phase = UB BadCast.
Proof. intros fuel data phase HS [V F]. apply TableF.wrap_too_big; assumption. Qed.
Print Assumptions C81_float_wrap_large_phase_refuted.

(** C81.  interp(1) gives the last element, although it also reads the first one: if that is infinite
    or NaN the result is NaN. *)
Theorem C81_float_interp_one :
  forall (data : list f32) (first last : f32), 1 <= zlen data <= 2 ^ 24 -> znth data 0 = Some first -> znth data (zlen data - 1) = Some last -> valid_f32 first -> valid_f32 last ->
    exists r, Finterp data f32_one = Ok r /\ (if ffinite first then ffinite last = true -> fval r = fval last else r = S754_nan).
Proof. exact TableF.interp_one. Qed.
Print Assumptions C81_float_interp_one.

(** C81.  A slightly negative phase is not wrapped: interp_wrap extrapolates from the first two elements. *)
Theorem C81_negative_phase_refuted :
  forall (fuel : nat) (data : list Q) (t x y : Q), 1 < zlen data < 2 ^ 32 -> (- (1) < t)%Q -> (t < 0)%Q -> at_ data 0 x -> at_ data 1 y ->
    gives (Qinterp_wrap fuel data (t / inject_Z (zlen data))) (lerp x y t).
Proof. exact Table.wrap_negative. Qed.
Print Assumptions C81_negative_phase_refuted.

(** C81.  Further below zero the conversion is undefined. *)
Theorem C81_very_negative_phase_refuted :
  forall (fuel : nat) (data : list Q) (phase : Q), 0 < zlen data -> (phase * inject_Z (zlen data) <= - (1))%Q -> Qinterp_wrap fuel data phase = UB BadCast.
Proof. exact Table.wrap_negative_ub. Qed.
Print Assumptions C81_very_negative_phase_refuted.

Example C81_hypotheses_met :
  gives (Qlookup [1; 3; 2]%Q 0 4 3) (5#2) /\ gives (Qlookup [1; 3; 2]%Q 0 4 9) 2 /\
  (3 == sample_point 3 0 4 1 + (1#2) * ((4 - 0) / inject_Z 2))%Q /\ at_ [1; 3; 2]%Q 1 3%Q /\ (lerp 3 2 (1#2) == 5#2)%Q /\
  gives (Qinterp_wrap 10 [1; 3; 2]%Q (17#6)) (3#2) /\ gives (Qinterp [1; 3; 2]%Q (3#4)) (5#2) /\ Qclosest [1; 3; 2]%Q (3#4) = Ok 3%Q /\
  Qinterp [1; 3; 2]%Q (3#2) = UB OutOfBounds /\ gives (Qinterp_wrap 10 [1; 3; 2]%Q ((-1#2) / inject_Z 3)) 0.
Proof. repeat split; first [reflexivity | (eexists; split; vm_compute; reflexivity)]. Qed.

Example C81_float_hypotheses_met :
  let two := f32_of_int 2 in let tab := [f32_one; f32_of_int 3; two] in
  finite_f32 f32_zero /\ finite_f32 two /\ ffinite (fsub two f32_zero) = true /\ (fval f32_zero < fval two)%R /\
  Flookup tab f32_zero two (f32_of 3 (-1)) = Ok (f32_of 5 (-1)) /\ Flookup tab f32_zero two (f32_of_int 9) = Ok two /\
  Flookup tab two two two = UB BadCast /\ Finterp tab f32_one = Ok two /\ Finterp [S754_infinity false; two] f32_one = Ok S754_nan /\
  Finterp_wrap 10 tab (f32_of 5 (-1)) = Ok (f32_of 5 (-1)) /\ (0 <= fval f32_one <= 1)%R /\ fval f32_one = 1%R.
Proof.
  cbn zeta. destruct (f32_of_int_val 1) as [E1 _]; [lia|]. destruct (f32_of_int_val 2) as [E2 _]; [lia|]. fold f32_one in E1.
  repeat match goal with |- _ /\ _ => split end; try (vm_compute; reflexivity); try (split; vm_compute; reflexivity); rewrite ?E1, ?E2; try change (fval f32_zero) with 0%R; lra.
Qed.
