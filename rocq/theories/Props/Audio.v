(* [bpow radix2 e] is the real number 2^e; [finite_f32 x] says that x is a float other than an
   infinity or not-a-number; [fval x] is its value. *)
From Coq Require Import Reals Lra Floats.SpecFloat.
From Flocq Require Import Core.
From Verif.Common Require Import Base F32 F32Order F32Real.
From Verif.Model Require Import MathInt Audio.
From Verif.Proofs Require Audio.
Open Scope Z_scope.

(** C113.  Sign extension of a sample with u used bits in a wider signed type: the number in
    [-2^(u-1), 2^(u-1)) that agrees with the sample in its u low bits. *)
Theorem C113_sign_extend :
  forall w u v, 1 <= u < w -> - 2 ^ (u - 1) <= sign_extend w u true v < 2 ^ (u - 1) /\ sign_extend w u true v mod 2 ^ u = v mod 2 ^ u.
Proof. exact Audio.sign_extend_signed. Qed.
Print Assumptions C113_sign_extend.

Theorem C113_sign_extend_keeps_numbers_in_range :
  forall w u v, 1 <= u <= 24 -> 1 <= u <= w -> - 2 ^ (u - 1) <= v < 2 ^ (u - 1) -> sign_extend w u true v = v.
Proof. intros w u v H. apply Audio.sign_extend_id. exact H. Qed.
Print Assumptions C113_sign_extend_keeps_numbers_in_range.

(** with an unsigned sample type the extended sign bits make a huge number *)
Theorem C113_unsigned_sample_type_refuted :
  forall w u v, 1 <= u < w -> 2 ^ (u - 1) <= v mod 2 ^ u -> sign_extend w u false v = 2 ^ w - 2 ^ u + v mod 2 ^ u.
Proof. exact Audio.sign_extend_unsigned. Qed.
Print Assumptions C113_unsigned_sample_type_refuted.

Example C113_hypotheses_met :
  1 <= 24 < 32 /\ sign_extend 32 24 true (2 ^ 24 - 5) = -5 /\ (2 ^ 24 - 5) mod 2 ^ 24 = (-5) mod 2 ^ 24 /\ sign_extend 32 24 true 77 = 77 /\
  2 ^ (24 - 1) <= (2 ^ 24 - 1) mod 2 ^ 24 /\ sign_extend 32 24 false (2 ^ 24 - 1) = 2 ^ 32 - 1.
Proof. split; [lia|]. vm_compute. repeat split; congruence. Qed.

(** C114.  Signed samples of at most 24 used bits. *)
(** reading a sample: v / 2^(u-1) exactly; writing it back gives the sample again *)
Theorem C114_round_trip :
  forall u w v, 1 <= u <= 24 -> u <= w <= 32 -> - 2 ^ (u - 1) <= v < 2 ^ (u - 1) ->
    fval (scale_input w u true v) = (IZR v / bpow radix2 (u - 1))%R /\ scale_output w u true (scale_input w u true v) = Ok v.
Proof. intros u w v Hu. apply Audio.round_trip. exact Hu. Qed.
Print Assumptions C114_round_trip.

Theorem C114_input_in_range :
  forall w u v, 1 <= u <= 24 -> u < w -> finite_f32 (scale_input w u true v) /\ (-1 <= fval (scale_input w u true v) < 1)%R.
Proof. exact Audio.input_range_signed. Qed.
Print Assumptions C114_input_in_range.

(** writing when all the bits are used: the scaled value, clamped to the sample's range and truncated *)
Theorem C114_output_full_width :
  forall u val, 1 <= u <= 24 -> finite_f32 val ->
    let k := bpow radix2 (u - 1) in
    scale_output u u true val = Ok (Ztrunc (Rmax (- k) (Rmin (k - 1) (fval val * k)))).
Proof. intros u val Hu. apply Audio.output_full. exact Hu. Qed.
Print Assumptions C114_output_full_width.

Theorem C114_output_infinite :
  forall u, 1 <= u <= 24 -> scale_output u u true (S754_infinity false) = Ok (2 ^ (u - 1) - 1) /\ scale_output u u true (S754_infinity true) = Ok (- 2 ^ (u - 1)).
Proof. intros u Hu. split; [exact (Audio.output_full_inf u Hu false)|exact (Audio.output_full_inf u Hu true)]. Qed.
Print Assumptions C114_output_infinite.

Theorem C114_output_nan_undefined : forall w u, scale_output w u true S754_nan = UB BadCast.
Proof. exact Audio.output_nan. Qed.
Print Assumptions C114_output_nan_undefined.

(** writing into a wider type: no clamping before the conversion, which is undefined outside the wide
    type's range, then saturation to 24 bits whatever u is *)
Theorem C114_output_wide :
  forall u w val, 1 <= u <= 24 -> u < w <= 32 -> finite_f32 val ->
    let n := Ztrunc (fval val * bpow radix2 (u - 1)) in
    scale_output w u true val = if (- 2 ^ (w - 1) <=? n) && (n <? 2 ^ (w - 1)) then Ok (sword w (signed_saturate n 24)) else UB BadCast.
Proof. intros u w val Hu. apply Audio.output_wide. exact Hu. Qed.
Print Assumptions C114_output_wide.

(** loud signals: u bits in w are undefined from 2^(w-u) on, and with fewer than 24 bits a value from 1 on leaves
    the u-bit range *)
Theorem C114_wide_saturates_refuted :
  forall u w val, 1 <= u <= 24 -> u < w <= 32 -> finite_f32 val ->
    ((bpow radix2 (w - u) <= fval val)%R -> scale_output w u true val = UB BadCast) /\
    ((1 <= fval val < bpow radix2 (Z.min 24 w - u))%R -> exists n, scale_output w u true val = Ok n /\ 2 ^ (u - 1) <= n).
Proof. intros u w val Hu. apply Audio.wide_loud. exact Hu. Qed.
Print Assumptions C114_wide_saturates_refuted.

Theorem C114_quantisation :
  forall u val, 1 <= u <= 24 -> finite_f32 val -> let k := bpow radix2 (u - 1) in (-1 <= fval val <= (k - 1) / k)%R ->
    exists n, scale_output u u true val = Ok n /\ (Rabs (fval (scale_input u u true n) - fval val) < / k)%R.
Proof. intros u val Hu. apply Audio.quantised. exact Hu. Qed.
Print Assumptions C114_quantisation.

Theorem C114_output_monotone :
  forall u w a b na nb, 1 <= u <= 24 -> u <= w <= 32 -> finite_f32 a -> finite_f32 b -> (fval a <= fval b)%R ->
    scale_output w u true a = Ok na -> scale_output w u true b = Ok nb -> na <= nb.
Proof. intros u w a b na nb Hu. apply Audio.output_monotone. exact Hu. Qed.
Print Assumptions C114_output_monotone.

(** one channel of a frame is written, the others keep their samples *)
Theorem C114_frame :
  forall w u chan n val v, 0 <= n < zlen chan -> scale_output w u true val = Ok v ->
    exists chan', set_scaled_output w u true chan n val = Ok chan' /\ zlen chan' = zlen chan /\ znth chan' n = Some v /\
      (forall m, m <> n -> znth chan' m = znth chan m) /\ scale_input_chan w u true chan' n = Ok (scale_input w u true v) /\
      sign_extend_chan w u true chan' n = Ok (sign_extend w u true v).
Proof. exact Audio.frame_set. Qed.
Print Assumptions C114_frame.

(** with all 32 bits used, full scale is undefined: the upper clamp rounds to 1 *)
Theorem C114_32_bit_full_scale_refuted : forall val, finite_f32 val -> (1 <= fval val)%R -> scale_output 32 32 true val = UB BadCast.
Proof. exact Audio.full32_ub. Qed.
Print Assumptions C114_32_bit_full_scale_refuted.

(** C115.  Unsigned sample types of at most 24 used bits: -1 is 0, 1 is 2^u - 1, in between the order is kept. *)
Theorem C115_output_range_and_order :
  forall w u a b, 1 <= u <= 24 -> u <= w -> finite_f32 a -> finite_f32 b -> (fval a <= fval b)%R ->
    exists na nb, scale_output w u false a = Ok na /\ scale_output w u false b = Ok nb /\ 0 <= na <= nb /\ nb <= 2 ^ u - 1 /\
      ((fval a <= -1)%R -> na = 0) /\ ((1 <= fval b)%R -> nb = 2 ^ u - 1).
Proof.
  intros w u a b Hu Hw Ha Hb H. exists (Audio.uval u (fval a)), (Audio.uval u (fval b)). pose proof (Audio.uval_range u Hu (fval a)). pose proof (Audio.uval_range u Hu (fval b)).
  split; [apply Audio.output_unsigned; assumption|]. split; [apply Audio.output_unsigned; assumption|]. split; [split; [lia|apply Audio.uval_mono; assumption]|]. split; [lia|]. split; intros HH; [apply Audio.uval_bottom|apply Audio.uval_top]; assumption.
Qed.
Print Assumptions C115_output_range_and_order.

Theorem C115_special_values :
  forall w u, 1 <= u <= 24 -> u <= w -> scale_output w u false (S754_infinity false) = Ok (2 ^ u - 1) /\ scale_output w u false (S754_infinity true) = Ok 0 /\ scale_output w u false S754_nan = UB BadCast.
Proof. intros w u Hu Hw. split; [exact (Audio.output_unsigned_inf w u Hu Hw false)|]. split; [exact (Audio.output_unsigned_inf w u Hu Hw true)|apply Audio.unsigned_nan]. Qed.
Print Assumptions C115_special_values.

(** but reading is not the inverse: the upper half of the samples is read as 1 or more, and written back as full scale *)
Theorem C115_round_trip_refuted :
  forall u v, 1 <= u <= 24 -> 2 ^ (u - 1) <= v < 2 ^ u -> scale_output u u false (scale_input u u false v) = Ok (2 ^ u - 1).
Proof. exact Audio.unsigned_trip. Qed.
Print Assumptions C115_round_trip_refuted.

Theorem C115_zero_sample_refuted : forall u, 1 <= u <= 24 -> scale_output u u false (scale_input u u false 0) = Ok (2 ^ (u - 1) - 1).
Proof. exact Audio.unsigned_trip_zero. Qed.
Print Assumptions C115_zero_sample_refuted.

Theorem C115_32_bit_full_scale_refuted : scale_output 32 32 false f32_one = UB BadCast.
Proof. reflexivity. Qed.
Print Assumptions C115_32_bit_full_scale_refuted.

Example C115_hypotheses_met :
  let val := f32_of 3 (-2) in
  finite_f32 val /\ 1 <= 16 <= 24 /\ 2 ^ (16 - 1) <= 40000 < 2 ^ 16 /\
  scale_output 16 16 false val = Ok 57343 /\ scale_output 16 16 false (f32_of_int (-3)) = Ok 0 /\
  scale_output 16 16 false (scale_input 16 16 false 40000) = Ok 65535.
Proof. cbn zeta. split; [split; vm_compute; reflexivity|]. split; [lia|]. split; [lia|]. vm_compute. auto. Qed.

Example C114_hypotheses_met :
  let val := f32_of 3 (-2) in
  finite_f32 val /\ (1 <= 16 <= 24) /\ (- 2 ^ (16 - 1) <= -12345 < 2 ^ (16 - 1)) /\
  scale_output 16 16 true (scale_input 16 16 true (-12345)) = Ok (-12345) /\ scale_output 32 24 true (scale_input 32 24 true (-8388608)) = Ok (-8388608) /\
  scale_output 16 16 true val = Ok 24576 /\ scale_output 16 16 true (f32_of_int 2) = Ok 32767 /\ scale_output 32 24 true (f32_of_int 2) = Ok 8388607 /\
  set_scaled_output 32 24 true [1; 2] 1 val = Ok [1; 6291456] /\ sign_extend 32 24 true (2 ^ 24 - 5) = -5 /\
  scale_output 16 16 false val = Ok 57343 /\ scale_output 16 16 false (scale_input 16 16 false 40000) = Ok 65535 /\
  scale_output 32 24 true (f32_of_int 256) = UB BadCast /\ scale_output 32 16 true (f32_of_int 2) = Ok 65536 /\ scale_input 32 16 true 65536 = f32_zero.
Proof. cbn zeta. repeat match goal with |- _ /\ _ => split end; try lia; try (vm_compute; reflexivity). split; vm_compute; reflexivity. Qed.
