(* C46-C51, C90-C92: integer helpers. *)
From Verif.Common Require Import Base.
From Verif.Spec Require Import MathSpec.
From Verif.Model Require Import MathInt.
From Verif.Proofs Require MathInt.

(** C46. *)
Theorem C46_is_power_of_2_exact : forall v, uint32 v -> (is_power_of_2 v = true <-> is_pow2 v).
Proof. exact MathInt.is_power_of_2_spec. Qed.
Print Assumptions C46_is_power_of_2_exact.
Theorem C46_log2_floor_exact : forall v, uint32 v -> log2_floor 0 = 0 /\ (0 < v -> floor_log2 v (log2_floor v)).
Proof. exact MathInt.log2_floor_spec. Qed.
Print Assumptions C46_log2_floor_exact.
Theorem C46_next_power_of_2_exact :
  forall W v, W = 8 \/ W = 16 \/ W = 32 -> 0 <= v < 2 ^ W ->
    exists p, least_pow2 v p /\ next_power_of_2 W v = if p <? 2 ^ W then p else 0.
Proof. exact MathInt.next_power_of_2_spec. Qed.
Print Assumptions C46_next_power_of_2_exact.
(** 64-bit: powers of two from 2^32 on are doubled ... *)
Theorem C46_64_bit_powers_doubled_refuted : forall k, 32 <= k < 63 -> next_power_of_2 64 (2 ^ k) = 2 * 2 ^ k.
Proof. exact MathInt.next_64_doubles. Qed.
Print Assumptions C46_64_bit_powers_doubled_refuted.
(** ... and values whose low half is a power of two are returned although they are not one. *)
Theorem C46_64_bit_low_half_power_refuted :
  forall k h, 0 <= k < 32 -> 0 < h < 2 ^ 32 -> next_power_of_2 64 (h * 2 ^ 32 + 2 ^ k) = h * 2 ^ 32 + 2 ^ k.
Proof. intros k h Hk Hh. exact (MathInt.next_64_low_half k Hk h Hh). Qed.
Print Assumptions C46_64_bit_low_half_power_refuted.
(** ipow is the power modulo 2^32. *)
Theorem C46_ipow_exact : forall a b, 0 <= a -> ipow a b = (a ^ Z.of_nat b) mod 2 ^ 32.
Proof. exact MathInt.ipow_mod. Qed.
Print Assumptions C46_ipow_exact.
Theorem C46_Log2_exact : forall fuel N, 0 < N < 2 ^ Z.of_nat fuel -> exists k, log2_t fuel N = Ok k /\ floor_log2 N k.
Proof.
  intros fuel N H. exists (Z.log2 N). split; [exact (MathInt.log2_t_spec fuel N H)|].
  split; [apply Z.log2_nonneg|apply MathInt.log2_bounds, H].
Qed.
Print Assumptions C46_Log2_exact.
(** bipolar_type_range is the largest value of a signed type of that many bytes up to 4 bytes, and 2^32 - 1
    from 5 bytes on. *)
Theorem C46_bipolar_type_range : forall size, 1 <= size <= 4 -> bipolar_type_range size = 2 ^ (8 * size - 1) - 1.
Proof. exact MathInt.bipolar_small. Qed.
Print Assumptions C46_bipolar_type_range.
Theorem C46_bipolar_type_range_64_bit_refuted : forall size, 5 <= size -> bipolar_type_range size = 2 ^ 32 - 1.
Proof. exact MathInt.bipolar_large. Qed.
Print Assumptions C46_bipolar_type_range_64_bit_refuted.
Example C46_hypotheses_met :
  is_power_of_2 4096 = true /\ is_power_of_2 4097 = false /\ log2_floor 4097 = 12 /\
  next_power_of_2 8 129 = 0 /\ next_power_of_2 8 65 = 128 /\ next_power_of_2 16 513 = 1024 /\ next_power_of_2 32 2147483649 = 0 /\
  next_power_of_2 64 4294967297 = 4294967297 /\ next_power_of_2 64 1099511627776 = 2199023255552 /\
  ipow 7 20 = 3095271137 /\ log2_t 20 1000 = Ok 9 /\ bipolar_type_range 2 = 32767 /\ bipolar_type_range 8 = 4294967295.
Proof. vm_compute. repeat split. Qed.

(** C47.  [fuel] bounds the iterations; 2^32 suffice. *)
Theorem C47_wrap_range_exact :
  forall fuel val min max, int32 val -> int32 min -> int32 max -> min <= max -> max - min + 1 < 2 ^ 31 -> (Z.to_nat (2 ^ 32) < fuel)%nat ->
    exists r, wrap_range fuel val min max = Ok r /\ wrapped min max val r /\ forall r', wrapped min max val r' -> r' = r.
Proof.
  intros fuel val min max Hv Hn Hx Hm Hr Hf. destruct (MathInt.wrap_range_spec fuel val min max Hv Hn Hx Hm Hr Hf) as (r & E & H).
  exists r. split; [exact E|]. split; [exact H|]. intros r' H'. exact (MathInt.wrapped_fun _ _ _ _ _ H' H).
Qed.
Print Assumptions C47_wrap_range_exact.
(** A range of 2^31 or more values overflows; an empty range never returns a value. *)
Theorem C47_wide_range_overflows_refuted :
  forall fuel val min max, int32 min -> int32 max -> min <= max -> 2 ^ 31 <= max - min + 1 -> wrap_range fuel val min max = UB SignedOverflow.
Proof. exact MathInt.wrap_range_overflow. Qed.
Print Assumptions C47_wide_range_overflows_refuted.
Theorem C47_empty_range_never_returns :
  forall fuel val min max r, max < min -> wrap_range fuel val min max <> Ok r.
Proof. exact MathInt.wrap_range_empty. Qed.
Print Assumptions C47_empty_range_never_returns.
Theorem C47_wrap_max_is_modulo :
  forall Max, 0 < Max -> forall fuel val, uint32 val -> (Z.to_nat val < fuel)%nat -> wrap_max fuel Max val = Ok (val mod Max).
Proof. exact MathInt.wrap_max_spec. Qed.
Print Assumptions C47_wrap_max_is_modulo.
Theorem C47_wrap_max_zero_diverges : forall fuel val, uint32 val -> wrap_max fuel 0 val = OutOfFuel.
Proof. exact MathInt.wrap_max_zero. Qed.
Print Assumptions C47_wrap_max_zero_diverges.
Example C47_hypotheses_met :
  wrap_range 100 (-99) 1 2 = Ok 1 /\ wrap_range 100 17 (-3) 4 = Ok 1 /\ wrapped (-3) 4 17 1 /\ wrap_max 100 7 40 = Ok 5 /\
  wrap_range 100 0 (-2147483648) 0 = UB SignedOverflow /\ wrap_range 100 5 3 2 = OutOfFuel.
Proof. repeat split; try (vm_compute; congruence). exists (-2). reflexivity. Qed.

(** C90.  wrap<Max, int> on a negative value is off unless Max divides 2^32. *)
Theorem C90_wrap_int_right_for_nonnegative :
  forall Max, 0 < Max <= 2 ^ 31 -> forall fuel val, int32 val -> 0 <= val \/ (2 ^ 32) mod Max = 0 -> (Z.to_nat (2 ^ 32) < fuel)%nat ->
    wrap_max_int fuel Max val = Ok (val mod Max).
Proof. exact MathInt.wrap_int_right. Qed.
Print Assumptions C90_wrap_int_right_for_nonnegative.
Theorem C90_wrap_int_wrong_for_negative_refuted :
  forall Max, 0 < Max <= 2 ^ 31 -> (2 ^ 32) mod Max <> 0 -> forall fuel val, int32 val -> val < 0 -> (Z.to_nat (2 ^ 32) < fuel)%nat ->
    wrap_max_int fuel Max val = Ok ((val + 2 ^ 32) mod Max) /\ (val + 2 ^ 32) mod Max <> val mod Max.
Proof. exact MathInt.wrap_int_wrong. Qed.
Print Assumptions C90_wrap_int_wrong_for_negative_refuted.
Example C90_hypotheses_met :
  (2 ^ 32) mod 2000000001 <> 0 /\ wrap_max_int 5 2000000001 (-1) = Ok 294967293 /\ (-1) mod 2000000001 = 2000000000 /\
  wrap_max_int 9 1073741824 (-1) = Ok 1073741823.
Proof. vm_compute. repeat split; congruence. Qed.

(** C48. *)
Theorem C48_swaps_reverse_bytes :
  (forall b0 b1, bytes_ok [b0; b1] -> swap_bytes16 (from_bytes [b0; b1]) = from_bytes [b1; b0]) /\
  (forall b0 b1 b2 b3, bytes_ok [b0; b1; b2; b3] -> swap_bytes32 (from_bytes [b0; b1; b2; b3]) = from_bytes [b3; b2; b1; b0]).
Proof. split; [exact MathInt.swap16_spec|exact MathInt.swap32_spec]. Qed.
Print Assumptions C48_swaps_reverse_bytes.
Theorem C48_swaps_are_involutions :
  (forall h, 0 <= h < 2 ^ 16 -> swap_bytes16 (swap_bytes16 h) = h) /\ (forall w, 0 <= w < 2 ^ 32 -> swap_bytes32 (swap_bytes32 w) = w).
Proof. split; [exact MathInt.swap16_twice|exact MathInt.swap32_twice]. Qed.
Print Assumptions C48_swaps_are_involutions.
Theorem C48_combine :
  forall a0 a1 b0 b1, bytes_ok [a0; a1] -> bytes_ok [b0; b1] ->
    swap_bytes_and_combine (from_bytes [a0; a1]) (from_bytes [b0; b1]) = from_bytes [b1; b0; a1; a0].
Proof. exact MathInt.combine_spec. Qed.
Print Assumptions C48_combine.
Example C48_hypotheses_met :
  from_bytes [52; 18] = 4660 /\ bytes_ok [52; 18] /\ swap_bytes16 4660 = 13330 /\ swap_bytes32 305419896 = 2018915346 /\
  swap_bytes_and_combine 4660 22136 = 873625686.
Proof. repeat split; vm_compute; repeat constructor; discriminate. Qed.

(** C49. *)
Theorem C49_saturation_is_nearest :
  (forall v n, int32 v -> 1 <= n <= 32 -> nearest (- 2 ^ (n - 1)) (2 ^ (n - 1) - 1) v (signed_saturate v n)) /\
  (forall v n, int32 v -> 0 <= n <= 31 -> nearest 0 (2 ^ n - 1) v (unsigned_saturate v n)) /\
  (forall v n, int32 v -> 0 <= n <= 31 -> nearest 0 (2 ^ n - 1) v (usat v n)) /\
  (forall v lo hi, lo <= hi -> nearest lo hi v (constrain v lo hi)).
Proof.
  split; [exact MathInt.signed_saturate_spec|]. split; [exact MathInt.unsigned_saturate_spec|].
  split; [exact MathInt.usat_spec|exact MathInt.constrain_spec].
Qed.
Print Assumptions C49_saturation_is_nearest.
(** The nearest point is unique, and is the value itself inside the range. *)
Theorem C49_nearest_unique : forall lo hi v r r', nearest lo hi v r -> nearest lo hi v r' -> r = r'.
Proof. exact MathInt.nearest_fun. Qed.
Print Assumptions C49_nearest_unique.
Theorem C49_other_widths_are_identity :
  forall v n, (~ (1 <= n <= 32) -> signed_saturate v n = v) /\ (31 < n -> unsigned_saturate v n = v).
Proof. intros v n. split; [apply MathInt.saturate_other|apply MathInt.unsaturate_other]. Qed.
Print Assumptions C49_other_widths_are_identity.
Theorem C49_distances :
  (forall x y, int32 x -> int32 y ->
     abs_diff x y = (if Z.abs (x - y) <? 2 ^ 31 then Ok (Z.abs (x - y)) else UB SignedOverflow) /\ diff x y = abs_diff x y) /\
  (forall x y, uint32 x -> uint32 y -> abs_diff_u x y = Z.abs (x - y) /\ diff_u x y = Z.abs (x - y)) /\
  (forall x low high, int32 x -> int32 low -> x - low < 2 ^ 31 ->
     between x low high = Ok (if (low <=? x) && (x <=? high) then Some (x - low) else None)) /\
  (forall a b, min2 a b = Z.min a b /\ max2 a b = Z.max a b).
Proof.
  split; [exact MathInt.abs_diff_spec|]. split; [exact MathInt.abs_diff_u_spec|]. split; [exact MathInt.between_spec|exact MathInt.minmax_spec].
Qed.
Print Assumptions C49_distances.
(** array_adj_diff: the differences of neighbours; one that does not fit int is undefined. *)
Theorem C49_array_differences :
  forall x l, (forall i a b, nth_error (x :: l) i = Some a -> nth_error (x :: l) (S i) = Some b -> int32 (b - a)) ->
    exists ds, array_adj_diff (x :: l) = Ok ds /\ length ds = length l /\
      forall i a b, nth_error (x :: l) i = Some a -> nth_error (x :: l) (S i) = Some b -> nth_error ds i = Some (b - a).
Proof. exact MathInt.array_diff_ok. Qed.
Print Assumptions C49_array_differences.
Theorem C49_array_difference_overflow_refuted :
  forall l i a b, nth_error l i = Some a -> nth_error l (S i) = Some b -> ~ int32 (b - a) -> array_adj_diff l = UB SignedOverflow.
Proof. exact MathInt.array_diff_over. Qed.
Print Assumptions C49_array_difference_overflow_refuted.
Example C49_hypotheses_met :
  signed_saturate (-9000000) 24 = -8388608 /\ signed_saturate 5 32 = 5 /\ unsigned_saturate 300 8 = 255 /\ usat (-4) 8 = 0 /\
  constrain 9 1 5 = 5 /\ abs_diff 3 (-4) = Ok 7 /\ abs_diff 2147483647 (-1) = UB SignedOverflow /\ between 7 5 9 = Ok (Some 2) /\ between 4 5 9 = Ok None /\
  array_adj_diff [3; 10; 4] = Ok [7; -6] /\ array_adj_diff [5; -2147483648] = UB SignedOverflow.
Proof. vm_compute. repeat split. Qed.

(** C50. *)
Theorem C50_interpolate_exact_for_nonnegative :
  forall P a b p, 0 < P < 2 ^ 32 -> 0 <= a < 2 ^ 31 -> 0 <= b < 2 ^ 31 -> 0 <= p <= P -> b * p < 2 ^ 31 -> a * (P - p) + b * p < 2 ^ 32 ->
    interpolate P a b p = Ok ((a * (P - p) + b * p) / P) /\ Z.min a b <= (a * (P - p) + b * p) / P <= Z.max a b.
Proof. exact MathInt.interpolate_nonneg. Qed.
Print Assumptions C50_interpolate_exact_for_nonnegative.
Theorem C50_interpolate_negative_refuted :
  forall P a b p, 1 < P < 2 ^ 32 -> int32 (b * p) -> - 2 ^ 32 <= a * (P - p) + b * p < 0 ->
    interpolate P a b p = Ok ((2 ^ 32 + (a * (P - p) + b * p)) / P) /\
    0 <= (2 ^ 32 + (a * (P - p) + b * p)) / P /\ (a * (P - p) + b * p) / P < 0.
Proof. exact MathInt.interpolate_negative. Qed.
Print Assumptions C50_interpolate_negative_refuted.
Example C50_hypotheses_met :
  interpolate 100 10 20 25 = Ok 12 /\ interpolate 100 (-10) (-20) 50 = Ok 42949657 /\ interpolate 100 0 21474837 100 = UB SignedOverflow.
Proof. vm_compute. auto. Qed.

(** C51.  When the dead zone's edges are int32 values. *)
Theorem C51_plateau_removes_the_dead_zone :
  forall val width center, int32 val -> 0 <= width -> int32 (center + width / 2) -> int32 (center - width / 2) ->
    exists d, outside_by (center - width / 2) (center + width / 2) val d /\
      plateau val width center = if (- 2 ^ 31 <=? d) && (d <? 2 ^ 31) then Ok d else UB SignedOverflow.
Proof. exact MathInt.plateau_outside. Qed.
Print Assumptions C51_plateau_removes_the_dead_zone.
Theorem C51_plateau_steps_by_at_most_one :
  forall lo hi v d d', lo <= hi -> outside_by lo hi v d -> outside_by lo hi (v + 1) d' -> 0 <= d' - d <= 1.
Proof. exact MathInt.outside_by_steps. Qed.
Print Assumptions C51_plateau_steps_by_at_most_one.
(** An upper edge beyond int32 wraps: even the centre is then outside the dead zone and the
    subtraction overflows. *)
Theorem C51_wrapped_edge_refuted :
  forall width center, int32 center -> 0 <= width < 2 ^ 32 -> 2 ^ 31 <= center + width / 2 -> plateau center width center = UB SignedOverflow.
Proof. exact MathInt.plateau_wraps. Qed.
Print Assumptions C51_wrapped_edge_refuted.
Example C51_hypotheses_met :
  plateau 32 60 0 = Ok 2 /\ plateau (-31) 60 0 = Ok (-1) /\ plateau 12 5 10 = Ok 0 /\ plateau 13 5 10 = Ok 1 /\
  plateau 2147483646 4 2147483646 = UB SignedOverflow.
Proof. vm_compute. repeat split. Qed.

(** C91.  [W]-bit arithmetic. *)
Theorem C91_map_value_maps_the_range :
  forall W x i0 i1 o0 o1, 1 < W -> let B := 2 ^ (W - 1) in
    - B <= x < B -> - B <= i0 -> i0 < i1 -> i1 < B -> - B <= o0 < B -> - B <= o1 < B ->
    i1 - i0 < B -> - B <= o1 - o0 < B -> i0 <= x <= i1 -> - B <= (x - i0) * (o1 - o0) < B ->
    exists r, map_value W x i0 i1 o0 o1 = Ok r /\ r = Z.quot ((x - i0) * (o1 - o0)) (i1 - i0) + o0 /\
      Z.min o0 o1 <= r <= Z.max o0 o1 /\ (x = i0 -> r = o0) /\ (x = i1 -> r = o1).
Proof. exact MathInt.map_value_total. Qed.
Print Assumptions C91_map_value_maps_the_range.
Theorem C91_map_value_monotone :
  forall W x y i0 i1 o0 o1 r s, i0 < i1 -> o0 <= o1 -> x <= y ->
    map_value W x i0 i1 o0 o1 = Ok r -> map_value W y i0 i1 o0 o1 = Ok s -> r <= s.
Proof. exact MathInt.map_value_monotone. Qed.
Print Assumptions C91_map_value_monotone.
Theorem C91_empty_input_range_undefined :
  forall W x i o0 o1, 1 <= W -> map_value W x i i o0 o1 = UB DivByZero \/ map_value W x i i o0 o1 = UB SignedOverflow.
Proof. exact MathInt.map_value_div0. Qed.
Print Assumptions C91_empty_input_range_undefined.
Example C91_hypotheses_met :
  map_value 32 512 0 1023 (-100) 100 = Ok 0 /\ map_value 32 1023 0 1023 5 (-20) = Ok (-20) /\ map_value 32 3 2 2 0 9 = UB DivByZero /\
  map_value 32 100000 0 100000 0 100000 = UB SignedOverflow.
Proof. vm_compute. auto. Qed.

(** C92.  [r] is what std::rand() returned. *)
Theorem C92_random_number_in_range :
  forall R r lo hi, 0 < R < 2 ^ 31 -> 0 <= r <= R -> int32 lo -> int32 hi -> lo <= hi -> hi - lo < 2 ^ 31 ->
    exists v, random_number 64 R r lo hi = Ok v /\ lo <= v <= hi /\ (v = hi <-> r = R \/ lo = hi).
Proof. exact MathInt.random_number_64. Qed.
Print Assumptions C92_random_number_in_range.
Theorem C92_random_number_overflows_32_bit_long_refuted :
  forall R r lo hi, int32 lo -> int32 hi -> 0 <= hi - lo < 2 ^ 31 -> 2 ^ 31 <= r * (hi - lo) -> random_number 32 R r lo hi = UB SignedOverflow.
Proof. exact MathInt.random_number_32. Qed.
Print Assumptions C92_random_number_overflows_32_bit_long_refuted.
Example C92_hypotheses_met :
  random_number 64 2147483647 2147483646 1 6 = Ok 5 /\ random_number 64 2147483647 2147483647 1 6 = Ok 6 /\
  random_number 32 2147483647 1000000000 1 6 = UB SignedOverflow.
Proof. vm_compute. auto. Qed.
