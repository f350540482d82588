(* C66, C102-C105: filters. *)
From Coq Require Import QArith Qabs Floats.SpecFloat.
From Verif.Common Require Import Base F32.
From Verif.Spec Require Import History FilterSpec.
From Verif.Model Require Import Filter.
From Verif.Proofs Require Filter.
Open Scope Z_scope.

(** C66.  [2 ^ k] is Size, [bits] InputValueBits; [k + bits <= 32] is the static assertion. *)
Theorem C66_moving_average :
  forall k bits h, 0 <= k -> 0 <= bits -> k + bits <= 32 -> Forall (fun v => 0 <= v < 2 ^ bits) h ->
    exists s, run (ma_add (2 ^ k) k) (ma0 (2 ^ k)) h =
      Ok (s, ztab (zlen h) (fun i => zsum (lastn (2 ^ k) (firstn (Z.to_nat (i + 1)) h)) / 2 ^ k)) /\
      ma_val k s = zsum (lastn (2 ^ k) h) / 2 ^ k.
Proof. exact Filter.ma_correct. Qed.
Print Assumptions C66_moving_average.
Theorem C66_oversampler :
  forall k bits h x, 0 <= k < 32 -> 0 <= bits -> k + bits <= 32 -> Forall (fun v => 0 <= v < 2 ^ bits) (h ++ [x]) ->
    let expected := last_block_value (fun sum => sum / 2 ^ k) (2 ^ k) 0 (h ++ [x]) in
    answer (over_add (2 ^ k) k) over0 h x = expected /\ os_val (after (over_add (2 ^ k) k) over0 (h ++ [x])) = expected.
Proof. exact Filter.over_correct. Qed.
Print Assumptions C66_oversampler.
Example C66_hypotheses_met :
  Forall (fun v => 0 <= v < 2 ^ 12) [7; 9; 12; 4095; 4095; 4095] /\
  (exists s, run (ma_add (2 ^ 2) 2) (ma0 (2 ^ 2)) [7; 9; 12; 4095; 4095; 4095] = Ok (s, [1; 4; 7; 1030; 2052; 3074])) /\
  answer (over_add (2 ^ 1) 1) over0 [7; 10] 12 = 8 /\ answer (over_add (2 ^ 1) 1) over0 [7; 10; 12] 4095 = 2053.
Proof. split; [repeat constructor; lia|]. split; [eexists; reflexivity|split; reflexivity]. Qed.

(** C102. *)
Theorem C102_smooth_oversampler :
  forall Size bound h x, 0 < Size < 2 ^ 32 -> Size * (bound - 1) < 2 ^ 32 -> Forall (fun v => 0 <= v < bound) (h ++ [x]) ->
    answer (smooth_add Size) smooth0 h x =
    last_block_value (fun sum => fdiv (f32_of_int sum) (f32_of_int Size)) Size f32_zero (h ++ [x]).
Proof. exact Filter.smooth_correct. Qed.
Print Assumptions C102_smooth_oversampler.
(** The static assertion admits a block of three equal samples whose "mean" is smaller than they
    are. *)
Theorem C102_assertion_too_weak_refuted :
  exists Size bits xs, 2 ^ bits = 2 ^ 31 /\ Size = 3 /\ Z.log2 Size + bits <= 32 /\
    Forall (fun v => 0 <= v < 2 ^ bits) xs /\ zlen xs = Size /\
    exists x, In x xs /\
      SFltb (snd (smooth_add Size (after (smooth_add Size) smooth0 (removelast xs)) (List.last xs 0))) (f32_of_int x) = true /\
      forall y, In y xs -> y = x.
Proof. exact Filter.smooth_overflow. Qed.
Print Assumptions C102_assertion_too_weak_refuted.
Example C102_hypotheses_met :
  3 * (4096 - 1) < 2 ^ 32 /\ Forall (fun v => 0 <= v < 4096) ([10; 20] ++ [25]) /\
  answer (smooth_add 3) smooth0 [10; 20] 25 = fdiv (f32_of_int 55) (f32_of_int 3).
Proof. split; [lia|]. split; [repeat constructor; lia|reflexivity]. Qed.

(** C103. *)
Theorem C103_resizing_oversampler :
  forall size h, 1 <= size < 2 ^ 32 -> (forall n, In (OSize n) h -> 1 <= n < 2 ^ 32) ->
    ro_val (fold_left ro_step h (ro0 size)) = last_mean (fold_left blocks_step h (Blocks size [] None)).
Proof. exact Filter.ro_history. Qed.
Print Assumptions C103_resizing_oversampler.
(** A size of 0 at any time between two blocks: NaN at once, infinity after the next positive sample. *)
Theorem C103_zero_size_refuted :
  forall size h, 1 <= size < 2 ^ 32 -> (forall n, In (OSize n) h -> 1 <= n < 2 ^ 32) ->
    let s := fold_left ro_step h (ro0 size) in
    b_cur (fold_left blocks_step h (Blocks size [] None)) = [] ->
    ro_val (ro_step s (OSize 0)) = S754_nan /\
    (forall m e, ro_val (fold_left ro_step [OSize 0; OAdd (S754_finite false m e)] s) = S754_infinity false).
Proof. exact Filter.ro_zero_size'. Qed.
Print Assumptions C103_zero_size_refuted.
Example C103_hypotheses_met :
  (forall n, In (OSize n) [OAdd f32_one; OAdd (f32_of_int 3); OSize 2; OAdd (f32_of_int 9)] -> 1 <= n < 2 ^ 32) /\
  ro_val (fold_left ro_step [OAdd f32_one; OAdd (f32_of_int 3); OSize 2; OAdd (f32_of_int 9)] (ro0 5)) = f32_of_int 2.
Proof. split; [|reflexivity]. intros n Hn. cbn in Hn. repeat (destruct Hn as [Hn|Hn]; [try discriminate; injection Hn as <-; lia|]). destruct Hn. Qed.

(** C104, in exact arithmetic. *)
Theorem C104_hysteresis_filter :
  forall flat state input, (0 <= flat)%Q ->
    nearest_in (input - flat) (input + flat) state (one_pole (transfer_hysteresis flat) state input).
Proof. exact Filter.hysteresis_nearest. Qed.
Print Assumptions C104_hysteresis_filter.
Theorem C104_nearest_point_is_unique :
  forall lo hi x r r', nearest_in lo hi x r -> nearest_in lo hi x r' -> (r == r')%Q.
Proof. exact Filter.nearest_unique. Qed.
Print Assumptions C104_nearest_point_is_unique.
(** The output moves towards the input by the fraction |input - state| / D of the distance... *)
Theorem C104_quadratic_fraction :
  forall D state input, (0 < D)%Q ->
    (one_pole (transfer_quadratic D) state input - state == Qabs (input - state) / D * (input - state))%Q.
Proof. exact Filter.quadratic_factor. Qed.
Print Assumptions C104_quadratic_fraction.
(** ...so that it stays between them up to distance D, overshoots beyond, and beyond 2 D ends
    farther away than it was. *)
Theorem C104_quadratic_steps :
  forall D state input, (0 < D)%Q ->
    let out := one_pole (transfer_quadratic D) state input in
    ((Qabs (input - state) <= D)%Q ->
       ((state <= input)%Q -> (state <= out)%Q /\ (out <= input)%Q) /\ ((input <= state)%Q -> (input <= out)%Q /\ (out <= state)%Q)) /\
    ((D < Qabs (input - state))%Q -> ((state < input)%Q -> (input < out)%Q) /\ ((input < state)%Q -> (out < input)%Q)) /\
    ((2 * D < Qabs (input - state))%Q -> (Qabs (input - state) < Qabs (input - out))%Q).
Proof. exact Filter.quadratic_steps. Qed.
Print Assumptions C104_quadratic_steps.
Example C104_hypotheses_met :
  (one_pole (transfer_hysteresis 2) 10 15 == 13)%Q /\ (one_pole (transfer_hysteresis 2) 14 15 == 14)%Q /\
  (one_pole (transfer_quadratic 100) 0 50 == 25)%Q /\ (one_pole (transfer_quadratic 100) 0 300 == 900)%Q.
Proof. repeat split; reflexivity. Qed.

(** C105. *)
Theorem C105_val_feeds_second_filter :
  forall (F1 F2 : Type) (add1 : F1 -> Z -> F1) (val1 : F1 -> Z) (add2 : F2 -> Z -> F2 * Z) f1 f2,
    cascade_val val1 add2 (f1, f2) = ((f1, fst (add2 f2 (val1 f1))), snd (add2 f2 (val1 f1))) /\
    (forall xs, fold_left (cascade_add add1) xs (f1, f2) = (fold_left add1 xs f1, f2)).
Proof. exact Filter.cascade_spec. Qed.
Print Assumptions C105_val_feeds_second_filter.
(** Two calls of val() in a row, with no sample between them, differ: two cascaded oversamplers
    of 2, fed two equal samples. *)
Theorem C105_val_is_a_query_refuted :
  forall x, 0 <= x < 2 ^ 31 ->
    let val1 := fun f : oversampler Z => os_val f in
    let s := fold_left (cascade_add (fun f v => fst (over_add 2 1 f v))) [x; x] (over0, over0) in
    exists s1 s2, cascade_val val1 (over_add 2 1) s = (s1, 0) /\ cascade_val val1 (over_add 2 1) s1 = (s2, x).
Proof. exact Filter.cascade_not_query'. Qed.
Print Assumptions C105_val_is_a_query_refuted.
Example C105_hypotheses_met :
  snd (cascade_val (fun f : oversampler Z => os_val f) (over_add 1 0) (fst (over_add 1 0 over0 9), over0)) = 9.
Proof. reflexivity. Qed.
