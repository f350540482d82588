(* C77-C80: calibrators, meters, callables and stream buffers. *)
From Coq Require Import QArith Floats.SpecFloat.
From Verif.Common Require Import Base F32 F32Order.
From Verif.Spec Require Import CalibSpec.
From Verif.Model Require Import Calib.
From Verif.Proofs Require Calib.
Open Scope Z_scope.

Notation Qadjust := (adjust Qminus Qmult).
Notation Qreverse := (reverse_calibrate Qdiv Qplus).
Notation Qcalibrate := (calibrate_chan Qminus Qdiv).

(** C77. *)
Theorem C77_hits_targets :
  forall tl th ml mh, ~ (tl == th)%Q -> ~ (ml == mh)%Q ->
    let c := Qcalibrate tl th ml mh in
    ~ (cal_slope c == 0)%Q /\ (Qadjust c ml == tl)%Q /\ (Qadjust c mh == th)%Q.
Proof. exact Calib.cal_hits. Qed.
Print Assumptions C77_hits_targets.
Theorem C77_reverse_is_inverse :
  forall c x, ~ (cal_slope c == 0)%Q -> (Qreverse c (Qadjust c x) == x)%Q /\ (Qadjust c (Qreverse c x) == x)%Q.
Proof. exact Calib.cal_inverse. Qed.
Print Assumptions C77_reverse_is_inverse.
Theorem C77_reverse_hits_measurements :
  forall tl th ml mh, ~ (tl == th)%Q -> ~ (ml == mh)%Q ->
    let c := Qcalibrate tl th ml mh in (Qreverse c tl == ml)%Q /\ (Qreverse c th == mh)%Q.
Proof. exact Calib.cal_reverse_hits. Qed.
Print Assumptions C77_reverse_hits_measurements.
(** In single precision: equal targets make every adjusted value NaN, and reverse_calibrate is not
    exactly the inverse. *)
Theorem C77_equal_targets_refuted :
  let c := calibrate_chan fsub fdiv f32_one f32_one f32_zero (f32_of_int 5) in
  forall raw, valid_f32 raw -> adjust fsub fmul c raw = S754_nan.
Proof. exact Calib.cal_float_degenerate. Qed.
Print Assumptions C77_equal_targets_refuted.
Theorem C77_single_precision_inverse_refuted :
  exists raw, valid_f32 raw /\
    let c := Cal (fdiv (f32_of_int 105) (f32_of_int 100)) (fdiv (f32_of_int (-3)) (f32_of_int 1000)) in
    reverse_calibrate fdiv fadd c (adjust fsub fmul c raw) <> raw.
Proof. exact Calib.cal_float_inexact. Qed.
Print Assumptions C77_single_precision_inverse_refuted.
(** VoctCalibrator: after any history the last C0 measured is the offset; the last two measurements
    determine the slope, and the offset if no C0 was measured. *)
Theorem C77_voct_last_two :
  forall ops, Forall valid_note ops -> exists s, voct_run voct0 ops = Ok s /\
    (forall l m r, measurements ops = l ++ (0, m) :: r -> Forall (fun p => fst p <> 0) r -> vc_offset s = m) /\
    (forall l p q, measurements ops = l ++ [p; q] -> fst p <> fst q -> ~ (snd p == snd q)%Q ->
       (vc_slope s == (snd p - snd q) / inject_Z (fst p - fst q))%Q /\
       ((forall m, ~ In (0, m) (measurements ops)) ->
          (vc_offset s + vc_slope s * inject_Z (fst p) == snd p)%Q /\ (vc_offset s + vc_slope s * inject_Z (fst q) == snd q)%Q)).
Proof. exact Calib.voct_last_two. Qed.
Print Assumptions C77_voct_last_two.
(** If all measurements since the last reset lie on a line and two in a row were of different notes,
    the line is recovered. *)
Theorem C77_voct_linear :
  forall a b ops, Forall valid_note ops -> on_line a b (measurements ops) -> two_notes (measurements ops) ->
    exists s, voct_run voct0 ops = Ok s /\ (vc_slope s == a)%Q /\ (vc_offset s == b)%Q.
Proof. exact Calib.voct_linear. Qed.
Print Assumptions C77_voct_linear.
Example C77_hypotheses_met :
  let c := Qcalibrate 0%Q 4%Q (1 # 10) (81 # 10) in
  (cal_slope c == 1 # 2)%Q /\ (Qadjust c (41 # 10) == 2)%Q /\ (Qreverse c 3%Q == 61 # 10)%Q /\
  let ops := [VRec 5 9%Q; VReset; VRec 2 (5 # 2); VRec 11 77%Q; VRec 4 (9 # 2); VRec 4 (9 # 2)] in
  Forall valid_note ops /\ on_line 1%Q (1 # 2) (measurements ops) /\ two_notes (measurements ops) /\
  measurements ops = [(2, 5 # 2); (4, 9 # 2); (4, 9 # 2)] /\
  exists s, voct_run voct0 ops = Ok s /\ (vc_slope s == 1)%Q /\ (vc_offset s == 1 # 2)%Q.
Proof.
  cbn zeta. split; [reflexivity|]. split; [reflexivity|]. split; [reflexivity|].
  split; [repeat constructor; cbn; lia|]. split; [repeat constructor|]. split; [exists [], (2, 5 # 2), (4, 9 # 2), [(4, 9 # 2)]; split; [reflexivity|discriminate]|].
  split; [reflexivity|]. eexists. split; [reflexivity|]. split; reflexivity.
Qed.

(** C78. *)
Theorem C78_integer_extrema :
  forall lo hi ops, Forall (fun x => lo <= x <= hi) (seen ops) -> seen ops <> [] ->
    let s := fold_left (pm_step Z.ltb hi lo) ops (hi, lo) in
    is_extreme Z.le (fst s) (seen ops) /\ is_extreme Z.ge (snd s) (seen ops).
Proof. exact Calib.peak_int. Qed.
Print Assumptions C78_integer_extrema.
(** For float, NaN samples are ignored and the limits FLT_MAX and FLT_MIN take part. *)
Theorem C78_float_extrema :
  forall ops, Forall valid_f32 (seen ops) ->
    let s := fold_left (pm_step SFltb FLT_MAX FLT_MIN) ops (FLT_MAX, FLT_MIN) in
    let numbers := filter (fun x => negb (is_nan_f32 x)) (seen ops) in
    is_extreme (fun x y => SFleb x y = true) (fst s) (FLT_MAX :: numbers) /\
    is_extreme (fun x y => SFleb y x = true) (snd s) (FLT_MIN :: numbers).
Proof. exact Calib.peak_float. Qed.
Print Assumptions C78_float_extrema.
(** FLT_MAX is the largest number and below FLT_MIN there are only subnormal positive numbers; so as
    soon as a sample is neither NaN nor +infinity the minimum is one of the samples, and as soon as one
    is at least FLT_MIN the maximum is. *)
Theorem C78_float_limits :
  forall x, valid_f32 x -> is_nan_f32 x = false ->
    (SFleb x FLT_MAX = true <-> x <> S754_infinity false) /\
    (SFltb f32_zero x = true -> SFltb x FLT_MIN = true -> exists m, x = S754_finite false m (-149) /\ Z.pos m < 2 ^ 23).
Proof. exact Calib.float_limits. Qed.
Print Assumptions C78_float_limits.
Theorem C78_float_extrema_of_samples :
  forall ops x, Forall valid_f32 (seen ops) -> In x (seen ops) -> is_nan_f32 x = false ->
    let s := fold_left (pm_step SFltb FLT_MAX FLT_MIN) ops (FLT_MAX, FLT_MIN) in
    let numbers := filter (fun x => negb (is_nan_f32 x)) (seen ops) in
    (x <> S754_infinity false -> is_extreme (fun x y => SFleb x y = true) (fst s) numbers) /\
    (SFleb FLT_MIN x = true -> is_extreme (fun x y => SFleb y x = true) (snd s) numbers).
Proof. exact Calib.peak_float_finite. Qed.
Print Assumptions C78_float_extrema_of_samples.
(** So when all samples are negative the maximum is FLT_MIN, a positive number never seen. *)
Theorem C78_negative_signal_refuted :
  forall ops, Forall (fun x => valid_f32 x /\ SFltb x f32_zero = true) (seen ops) ->
    snd (fold_left (pm_step SFltb FLT_MAX FLT_MIN) ops (FLT_MAX, FLT_MIN)) = FLT_MIN /\
    ~ In FLT_MIN (seen ops) /\ SFltb f32_zero FLT_MIN = true.
Proof. exact Calib.peak_float_negative. Qed.
Print Assumptions C78_negative_signal_refuted.
(** AnalyzedSig, whose reset_to c starts both extrema at c: extrema of c and the samples since. *)
Theorem C78_analyzed_signal :
  forall c l, valid_f32 c -> is_nan_f32 c = false -> Forall valid_f32 l ->
    let s := fold_left (pm_update SFltb) l (c, c) in
    let numbers := filter (fun x => negb (is_nan_f32 x)) l in
    is_extreme (fun x y => SFleb x y = true) (fst s) (c :: numbers) /\
    is_extreme (fun x y => SFleb y x = true) (snd s) (c :: numbers).
Proof. exact Calib.analyzed_float. Qed.
Print Assumptions C78_analyzed_signal.
Example C78_hypotheses_met :
  seen [PUpdate 5; PReset; PUpdate 3; PUpdate (-7); PUpdate 2] = [3; -7; 2] /\
  fold_left (pm_step Z.ltb 127 (-128)) [PUpdate 5; PReset; PUpdate 3; PUpdate (-7); PUpdate 2] (127, -128) = (-7, 3) /\
  let f := f32_of_int in
  fold_left (pm_step SFltb FLT_MAX FLT_MIN) [PUpdate (f 5); PUpdate S754_nan; PUpdate (f (-2))] (FLT_MAX, FLT_MIN) = (f (-2), f 5) /\
  fold_left (pm_step SFltb FLT_MAX FLT_MIN) [PUpdate (f (-5)); PUpdate (f (-2))] (FLT_MAX, FLT_MIN) = (f (-5), FLT_MIN) /\
  Forall (fun x => valid_f32 x /\ SFltb x f32_zero = true) [f (-5); f (-2)].
Proof. repeat split; try reflexivity. repeat constructor. Qed.

(** C79.  Without copies and assignments: used only between construction and destruction, destroyed
    at most once, and destroyed exactly when no variable holds it any more. *)
Theorem C79_destroyed_once :
  forall ops s, Forall no_copies ops -> fs_run fs0 ops = Ok s ->
    no_use_after_destroy (fs_log s) /\ constructed_first (fs_log s) /\
    forall id, In (EConstruct id) (fs_log s) -> (In (EDestroy id) (fs_log s) <-> forall v, fs_vars s v <> Holds id).
Proof. exact Calib.callable_once. Qed.
Print Assumptions C79_destroyed_once.
(** A call runs the held callable, and needs one. *)
Theorem C79_calls_forward :
  forall s v, match fs_vars s v with
    | Holds id => fs_step s (FCall v) = Ok (FS (fs_vars s) (fs_next s) (fs_log s ++ [ECall id]))
    | _ => fs_step s (FCall v) = UB BadDeref
    end.
Proof. exact Calib.call_forwards. Qed.
Print Assumptions C79_calls_forward.
(** A copy uses the callable after the destruction of the original and destroys it again. *)
Theorem C79_copy_refuted :
  forall s v w id, fs_vars s v = Holds id -> fs_vars s w = Absent ->
    exists s', fs_run s [FCopy w v; FDestroy v; FCall w; FDestroy w] = Ok s' /\
      fs_log s' = fs_log s ++ [EDestroy id; ECall id; EDestroy id].
Proof. exact Calib.copy_destroys_twice. Qed.
Print Assumptions C79_copy_refuted.
(** Assigning a callable leaves the bytes of a destroyed one, and never destroys the one held
    before. *)
Theorem C79_assign_refuted :
  forall s v, fs_vars s v <> Absent ->
    exists s', fs_run s [FAssignNew v; FCall v; FDestroy v] = Ok s' /\
      fs_log s' = fs_log s ++ [EConstruct (fs_next s); EDestroy (fs_next s); ECall (fs_next s); EDestroy (fs_next s)].
Proof. exact Calib.assign_uses_destroyed. Qed.
Print Assumptions C79_assign_refuted.
Example C79_hypotheses_met :
  (exists s, fs_run fs0 [FMake 1; FDefault 2; FMake 3; FCall 1; FDestroy 1; FCall 3; FDestroy 2] = Ok s /\
     fs_log s = [EConstruct 0; EConstruct 1; ECall 0; EDestroy 0; ECall 1] /\ fs_vars s 3 = Holds 1) /\
  Forall no_copies [FMake 1; FDefault 2; FMake 3; FCall 1; FDestroy 1; FCall 3; FDestroy 2] /\
  fs_run fs0 [FDefault 2; FCall 2] = UB BadDeref.
Proof. split; [eexists; repeat split; reflexivity|]. split; [repeat constructor|reflexivity]. Qed.

(** C80. *)
Theorem C80_input :
  forall {A : Type} N (dflt : A) ops, 0 <= N < 2 ^ 64 ->
    exists s, in_run N (stream0 N dflt) ops = Ok s /\ fst s = shown N (zrepeat dflt N) ops /\
      in_full N s = (N <=? zlen (items ops)) /\ in_size N s = N.
Proof. intros A. exact Calib.in_history. Qed.
Print Assumptions C80_input.
Theorem C80_input_keeps_first :
  forall {A : Type} N (dflt : A) ops, 0 <= N < 2 ^ 64 ->
    exists s, in_run N (stream0 N dflt) ops = Ok s /\ zlen (fst s) = N /\
      forall i, 0 <= i < N -> i < zlen (items ops) -> znth (fst s) i = znth (items ops) i.
Proof. intros A. exact Calib.in_first. Qed.
Print Assumptions C80_input_keeps_first.
(** The OutputBuffer refines a stream with an unbounded read counter. *)
Theorem C80_output :
  forall {A : Type} N (dflt : A) ops, 0 <= N < 2 ^ 64 ->
    Forall (fun o => match o with OutFill i _ => 0 <= i < N | _ => True end) ops ->
    exists s, run (out_step N dflt) (stream0 N dflt) ops = Ok (s, snd (srun (stream_step N dflt) (stream0 N dflt) ops)).
Proof. intros A. exact Calib.out_history. Qed.
Print Assumptions C80_output.
Example C80_hypotheses_met :
  in_run 3 (stream0 3 0) [InPut 1; InPut 2; InPut 3; InPut 4; InReset; InPut 5] = Ok ([5; 2; 3], 1) /\
  in_full 3 ([5; 2; 3], 1) = false /\ in_size 3 ([5; 2; 3], 1) = 3 /\
  snd (srun (stream_step 2 0) (stream0 2 0) [OutFill 0 7; OutFill 1 8; OutGet; OutGet; OutGet; OutReset; OutGet]) =
    [None; None; Some 7; Some 8; Some 0; None; Some 7].
Proof. repeat split; reflexivity. Qed.
