(* C129-C133: interpolated parameters, tables, filters, calibrators and averagers in single
   precision arithmetic, against exact arithmetic. *)
From Coq Require Import Reals Lra Floats.SpecFloat.
From Flocq Require Import Core.
From Verif.Common Require Import Base F32 F32Order F32Real.
From Verif.Common Require Lemmas F32Err.
From Verif.Spec Require Import History Sums FilterSpec PolyLine RealMean.
From Verif.Model Require Import Interp Table FilterF Filter Calib.
From Verif.Proofs Require Absorb InterpFloat TableAcc FilterFloat CalibFloat MeanFloat.
Open Scope R_scope.

(** C129.  InterpParam<float, N>: the value after [k] of the [N] updates that follow
    set_new_value([v]). *)
Notation fip_after N p v k := (ip_cur (Nat.iter k (fun q => fst (ip_next fadd q)) (ip_set fsub fdiv f32_of_int N p v))).
Theorem C129_follows_the_line :
  forall (e N : Z) p v k, (-60 <= e <= 120)%Z -> (1 <= N <= 2 ^ 22)%Z -> finite_f32 (ip_cur p) -> finite_f32 v -> Rabs (fval (ip_cur p)) <= bpow radix2 e -> Rabs (fval v) <= bpow radix2 e -> (Z.of_nat k <= N)%Z ->
    finite_f32 (fip_after N p v k) /\
    Rabs (fval (fip_after N p v k) - (fval (ip_cur p) + INR k * ((fval v - fval (ip_cur p)) / IZR N))) <= (INR k + 4) * bpow radix2 (e - 24).
Proof. intros e N p v k He HN Fc Fv Bc Bv Hk. rewrite (InterpFloat.after_eq N p v k : fip_after N p v k = _). exact (InterpFloat.ramp_bound e N (ip_cur p) v He HN Fc Fv Bc Bv k Hk). Qed.
Print Assumptions C129_follows_the_line.
Theorem C129_never_turns_back :
  forall (e N : Z) p v k, (-60 <= e <= 120)%Z -> (1 <= N <= 2 ^ 22)%Z -> finite_f32 (ip_cur p) -> finite_f32 v -> Rabs (fval (ip_cur p)) <= bpow radix2 e -> Rabs (fval v) <= bpow radix2 e -> (Z.of_nat (S k) <= N)%Z ->
    (fval (ip_cur p) <= fval v -> fval (fip_after N p v k) <= fval (fip_after N p v (S k))) /\
    (fval v <= fval (ip_cur p) -> fval (fip_after N p v (S k)) <= fval (fip_after N p v k)).
Proof. intros e N p v k He HN Fc Fv Bc Bv Hk. rewrite (InterpFloat.after_eq N p v k : fip_after N p v k = _), (InterpFloat.after_eq N p v (S k) : fip_after N p v (S k) = _). exact (InterpFloat.ramp_monotone e N (ip_cur p) v He HN Fc Fv Bc Bv k Hk). Qed.
Print Assumptions C129_never_turns_back.
(** It does not arrive at the target: ten updates from 0 to 1 end at 1 + 2^-23. *)
Theorem C129_arrives_refuted :
  fip_after 10 (IP f32_zero f32_zero) f32_one 10 = f32_of 8388609 (-23) /\ fip_after 10 (IP f32_zero f32_zero) f32_one 10 <> f32_one.
Proof. split; [exact InterpFloat.misses|]. vm_compute. discriminate. Qed.
Print Assumptions C129_arrives_refuted.
(** Small changes never happen: with a step below the current value times 2^-26 - the distance to the
    target is at most 2^a, there are at least 2^b updates and the value is at least 2^(a-b+26) - the value
    never moves, however many updates follow. *)
Theorem C129_small_changes_happen_refuted :
  forall N p v (a b c : Z) k, finite_f32 (ip_cur p) -> finite_f32 v -> (Z.abs N <= 2 ^ 24)%Z -> (0 <= b)%Z -> (2 ^ b <= N)%Z ->
    Rabs (fval v - fval (ip_cur p)) <= bpow radix2 a -> (-149 <= a - b)%Z -> (a <= 126)%Z ->
    bpow radix2 c <= Rabs (fval (ip_cur p)) <= bpow radix2 126 -> (a - b + 26 <= c)%Z ->
    fip_after N p v k = ip_cur p.
Proof. exact Absorb.ramp_stays. Qed.
Print Assumptions C129_small_changes_happen_refuted.
Example C129_hypotheses_met :
  let p := IP (f32_of_int 3) f32_zero in let v := f32_of_int (-5) in
  finite_f32 (ip_cur p) /\ finite_f32 v /\ Rabs (fval (ip_cur p)) <= bpow radix2 3 /\ Rabs (fval v) <= bpow radix2 3 /\ fip_after 16 p v 4 = f32_of_int 1 /\ fip_after 16 p v 16 = v /\
  fip_after 1024 (IP f32_one f32_zero) (f32_of (2 ^ 16 + 1) (-16)) 1024 = f32_one /\ (2 ^ 10 <= 1024)%Z /\ (-16 - 10 + 26 <= 0)%Z /\ fip_after 64 (IP f32_one f32_zero) (f32_of (2 ^ 16 + 1) (-16)) 64 = f32_of (2 ^ 16 + 1) (-16).
Proof.
  cbn zeta. cbn [ip_cur]. destruct (f32_of_int_val 3 ltac:(lia)) as [E3 _]. destruct (f32_of_int_val (-5) ltac:(lia)) as [E5 _]. rewrite E3, E5. change (bpow radix2 3) with 8.
  repeat match goal with |- _ /\ _ => split end; try (vm_compute; reflexivity); try (split; vm_compute; reflexivity); try (apply Rabs_le; lra); lia.
Qed.

(** C130.  LookupTable<N> and InterpArray<float, N>: a table of numbers of size up to 2^e, whose
    neighbours differ by at most [L], read at a fraction of its length. *)
Theorem C130_lookup_accuracy :
  forall (e : Z) (L : R) (pts : list f32) mn mx val, (0 <= e <= 125)%Z -> (2 <= zlen pts <= 2 ^ 24)%Z -> 0 <= L ->
    (forall i d, znth pts i = Some d -> finite_f32 d /\ Rabs (fval d) <= bpow radix2 e) -> slopes_within L (map fval pts) ->
    finite_f32 mn -> finite_f32 mx -> finite_f32 val -> Rabs (fval mn) <= bpow radix2 126 -> Rabs (fval mx) <= bpow radix2 126 -> fval mn < fval mx -> fval mn <= fval val <= fval mx ->
    let last := IZR (zlen pts - 1) in
    exists r, Flookup pts mn mx val = Ok r /\ finite_f32 r /\
      Rabs (fval r - polyline (map fval pts) ((fval val - fval mn) / (fval mx - fval mn) * last)) <= 5 / 16777216 * last * L + 3 * bpow radix2 (e - 24).
Proof.
  intros e L pts mn mx val He HN HL HP HS F1 F2 F3 B1 B2 H1 H2 last. destruct (TableAcc.lookup_accurate e L pts He HN HL HP HS mn mx val F1 F2 F3 B1 B2 H1 H2) as (r & A & B & C). exists r. split; [exact A|]. split; [exact B|]. rewrite F32Err.fu_val in C. unfold last, Rdiv. exact C.
Qed.
Print Assumptions C130_lookup_accuracy.
Theorem C130_interp_accuracy :
  forall (e : Z) (L : R) (pts : list f32) phase, (0 <= e <= 125)%Z -> (2 <= zlen pts <= 2 ^ 24)%Z -> 0 <= L ->
    (forall i d, znth pts i = Some d -> finite_f32 d /\ Rabs (fval d) <= bpow radix2 e) -> slopes_within L (map fval pts) ->
    finite_f32 phase -> 0 <= fval phase <= 1 ->
    let last := IZR (zlen pts - 1) in
    exists r, Finterp pts phase = Ok r /\ finite_f32 r /\ Rabs (fval r) <= bpow radix2 e /\
      Rabs (fval r - polyline (map fval pts) (fval phase * last)) <= / 16777216 * last * L + 5 * bpow radix2 (e - 25).
Proof.
  intros e L pts phase He HN HL HP HS F1 H1 last. destruct (TableAcc.interp_line e L pts He HN HL HP HS phase F1 H1) as (r & A & B & C & D). exists r. rewrite F32Err.fu_val in D. auto.
Qed.
Print Assumptions C130_interp_accuracy.
Example C130_hypotheses_met :
  let pts := [f32_of_int 0; f32_of_int 4; f32_of_int 6] in
  (forall i d, znth pts i = Some d -> finite_f32 d /\ Rabs (fval d) <= bpow radix2 3) /\ slopes_within 4 (map fval pts) /\ polyline (map fval pts) (3 / 2) = 5 /\
  Flookup pts (f32_of_int 10) (f32_of_int 20) (f32_of 35 (-1)) = Ok (f32_of_int 5) /\ Finterp pts (f32_of 3 (-2)) = Ok (f32_of_int 5).
Proof.
  cbn zeta. destruct (f32_of_int_val 0 ltac:(lia)) as [E0 _]. destruct (f32_of_int_val 4 ltac:(lia)) as [E4 _]. destruct (f32_of_int_val 6 ltac:(lia)) as [E6 _]. split; [|split; [|split]].
  - change (bpow radix2 3) with 8. intros i d H. pose proof (Lemmas.znth_some_range _ _ _ H) as R. change (zlen _) with 3%Z in R. assert (C : i = 0%Z \/ i = 1%Z \/ i = 2%Z) by lia.
    destruct C as [->|[->| ->]]; [change (Some (f32_of_int 0) = Some d) in H|change (Some (f32_of_int 4) = Some d) in H|change (Some (f32_of_int 6) = Some d) in H]; apply (f_equal (fun o => match o with Some x => x | None => d end)) in H; cbv beta iota in H; rewrite <- H; (split; [split; vm_compute; reflexivity|]); rewrite ?E0, ?E4, ?E6; apply Rabs_le; lra.
  - cbn [map slopes_within]. rewrite E0, E4, E6. repeat split; apply Rabs_le; lra.
  - cbn [map polyline]. rewrite E0, E4, E6. destruct (Rlt_dec (3 / 2) 1); [lra|]. destruct (Rlt_dec (3 / 2 - 1) 1) as [H|H]; [lra|apply Rnot_lt_le in H; lra].
  - split; vm_compute; reflexivity.
Qed.

(** C131.  HysteresisFilter<float, Numerator, Divisor> and QuadraticOnePoleLp<float, Divisor>. *)
Theorem C131_dead_zone_width :
  forall n d, (0 <= n <= 2 ^ 24)%Z -> (1 <= d <= 2 ^ 24)%Z -> Rabs (fval (hysteresis_flat n d) - IZR n / IZR d) <= / 16777216 * (IZR n / IZR d).
Proof. exact FilterFloat.flat_val. Qed.
Print Assumptions C131_dead_zone_width.
Theorem C131_hysteresis_step :
  forall (e n d : Z) state input, (-100 <= e <= 120)%Z -> (0 <= n <= 2 ^ 24)%Z -> (1 <= d <= 2 ^ 24)%Z -> finite_f32 state -> finite_f32 input -> Rabs (fval state) <= bpow radix2 e -> Rabs (fval input) <= bpow radix2 e ->
    let flat := fval (hysteresis_flat n d) in let r := hysteresis_step n d state input in
    finite_f32 r /\
    (Rabs (fval input - fval state) <= flat -> fval r = fval state) /\
    (flat < fval input - fval state -> Rabs (fval r - (fval input - flat)) <= 3 * bpow radix2 (e - 24) /\ fval state <= fval r /\ (bpow radix2 (e - 23) <= flat -> fval r <= fval input)) /\
    (flat < fval state - fval input -> Rabs (fval r - (fval input + flat)) <= 3 * bpow radix2 (e - 24) /\ fval r <= fval state /\ (bpow radix2 (e - 23) <= flat -> fval input <= fval r)).
Proof.
  intros e n d st x He Hn Hd Fs Fx Bs Bx flat r.
  pose proof (FilterFloat.dead e n d He Hn Hd st x Fs Fx Bs Bx) as D. pose proof (FilterFloat.above e n d He Hn Hd st x Fs Fx Bs Bx) as A. pose proof (FilterFloat.below e n d He Hn Hd st x Fs Fx Bs Bx) as B. cbn zeta in *. fold flat in D, A, B. fold r in D, A, B.
  split; [|split; [|split]].
  - destruct (Rle_lt_dec (Rabs (fval x - fval st)) flat) as [H|H]; [apply (D H)|]. unfold Rabs in H. destruct (Rcase_abs _); [apply B; lra|apply A; lra].
  - intros H. apply (D H).
  - intros H. apply (A H).
  - intros H. apply (B H).
Qed.
Print Assumptions C131_hysteresis_step.
Theorem C131_hysteresis_tracks :
  forall (e n d : Z) state inputs input, (-100 <= e <= 120)%Z -> (0 <= n <= 2 ^ 24)%Z -> (1 <= d <= 2 ^ 24)%Z -> bpow radix2 (e - 23) <= fval (hysteresis_flat n d) ->
    finite_f32 state -> Rabs (fval state) <= bpow radix2 e -> Forall (fun y => finite_f32 y /\ Rabs (fval y) <= bpow radix2 e) (inputs ++ [input]) ->
    let r := fold_left (hysteresis_step n d) (inputs ++ [input]) state in
    finite_f32 r /\ Rabs (fval r) <= bpow radix2 e /\ Rabs (fval r - fval input) <= fval (hysteresis_flat n d) + 3 * bpow radix2 (e - 24).
Proof. exact FilterFloat.hyst_run. Qed.
Print Assumptions C131_hysteresis_tracks.
Theorem C131_quadratic_step :
  forall (d e : Z) state input, (1 <= d <= 2 ^ 24)%Z -> (-60 <= e <= 60)%Z -> finite_f32 state -> finite_f32 input -> Rabs (fval state) <= bpow radix2 e -> Rabs (fval input) <= bpow radix2 e ->
    Rabs (fval input - fval state) <= IZR d * (1 - 16 * / 16777216) ->
    let delta := fval input - fval state in let r := quadratic_step d state input in
    finite_f32 r /\ Rabs (fval r - (fval state + Rabs delta * delta / IZR d)) <= 13 * bpow radix2 (e - 24) /\
    (fval state <= fval input -> fval state <= fval r <= fval input) /\ (fval input <= fval state -> fval input <= fval r <= fval state).
Proof. intros d e st x Hd He Fs Fx Bs Bx H. exact (FilterFloat.quad_step d Hd e st x He Fs Fx Bs Bx H). Qed.
Print Assumptions C131_quadratic_step.
(** a constant input is not reached: the state stays at 1 although the input is 513/512 *)
Theorem C131_quadratic_arrives_refuted :
  forall k, Nat.iter k (fun s => quadratic_step 64 s (f32_of 513 (-9))) f32_one = f32_one.
Proof. exact FilterFloat.quad_stalls. Qed.
Print Assumptions C131_quadratic_arrives_refuted.
(** a constant input further away than Divisor: the state swings between 0 and 256, never near 128 *)
Theorem C131_quadratic_settles_refuted :
  forall k, let s := Nat.iter k (fun s => quadratic_step 64 s (f32_of_int 128)) f32_zero in s = f32_zero \/ s = f32_of_int 256.
Proof. exact FilterFloat.quad_swings. Qed.
Print Assumptions C131_quadratic_settles_refuted.
Example C131_hypotheses_met :
  bpow radix2 (3 - 23) <= fval (hysteresis_flat 1 1) /\ finite_f32 (f32_of_int 2) /\ Rabs (fval (f32_of_int 2)) <= bpow radix2 3 /\
  fold_left (hysteresis_step 1 1) [f32_of_int 3; f32_of_int 5; f32_of_int 4] (f32_of_int 2) = f32_of_int 4 /\ fold_left (hysteresis_step 1 1) [f32_of_int 3; f32_of_int (-5)] (f32_of_int 2) = f32_of_int (-4) /\
  quadratic_step 8 (f32_of_int 2) (f32_of_int 6) = f32_of_int 4 /\ quadratic_step 8 (f32_of_int 6) (f32_of_int 2) = f32_of_int 4.
Proof.
  destruct (f32_of_int_val 2 ltac:(lia)) as [E2 _]. rewrite E2. change (hysteresis_flat 1 1) with (f32_of_int 1). destruct (f32_of_int_val 1 ltac:(lia)) as [E1 _]. rewrite E1.
  repeat match goal with |- _ /\ _ => split end; try (vm_compute; reflexivity); try (split; vm_compute; reflexivity).
  - change 1 with (bpow radix2 0). apply bpow_le. lia.
  - change (bpow radix2 3) with 8. apply Rabs_le. lra.
Qed.

(** C132.  Calibrator in single precision: the line through (measured, target) points. *)
Theorem C132_adjusted_reading :
  forall tl th ml mh raw, finite_f32 tl -> finite_f32 th -> finite_f32 ml -> finite_f32 mh -> Rabs (fval tl) <= bpow radix2 60 -> Rabs (fval th) <= bpow radix2 60 -> Rabs (fval ml) <= bpow radix2 60 -> Rabs (fval mh) <= bpow radix2 60 ->
    fval mh <> fval ml -> let slope := (fval th - fval tl) / (fval mh - fval ml) in bpow radix2 (-30) <= Rabs slope <= bpow radix2 30 ->
    finite_f32 raw -> Rabs (fval raw) <= bpow radix2 60 ->
    let r := adjust fsub fmul (calibrate_chan fsub fdiv tl th ml mh) raw in
    finite_f32 r /\ Rabs (fval r - (fval tl + (fval raw - fval ml) * slope)) <= 12 * / 16777216 * (Rabs slope * (Rabs (fval raw) + Rabs (fval ml)) + Rabs (fval tl)) + bpow radix2 (-100).
Proof. intros tl th ml mh raw F1 F2 F3 F4 B1 B2 B3 B4 Hm slope HS. exact (CalibFloat.adjust_line tl th ml mh F1 F2 F3 F4 B1 B2 B3 B4 Hm HS raw). Qed.
Print Assumptions C132_adjusted_reading.
Theorem C132_reversed_value :
  forall tl th ml mh v, finite_f32 tl -> finite_f32 th -> finite_f32 ml -> finite_f32 mh -> Rabs (fval tl) <= bpow radix2 60 -> Rabs (fval th) <= bpow radix2 60 -> Rabs (fval ml) <= bpow radix2 60 -> Rabs (fval mh) <= bpow radix2 60 ->
    fval mh <> fval ml -> let slope := (fval th - fval tl) / (fval mh - fval ml) in bpow radix2 (-30) <= Rabs slope <= bpow radix2 30 ->
    finite_f32 v -> Rabs (fval v) <= bpow radix2 93 ->
    let r := reverse_calibrate fdiv fadd (calibrate_chan fsub fdiv tl th ml mh) v in
    finite_f32 r /\ Rabs (fval r - (fval ml + (fval v - fval tl) / slope)) <= 7 * / 16777216 * (Rabs (fval v / slope) + Rabs (fval tl / slope) + Rabs (fval ml)) + bpow radix2 (-100).
Proof. intros tl th ml mh v F1 F2 F3 F4 B1 B2 B3 B4 Hm slope HS. exact (CalibFloat.reverse_line tl th ml mh F1 F2 F3 F4 B1 B2 B3 B4 Hm HS v). Qed.
Print Assumptions C132_reversed_value.
Theorem C132_round_trip :
  forall tl th ml mh raw, finite_f32 tl -> finite_f32 th -> finite_f32 ml -> finite_f32 mh -> Rabs (fval tl) <= bpow radix2 60 -> Rabs (fval th) <= bpow radix2 60 -> Rabs (fval ml) <= bpow radix2 60 -> Rabs (fval mh) <= bpow radix2 60 ->
    fval mh <> fval ml -> let slope := (fval th - fval tl) / (fval mh - fval ml) in bpow radix2 (-30) <= Rabs slope <= bpow radix2 30 ->
    finite_f32 raw -> Rabs (fval raw) <= bpow radix2 60 ->
    let c := calibrate_chan fsub fdiv tl th ml mh in let r := reverse_calibrate fdiv fadd c (adjust fsub fmul c raw) in
    finite_f32 r /\ Rabs (fval r - fval raw) <= 27 * / 16777216 * (Rabs (fval raw) + Rabs (fval ml) + Rabs (fval tl / slope)) + bpow radix2 (-60).
Proof. intros tl th ml mh raw F1 F2 F3 F4 B1 B2 B3 B4 Hm slope HS. exact (CalibFloat.round_trip tl th ml mh F1 F2 F3 F4 B1 B2 B3 B4 Hm HS raw). Qed.
Print Assumptions C132_round_trip.
Example C132_hypotheses_met :
  let tl := f32_of_int 0 in let th := f32_of_int 8 in let ml := f32_of_int 1 in let mh := f32_of_int 5 in let c := calibrate_chan fsub fdiv tl th ml mh in
  finite_f32 tl /\ finite_f32 th /\ finite_f32 ml /\ finite_f32 mh /\ fval mh <> fval ml /\ bpow radix2 (-30) <= Rabs ((fval th - fval tl) / (fval mh - fval ml)) <= bpow radix2 30 /\
  adjust fsub fmul c (f32_of_int 3) = f32_of_int 4 /\ reverse_calibrate fdiv fadd c (f32_of_int 4) = f32_of_int 3.
Proof.
  cbn zeta. destruct (f32_of_int_val 0 ltac:(lia)) as [E0 _]. destruct (f32_of_int_val 8 ltac:(lia)) as [E8 _]. destruct (f32_of_int_val 1 ltac:(lia)) as [E1 _]. destruct (f32_of_int_val 5 ltac:(lia)) as [E5 _]. rewrite E0, E8, E1, E5.
  repeat match goal with |- _ /\ _ => split end; try (vm_compute; reflexivity); try (split; vm_compute; reflexivity).
  - lra.
  - rewrite Rabs_pos_eq by lra. replace ((8 - 0) / (5 - 1)) with (bpow radix2 1) by (change (bpow radix2 1) with 2; lra). apply bpow_le. lia.
  - rewrite Rabs_pos_eq by lra. replace ((8 - 0) / (5 - 1)) with (bpow radix2 1) by (change (bpow radix2 1) with 2; lra). apply bpow_le. lia.
Qed.

(** C133.  ResizingOversampler and SmoothOversampler: the value reported is the mean of the last
    complete block, up to rounding. *)
Theorem C133_resizing_mean :
  forall (e size : Z) (h : list roop) (l : list f32), (-60 <= e <= 100)%Z -> (1 <= size <= 2 ^ 20)%Z -> Forall (op_ok e) h ->
    b_done (fold_left blocks_step h (Blocks size [] None)) = Some l ->
    let r := ro_val (fold_left ro_step h (ro0 size)) in
    finite_f32 r /\ Rabs (fval r - rmean l) <= (IZR (zlen l) + 2) * bpow radix2 (e - 24).
Proof. exact MeanFloat.resizing_mean. Qed.
Print Assumptions C133_resizing_mean.
Theorem C133_smooth_mean :
  forall (Size bound : Z) h x, (1 <= Size <= 2 ^ 24)%Z -> (Size * (bound - 1) < 2 ^ 32)%Z -> Forall (fun v => (0 <= v < bound)%Z) (h ++ [x]) -> (Size <= zlen (h ++ [x]))%Z ->
    let m := IZR (zsum (block Size (zlen (h ++ [x]) / Size - 1) (h ++ [x]))) / IZR Size in
    let r := answer (smooth_add Size) smooth0 h x in
    finite_f32 r /\ Rabs (fval r - m) <= 21 / 10 * / 16777216 * m.
Proof. exact MeanFloat.smooth_block. Qed.
Print Assumptions C133_smooth_mean.
Example C133_hypotheses_met :
  let h := [OAdd (f32_of_int 3); OAdd (f32_of_int 4); OSize 3; OAdd (f32_of_int 1); OAdd (f32_of_int 2); OAdd (f32_of_int 6)] in
  Forall (op_ok 3) h /\ b_done (fold_left blocks_step h (Blocks 2 [] None)) = Some [f32_of_int 1; f32_of_int 2; f32_of_int 6] /\ ro_val (fold_left ro_step h (ro0 2)) = f32_of_int 3 /\
  rmean [f32_of_int 1; f32_of_int 2; f32_of_int 6] = 3 /\ answer (smooth_add 4) smooth0 [1; 2; 3]%Z 8%Z = f32_of 7 (-1).
Proof.
  cbn zeta. destruct (f32_of_int_val 3 ltac:(lia)) as [E3 _]. destruct (f32_of_int_val 4 ltac:(lia)) as [E4 _]. destruct (f32_of_int_val 1 ltac:(lia)) as [E1 _]. destruct (f32_of_int_val 2 ltac:(lia)) as [E2 _]. destruct (f32_of_int_val 6 ltac:(lia)) as [E6 _]. split; [|split; [|split; [|split]]]; try (vm_compute; reflexivity).
  - change (op_ok 3) with (fun o => match o with OSize n => (1 <= n <= 2 ^ 20)%Z | OAdd x => finite_f32 x /\ Rabs (fval x) <= 8 end).
    repeat apply Forall_cons; try apply Forall_nil; try lia; (split; [split; vm_compute; reflexivity|]); rewrite ?E1, ?E2, ?E3, ?E4, ?E6; apply Rabs_le; lra.
  - unfold rmean, rsum. cbn [fold_right]. rewrite E1, E2, E6. change (zlen _) with 3%Z. lra.
Qed.
