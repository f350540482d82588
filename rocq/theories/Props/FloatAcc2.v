(* C134, C136, C138, C140: colour blending, LED brightness, signal averages and the volt-per-octave calibrator in single
   precision arithmetic. *)
From Coq Require Import Reals Lra Floats.SpecFloat.
From Flocq Require Import Core.
From Verif.Common Require Import Base F32 F32Order F32Real.
From Verif.Common Require Lemmas.
From Verif.Spec Require Import ColorSpec VoctSpec.
From Verif.Model Require Import Color Calib VoctF RgbLed.
From Verif.Proofs Require Absorb ColorFloat IirFloat VoctFloat RgbBright.
Open Scope R_scope.

(** C134.  Color::blend(that, float): every channel is the exact mixture, rounded down within 2^-14. *)
Theorem C134_float_blend :
  forall c d phase, is_color c -> is_color d -> finite_f32 phase -> 0 <= fval phase <= 1 ->
    let mixed x y r := let m := IZR x + fval phase * (IZR y - IZR x) in m - 1 - / 16384 < IZR r <= m + / 16384 in
    exists r, blendf c d phase = Ok r /\ is_color r /\
      mixed (red c) (red d) (red r) /\ mixed (green c) (green d) (green r) /\ mixed (blue c) (blue d) (blue r).
Proof.
  intros c d p (C1 & C2 & C3) (D1 & D2 & D3) Fp Hp mixed. unfold blendf.
  destruct (ColorFloat.blend_ch _ _ p Fp Hp C1 D1) as (r & -> & R1 & R2). destruct (ColorFloat.blend_ch _ _ p Fp Hp C2 D2) as (g & -> & G1 & G2). destruct (ColorFloat.blend_ch _ _ p Fp Hp C3 D3) as (b & -> & B1 & B2).
  exists (RGB r g b). split; [cbn [bind]; unfold mk; rewrite !Lemmas.word_small by (change (2 ^ 8)%Z with 256%Z; assumption); reflexivity|]. repeat split; cbn; try lia; apply R2 || apply G2 || apply B2.
Qed.
Print Assumptions C134_float_blend.
Theorem C134_float_blend_ends :
  forall c d s, is_color c -> is_color d -> blendf c d (S754_zero s) = Ok c /\ blendf c d f32_one = Ok d.
Proof.
  intros [c1 c2 c3] [d1 d2 d3] s (C1 & C2 & C3) (D1 & D2 & D3). cbn [red green blue] in *. unfold blendf. cbn [red green blue].
  destruct (ColorFloat.blend_ends _ _ s C1 D1) as [A1 A2]. destruct (ColorFloat.blend_ends _ _ s C2 D2) as [A3 A4]. destruct (ColorFloat.blend_ends _ _ s C3 D3) as [A5 A6]. rewrite A1, A2, A3, A4, A5, A6. cbn [bind]. unfold mk. rewrite !Lemmas.word_small by (change (2 ^ 8)%Z with 256%Z; assumption). split; reflexivity.
Qed.
Print Assumptions C134_float_blend_ends.
(** A phase above 1 can be an undefined conversion. *)
Theorem C134_phase_above_one_refuted :
  forall c d p, is_color c -> is_color d -> finite_f32 p -> Rabs (fval p) <= 1024 ->
    (let out x y := let m := IZR x + fval p * (IZR y - IZR x) in 257 <= m \/ m <= -2 in
     out (red c) (red d) \/ out (green c) (green d) \/ out (blue c) (blue d)) -> blendf c d p = UB BadCast.
Proof. exact ColorFloat.blendf_ub. Qed.
Print Assumptions C134_phase_above_one_refuted.
Example C134_hypotheses_met :
  let half := f32_of 1 (-1) in is_color (RGB 10 200 7) /\ is_color (RGB 20 100 8) /\ finite_f32 half /\ 0 <= fval half <= 1 /\ blendf (RGB 10 200 7) (RGB 20 100 8) half = Ok (RGB 15 150 7).
Proof.
  cbn zeta. assert (V : fval (f32_of 1 (-1)) = / 2). { change (fval (f32_of 1 (-1))) with (F2R (Float radix2 8388608 (-24))). unfold F2R. cbn [Fnum Fexp]. change (bpow radix2 (-24)) with (/ 16777216). lra. }
  rewrite V. repeat split; try (vm_compute; reflexivity); try (cbn; lia); try lra; vm_compute; discriminate.
Qed.

(** C136.  AnalyzedSig: the average [iir] with coefficient [c]. *)
Theorem C136_stays_within_the_signal :
  forall (e : Z) c lo hi start xs, (0 <= e <= 125)%Z -> finite_f32 c -> 0 <= fval c <= 1 -> fval c <= 1 - 4 * / 16777216 -> - bpow radix2 e <= lo -> hi <= bpow radix2 e ->
    finite_f32 start -> lo <= fval start <= hi -> Forall (fun y => finite_f32 y /\ lo <= fval y <= hi) xs ->
    let r := fold_left (iir_update fadd fsub fmul c) xs start in finite_f32 r /\ lo <= fval r <= hi.
Proof. intros e c lo hi st xs He Fc Hc H4 Hlo Hhi Fs Hs HF. exact (IirFloat.iir_hull e c He Fc Hc lo hi st xs Hlo Hhi H4 Fs Hs HF). Qed.
Print Assumptions C136_stays_within_the_signal.
Theorem C136_one_update :
  forall (e : Z) c avg v, (0 <= e <= 125)%Z -> finite_f32 c -> 0 <= fval c <= 1 -> finite_f32 avg -> finite_f32 v -> Rabs (fval avg) <= bpow radix2 e -> Rabs (fval v) <= bpow radix2 e ->
    let r := iir_update fadd fsub fmul c avg v in
    finite_f32 r /\ Rabs (fval r - (fval avg + fval c * (fval v - fval avg))) <= 3 * bpow radix2 (e - 24).
Proof. intros e c avg v He Fc Hc. exact (IirFloat.iir_acc e c He Fc Hc avg v). Qed.
Print Assumptions C136_one_update.
Theorem C136_approaches_a_constant :
  forall (e : Z) c start v k, (0 <= e <= 125)%Z -> finite_f32 c -> 0 < fval c <= 1 - 4 * / 16777216 -> finite_f32 start -> finite_f32 v -> Rabs (fval start) <= bpow radix2 e -> Rabs (fval v) <= bpow radix2 e ->
    Rabs (fval (Nat.iter k (fun s => iir_update fadd fsub fmul c s v) start) - fval v) <= (1 - fval c) ^ k * Rabs (fval start - fval v) + 3 * bpow radix2 (e - 24) / fval c.
Proof. intros e c st v k He Fc Hc Fs Fv Bs Bv. apply (IirFloat.iir_conv e c He Fc); auto; lra. Qed.
Print Assumptions C136_approaches_a_constant.
(** the coefficient of AnalyzedSignal<n> *)
Theorem C136_template_coefficient :
  forall n, (2 <= n <= 2 ^ 24)%Z -> let c := fdiv f32_one (f32_of_int n) in finite_f32 c /\ 0 < fval c <= / 2 /\ Rabs (fval c - / IZR n) <= / 16777216 * / IZR n.
Proof. exact IirFloat.recip. Qed.
Print Assumptions C136_template_coefficient.
(** A constant input need not be reached: if the coefficient is at most 2^-b, the input is within 2^a and the
    average is at least 2^(a-b+26), the average never moves. *)
Theorem C136_arrives_refuted :
  forall coef s v (a b c : Z) k, finite_f32 s -> finite_f32 v -> finite_f32 coef -> Rabs (fval coef) <= bpow radix2 (- b) -> (0 <= b)%Z ->
    Rabs (fval v - fval s) <= bpow radix2 a -> (-149 <= a - b)%Z -> (a <= 126)%Z ->
    bpow radix2 c <= Rabs (fval s) <= bpow radix2 126 -> (a - b + 26 <= c)%Z ->
    Nat.iter k (fun s => iir_update fadd fsub fmul coef s v) s = s.
Proof. exact Absorb.average_stays. Qed.
Print Assumptions C136_arrives_refuted.
(** AnalyzedSignal<1> does not follow its input: an input below the average times 2^-26 gives 0. *)
Theorem C136_coefficient_one_follows_refuted :
  forall s v, finite_f32 s -> finite_f32 v -> fval s <> 0 -> Rabs (fval v) <= Rabs (fval s) * bpow radix2 (-26) -> Rabs (fval s) <= bpow radix2 126 ->
    let r := iir_update fadd fsub fmul (fdiv f32_one (f32_of_int 1)) s v in finite_f32 r /\ fval r = 0.
Proof. intros s v. unfold iir_update. change (fdiv f32_one (f32_of_int 1)) with f32_one. apply Absorb.step_to_small. Qed.
Print Assumptions C136_coefficient_one_follows_refuted.
Example C136_hypotheses_met :
  let c := fdiv f32_one (f32_of_int 4) in let f := iir_update fadd fsub fmul c in
  finite_f32 c /\ 0 < fval c <= / 2 /\ finite_f32 (f32_of_int 8) /\ Rabs (fval (f32_of_int 8)) <= bpow radix2 3 /\ f f32_zero (f32_of_int 8) = f32_of_int 2 /\ fold_left f [f32_of_int 8; f32_of_int 6; f32_of_int (-1)] f32_zero = f32_of_int 2 /\
  iir_update fadd fsub fmul (fdiv f32_one (f32_of_int 64)) f32_one (f32_of (2 ^ 20 + 1) (-20)) = f32_one /\ (-20 - 6 + 26 <= 0)%Z /\
  iir_update fadd fsub fmul (fdiv f32_one (f32_of_int 64)) f32_one (f32_of (2 ^ 16 + 1) (-16)) <> f32_one /\
  iir_update fadd fsub fmul (fdiv f32_one (f32_of_int 1)) f32_one (f32_of 1 (-30)) = f32_zero.
Proof.
  cbn zeta. destruct (IirFloat.recip 4 ltac:(lia)) as (A & B & _). cbn zeta in A, B. destruct (f32_of_int_val 8 ltac:(lia)) as [E8 _]. rewrite E8. split; [exact A|]. split; [exact B|]. split; [split; vm_compute; reflexivity|]. split; [change (bpow radix2 3) with 8; apply Rabs_le; lra|]. repeat match goal with |- _ /\ _ => split end; try (vm_compute; reflexivity); [lia|vm_compute; discriminate].
Qed.

(** C138.  VoctCalibrator<float>: after any history, with [(n0, m0)] and [(n1, m1)] the last two
    measurements since reset: the slope and the offset of the line through them, and a measurement of C0 itself
    is the offset. *)
Theorem C138_slope_and_offset :
  forall ops, Forall vf_valid ops -> exists s, voctf_run voctf0 ops = Ok s /\
    (forall l m r, vf_measurements ops = l ++ (0%Z, m) :: r -> Forall (fun p => fst p <> 0%Z) r -> vf_offset s = m) /\
    (forall l n0 m0 n1 m1, vf_measurements ops = l ++ [(n0, m0); (n1, m1)] -> finite_f32 m0 -> finite_f32 m1 -> Rabs (fval m0) <= bpow radix2 100 -> Rabs (fval m1) <= bpow radix2 100 -> n0 <> n1 -> fval m0 <> fval m1 ->
      let slope := (fval m0 - fval m1) / (IZR n0 - IZR n1) in
      finite_f32 (vf_slope s) /\ Rabs (fval (vf_slope s) - slope) <= 21 / 10 * / 16777216 * Rabs slope + bpow radix2 (-150) /\
      (Forall (fun p => fst p <> 0%Z) (vf_measurements ops) ->
        finite_f32 (vf_offset s) /\ Rabs (fval (vf_offset s) - (fval m0 - slope * IZR n0)) <= 68 * / 16777216 * (Rabs (fval m0) + Rabs (fval m1)) + bpow radix2 (-140))).
Proof. exact VoctFloat.history. Qed.
Print Assumptions C138_slope_and_offset.
Example C138_hypotheses_met :
  let f := f32_of_int in let ops := [VFRec 3 (f 7%Z); VFReset; VFRec 1 (f 12%Z); VFRec 11 (f 99%Z); VFRec 3 (f 32%Z)] in
  Forall vf_valid ops /\ vf_measurements ops = [] ++ [(1%Z, f 12%Z); (3%Z, f 32%Z)] /\ finite_f32 (f 12%Z) /\ finite_f32 (f 32%Z) /\ fval (f 12%Z) <> fval (f 32%Z) /\
  (exists s, voctf_run voctf0 ops = Ok s /\ vf_slope s = f 10%Z /\ vf_offset s = f 2%Z) /\
  (exists s, voctf_run voctf0 (ops ++ [VFRec 0 (f 5%Z); VFRec 2 (f 25%Z)]) = Ok s /\ vf_slope s = f 10%Z /\ vf_offset s = f 5%Z).
Proof.
  cbn zeta. destruct (f32_of_int_val 12 ltac:(lia)) as [E12 _]. destruct (f32_of_int_val 32 ltac:(lia)) as [E32 _]. rewrite E12, E32.
  split; [repeat constructor; cbn; lia|]. split; [reflexivity|]. split; [split; vm_compute; reflexivity|]. split; [split; vm_compute; reflexivity|]. split; [lra|].
  split; (eexists; split; [vm_compute; reflexivity|split; vm_compute; reflexivity]).
Qed.

(** C140.  set_color(colour, uint8_t brightness): every driver gets its channel times brightness/256, rounded down. *)
Theorem C140_integer_brightness :
  forall c b, is_color c -> (0 <= b < 256)%Z ->
    is_color (set_color_u8 c b) /\
    all_channels2 (fun x r => (256 * r <= x * b < 256 * r + 256 /\ r <= x)%Z) c (set_color_u8 c b).
Proof.
  intros [c1 c2 c3] b (C1 & C2 & C3) Hb. cbn in C1, C2, C3. unfold set_color_u8, is_color, all_channels2, byte in *. cbn [red green blue].
  pose proof (RgbBright.u8_ch c1 b C1 Hb). pose proof (RgbBright.u8_ch c2 b C2 Hb). pose proof (RgbBright.u8_ch c3 b C3 Hb). lia.
Qed.
Print Assumptions C140_integer_brightness.
(** C140, the violation: full integer brightness darkens every channel that is on by one step. *)
Theorem C140_full_integer_brightness_refuted :
  forall c, is_color c -> set_color_u8 c 255 = each (fun x => Z.max 0 (x - 1)) c.
Proof. intros [c1 c2 c3] (C1 & C2 & C3). unfold set_color_u8, each. cbn [red green blue] in *. rewrite !RgbBright.u8_full by assumption. reflexivity. Qed.
Print Assumptions C140_full_integer_brightness_refuted.
(** C140.  set_color(colour, float brightness): every driver gets the product, rounded down within 2^-17,
    as long as no product exceeds 255. *)
Theorem C140_float_brightness :
  forall c b, is_color c -> finite_f32 b -> 0 <= fval b ->
    IZR (red c) * fval b <= 255 -> IZR (green c) * fval b <= 255 -> IZR (blue c) * fval b <= 255 ->
    exists r, set_color_f c b = Ok r /\ is_color r /\
      all_channels2 (fun x y => IZR x * fval b - 1 - / 131072 < IZR y <= IZR x * fval b + / 131072) c r /\
      (fval b <= 1 -> all_channels2 (fun x y => (y <= x)%Z) c r) /\ (fval b = 1 -> r = c).
Proof.
  intros [c1 c2 c3] b (C1 & C2 & C3) Fb H0 H1 H2 H3. cbn [red green blue] in *. unfold set_color_f. cbn [red green blue].
  destruct (RgbBright.f_ch c1 b C1 Fb H0 H1) as (r1 & -> & A1 & A2 & A3 & A4). destruct (RgbBright.f_ch c2 b C2 Fb H0 H2) as (r2 & -> & B1 & B2 & B3 & B4).
  destruct (RgbBright.f_ch c3 b C3 Fb H0 H3) as (r3 & -> & D1 & D2 & D3 & D4). cbn [bind].
  exists (RGB r1 r2 r3). unfold is_color, all_channels2, byte. cbn [red green blue]. repeat split; try lia; try apply A2; try apply B2; try apply D2; auto. intros E. rewrite A4, B4, D4 by exact E. reflexivity.
Qed.
Print Assumptions C140_float_brightness.
(** C140, the violation: a float brightness above 1 does not saturate, the conversion is undefined. *)
Theorem C140_float_brightness_above_one_refuted :
  forall c b, is_color c -> finite_f32 b -> Rabs (fval b) <= bpow radix2 100 ->
    (exists x, (x = red c \/ x = green c \/ x = blue c) /\ (256 <= IZR x * fval b \/ IZR x * fval b <= -1)) ->
    set_color_f c b = UB BadCast.
Proof. exact RgbBright.set_color_f_ub. Qed.
Print Assumptions C140_float_brightness_above_one_refuted.
Example C140_hypotheses_met :
  is_color (RGB 200 101 0) /\ (0 <= 128 < 256)%Z /\ set_color_u8 (RGB 200 101 0) 128 = RGB 100 50 0 /\
  finite_f32 (f32_of_int 2) /\ IZR 101 * 2 <= 255 /\ set_color_f (RGB 100 101 0) (f32_of_int 2) = Ok (RGB 200 202 0).
Proof. split; [unfold is_color, byte; cbn; lia|]. split; [lia|]. split; [reflexivity|]. split; [split; vm_compute; reflexivity|]. split; [lra|vm_compute; reflexivity]. Qed.
