(* C166, C107: OneShot with rate changes, stops and restarts, and pulses too long to end. *)
From Coq Require Import QArith Reals Floats.SpecFloat.
From Flocq Require Import Core.
From Verif.Common Require Import Base F32 F32Order F32Real.
From Verif.Spec Require Import OneShotSpec.
From Verif.Model Require Import Oscs OneShot.
From Verif.Proofs Require OneShot.

(** C166, in exact arithmetic: whatever happened before start(width), and however the rate changes
    since, update() is true exactly if less than the width has passed. *)
Theorem C166_pulse_lasts_its_width :
  forall (rate : Q) pre width post, (0 < rate)%Q -> Forall (fun o => ~ is_start o /\ ~ is_stop o) post ->
    let s := fst (srun os_step_q (os_init_q rate) (pre ++ OStart width :: post)) in
    snd (os_step_q s OUpdate) = true <-> (elapsed (tick (1 / rate) pre) post < width)%Q.
Proof. exact OneShot.pulse. Qed.
Print Assumptions C166_pulse_lasts_its_width.
(** In single precision the answers are those of exact arithmetic, and so the pulse has exactly this length,
    if the rates are powers of two up to 2^A (or ignored) and the widths multiples of 2^-A, at most 2^24 of
    them. *)
Theorem C166_exact_for_binary_rates :
  forall A a h, (0 <= A <= 24)%Z -> (0 <= a <= A)%Z -> Forall (representable A) h ->
    snd (srun os_step (os_init (f32_of_int (2 ^ a))) (map (single_op A) h)) =
    snd (srun os_step_q (os_init_q (inject_Z (2 ^ a))) (map (exact_op A) h)).
Proof. intros A a h HA. apply (OneShot.exact_run A HA). Qed.
Print Assumptions C166_exact_for_binary_rates.
(** In single precision: before the first start, and from a stop to the next start, update() is false. *)
Theorem C166_silent_without_a_start :
  forall rate pre post, Forall (fun o => ~ is_start o) post ->
    Forall (fun answer => answer = false) (snd (srun os_step (os_init rate) post)) /\
    Forall (fun answer => answer = false) (snd (srun os_step (fst (srun os_step (os_init rate) (pre ++ [OStop]))) post)).
Proof. exact OneShot.silent. Qed.
Print Assumptions C166_silent_without_a_start.
(** Once a pulse has ended it stays ended until the next start, whatever the rates. *)
Theorem C166_ended_stays_ended :
  forall s post, snd (os_step s OUpdate) = false -> Forall (fun o => ~ is_start o) post ->
    Forall (fun answer => answer = false) (snd (srun os_step s post)).
Proof.
  intros [inc w] post H HF. apply OneShot.idle_stays; [|exact HF]. cbn [os_step snd] in *. unfold oneshot_update in H. destruct (SFltb f32_zero w) eqn:E; [discriminate H|reflexivity].
Qed.
Print Assumptions C166_ended_stays_ended.
(** A rate of zero, a negative rate and NaN are ignored. *)
Theorem C166_bad_rate_ignored :
  forall s hz, SFltb f32_zero hz = false -> os_step s (ORate hz) = (s, false).
Proof. exact OneShot.rate_ignored. Qed.
Print Assumptions C166_bad_rate_ignored.
(** The constructor does not ignore them: with a negative rate no pulse ever ends, and with rate 0 every
    pulse lasts one update. *)
Theorem C166_constructor_ignores_bad_rates_refuted :
  (forall rate width n, valid_f32 rate -> valid_f32 width -> SFltb rate f32_zero = true -> SFltb f32_zero width = true ->
     Forall (fun answer => answer = true) (snd (srun os_step (fst (os_step (os_init rate) (OStart width))) (repeat OUpdate n)))) /\
  (forall width, finite_f32 width -> SFltb f32_zero width = true ->
     snd (srun os_step (os_init f32_zero) [OStart width; OUpdate; OUpdate]) = [false; true; false]).
Proof. split; [exact OneShot.negative_rate|exact OneShot.zero_rate]. Qed.
Print Assumptions C166_constructor_ignores_bad_rates_refuted.

(** C107: in single precision no pulse ends whose width is at least 2^26 increments, rounded up to a
    power of two. *)
Theorem C107_any_long_pulse_refuted :
  forall inc width c n, finite_f32 inc -> finite_f32 width ->
    (bpow radix2 c <= fval width <= bpow radix2 126)%R -> (Rabs (fval inc) <= bpow radix2 (c - 26))%R ->
    let w := Nat.iter n (fun s => fst (oneshot_update inc s)) width in w = width /\ snd (oneshot_update inc w) = true.
Proof. exact OneShot.long_pulse. Qed.
Print Assumptions C107_any_long_pulse_refuted.

Example C166_hypotheses_met :
  Forall (representable 10) [OStart 700; ORate 1024; OUpdate; ORate 0; OStop]%Z /\
  snd (srun os_step_q (os_init_q 4) [OUpdate; OStart 1%Q; OUpdate; ORate 2%Q; OUpdate; ORate (-1)%Q; OUpdate; OUpdate; OStart 1%Q; OUpdate; OStop; OUpdate])
    = [false; false; true; false; true; false; true; false; false; true; false; false] /\
  snd (srun os_step (os_init (f32_of_int 4)) [OUpdate; OStart f32_one; OUpdate; ORate (f32_of_int 2); OUpdate; ORate (f32_of_int (-1)); OUpdate; OUpdate; OStart f32_one; OUpdate; OStop; OUpdate])
    = [false; false; true; false; true; false; true; false; false; true; false; false].
Proof.
  split; [|vm_compute; split; reflexivity]. repeat (apply Forall_cons || apply Forall_nil); cbn; try exact I; try lia. right. exists 10%Z. split; [lia|reflexivity].
Qed.
