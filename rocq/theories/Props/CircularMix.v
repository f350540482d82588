From Coq Require Import Reals Floats.SpecFloat.
From Flocq Require Import Core.
From Verif.Common Require Import Base F32 F32Order F32Real.
From Verif.Model Require Import CircularExt CircularMix.
From Verif.Spec Require Import AccessSpec.
From Verif.Proofs Require CircularMix.
Open Scope Z_scope.

(** C82.  write(data) and write_reverse(data) of finite floats over a buffer of finite floats: every
    element is stored, exactly, except that the sign of a zero may change. *)
Theorem C82_write_stores_finite :
  forall (W : Z) (s : acc f32) (data : list f32), acc_ok W s -> Forall finite_f32 data -> Forall finite_f32 (a_buf s) -> zlen data <= a_sz s ->
    exists s', acc_write W (mix_f32 f32_one) s data = Ok (s', a_sz s <=? a_wr s + zlen data) /\
      forall i d, znth data i = Some d -> exists x, znth (a_buf s') ((a_wr s + i) mod a_sz s) = Some x /\ finite_f32 x /\ fval x = fval d /\ ((forall b, d <> S754_zero b) -> x = d).
Proof. exact CircularMix.write_stores. Qed.
Print Assumptions C82_write_stores_finite.

Theorem C82_write_reverse_stores_finite :
  forall (W : Z) (s : acc f32) (data : list f32), acc_ok W s -> Forall finite_f32 data -> Forall finite_f32 (a_buf s) -> zlen data <= a_sz s ->
    exists s', acc_write_reverse W (mix_f32 f32_one) s data = Ok (s', a_wr s - zlen data <? 0) /\
      forall i d, znth data i = Some d -> exists x, znth (a_buf s') ((a_wr s - i) mod a_sz s) = Some x /\ finite_f32 x /\ fval x = fval d /\ ((forall b, d <> S754_zero b) -> x = d).
Proof. exact CircularMix.write_reverse_stores. Qed.
Print Assumptions C82_write_reverse_stores_finite.

(** C82.  The violation for floats: a slot holding infinity or NaN holds one after any history of
    reads, writes with any data and any phases, and position changes; only clear() helps. *)
Theorem C82_infinite_slot_never_cleared_refuted :
  forall (W : Z) (ops : list (f32 * aop f32)) (s s' : acc f32) (outs : list (aout f32)) (j : Z) (x : f32),
    Forall (fun o => snd o <> AClear) ops -> znth (a_buf s) j = Some x -> ffinite x = false -> run (mix_step W) s ops = Ok (s', outs) ->
    exists y, znth (a_buf s') j = Some y /\ ffinite y = false.
Proof. exact CircularMix.bad_forever. Qed.
Print Assumptions C82_infinite_slot_never_cleared_refuted.

(** C82.  With phase 1 it becomes NaN, whatever is written. *)
Theorem C82_write_over_infinity :
  forall d old : f32, ffinite old = false -> mix_f32 f32_one d old = S754_nan.
Proof. exact CircularMix.mix_one_nonfinite. Qed.
Print Assumptions C82_write_over_infinity.

(** C82.  Integers up to 2^24 in magnitude are stored exactly, in elements of any width that holds them. *)
Theorem C82_small_integers_exact :
  forall w d old : Z, 25 < w <= 64 \/ Z.abs d < 2 ^ (w - 1) -> 0 < w <= 64 -> Z.abs d <= 2 ^ 24 -> Z.abs old <= 2 ^ 64 -> mix_int w f32_one d old = Ok d.
Proof. exact CircularMix.mix_int_exact. Qed.
Print Assumptions C82_small_integers_exact.

(** C82.  Any integer is stored as the float nearest to it; the write is undefined if that does not fit. *)
Theorem C82_integers_rounded :
  forall w d old : Z, Z.abs d <= 2 ^ 64 -> Z.abs old <= 2 ^ 64 ->
    mix_int w f32_one d old = let n := Ztrunc (RN (IZR d)) in if (- 2 ^ (w - 1) <=? n) && (n <? 2 ^ (w - 1)) then Ok n else UB BadCast.
Proof. exact CircularMix.mix_int_any. Qed.
Print Assumptions C82_integers_rounded.
(** C82.  The violation for integers: no odd number above 2^24 in magnitude is stored, and writing one of the
    64 largest ints is undefined. *)
Theorem C82_large_integers_refuted :
  (forall w d old, Z.odd d = true -> 2 ^ 24 <= Z.abs d <= 2 ^ 64 -> Z.abs old <= 2 ^ 64 -> mix_int w f32_one d old <> Ok d) /\
  (forall d old, 2 ^ 31 - 64 <= d < 2 ^ 31 -> Z.abs old <= 2 ^ 64 -> mix_int 32 f32_one d old = UB BadCast).
Proof. split; [exact CircularMix.mix_int_odd|exact CircularMix.mix_int_top]. Qed.
Print Assumptions C82_large_integers_refuted.

Example C82_hypotheses_met :
  let s := acc_init [f32_of 3 (-1); f32_of (-5) 2; f32_zero] 2 in
  acc_ok 32 s /\ Forall finite_f32 [f32_of 1 (-3); f32_of_int 7] /\ Forall finite_f32 (a_buf s) /\
  (exists s', acc_write 32 (mix_f32 f32_one) s [f32_of 1 (-3); f32_of_int 7] = Ok (s', true) /\ a_buf s' = [f32_of_int 7; f32_of (-5) 2; f32_of 1 (-3)]) /\
  (exists s', run (mix_step 32) (acc_init [S754_infinity false; f32_zero] 0) [(f32_one, AWrite [f32_zero; f32_one]); (f32_of 1 (-1), AWriteRev [f32_one])] = Ok (s', [AFlag true; AFlag true]) /\
     a_buf s' = [S754_nan; f32_one]) /\
  mix_int 16 f32_one (-32767) 123 = Ok (-32767) /\
  mix_int 32 f32_one (2 ^ 24 + 1) 0 = Ok (2 ^ 24) /\ Z.odd (2 ^ 24 + 1) = true /\ mix_int 32 f32_one (2 ^ 31 - 65) 0 = Ok (2 ^ 31 - 128) /\ mix_int 32 f32_one (2 ^ 31 - 1) 0 = UB BadCast.
Proof.
  cbn zeta. repeat match goal with |- _ /\ _ => split end; try (repeat constructor; fail); try (vm_compute; reflexivity); try (eexists; split; vm_compute; reflexivity).
  unfold acc_ok. cbn. lia.
Qed.
