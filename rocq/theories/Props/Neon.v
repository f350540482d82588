From Coq Require Import Bool Floats.SpecFloat.
From Verif.Common Require Import Base F32 F32Order.
From Verif.Model Require Import Neon MathFloat.
From Verif.Spec Require Import FloatBits.
From Verif.Proofs Require Neon.
Open Scope Z_scope.

(** C116.  The stand-ins for the vector instructions work lane by lane. *)
Theorem C116_lanes :
  forall a0 a1 a2 a3 b0 b1 b2 b3 c0 c1 c2 c3 x r,
    let a := Q4 a0 a1 a2 a3 in let b := Q4 b0 b1 b2 b3 in let c := Q4 c0 c1 c2 c3 in
    vld1q (a0 :: a1 :: a2 :: a3 :: r) = Ok a /\ vdupq x = Q4 x x x x /\
    vmulq a b = Q4 (fmul a0 b0) (fmul a1 b1) (fmul a2 b2) (fmul a3 b3) /\
    vsubq a b = Q4 (fsub a0 b0) (fsub a1 b1) (fsub a2 b2) (fsub a3 b3) /\
    snd (vmlaq c a b) = Q4 (fadd c0 (fmul a0 b0)) (fadd c1 (fmul a1 b1)) (fadd c2 (fmul a2 b2)) (fadd c3 (fmul a3 b3)) /\
    vget_lane (vget_low a) 0 = Ok a0 /\ vget_lane (vget_low a) 1 = Ok a1 /\ vget_lane (vget_high a) 0 = Ok a2 /\ vget_lane (vget_high a) 1 = Ok a3 /\
    (let s := vpadd (vget_low a) (vget_high a) in vget_lane (vpadd s s) 0 = Ok (fadd (fadd a0 a1) (fadd a2 a3))).
Proof. intros. repeat split. Qed.
Print Assumptions C116_lanes.

Theorem C116_load_needs_four : forall a, zlen a < 4 -> vld1q a = UB OutOfBounds.
Proof. exact Neon.vld1q_short. Qed.
Print Assumptions C116_load_needs_four.

(** unlike the instruction, the multiply-accumulate stand-in overwrites its accumulator argument *)
Theorem C116_accumulator_untouched_refuted :
  (forall dst a b, fst (vmlaq dst a b) = snd (vmlaq dst a b)) /\ exists dst a b, snd (vmlaq dst a b) <> dst.
Proof. split; [reflexivity|]. exists (vdupq f32_zero), (vdupq f32_one), (vdupq f32_one). intros E; vm_compute in E; discriminate. Qed.
Print Assumptions C116_accumulator_untouched_refuted.

Theorem C116_maximum :
  forall a b, valid_f32 a -> valid_f32 b -> is_nan_f32 a = false -> is_nan_f32 b = false ->
    (fmax2 a b = a \/ fmax2 a b = b) /\ SFleb a (fmax2 a b) = true /\ SFleb b (fmax2 a b) = true.
Proof. exact Neon.fmax2_max. Qed.
Print Assumptions C116_maximum.

Theorem C116_maximum_lanes : forall a0 a1 a2 a3 b0 b1 b2 b3,
  vmaxq (Q4 a0 a1 a2 a3) (Q4 b0 b1 b2 b3) = Q4 (fmax2 a0 b0) (fmax2 a1 b1) (fmax2 a2 b2) (fmax2 a3 b3).
Proof. reflexivity. Qed.
Print Assumptions C116_maximum_lanes.

(** the instruction propagates not-a-number from either operand; here only from the second *)
Theorem C116_nan_propagates_refuted : (forall a, fmax2 a S754_nan = S754_nan) /\ (forall b, fmax2 S754_nan b = b).
Proof. split; [exact Neon.fmax2_nan_r|exact Neon.fmax2_nan_l]. Qed.
Print Assumptions C116_nan_propagates_refuted.

(** C117.  bitfield(args...): the bits set in some argument, whatever the order or repetition; it stays in the type. *)
Theorem C117_bits : forall f r i, Z.testbit (bitfield f r) i = true <-> exists x, In x (f :: r) /\ Z.testbit x i = true.
Proof. exact Neon.bitfield_bit_iff. Qed.
Print Assumptions C117_bits.

Theorem C117_order_and_repetition : forall f r f' r', (forall x, In x (f :: r) <-> In x (f' :: r')) -> bitfield f r = bitfield f' r'.
Proof. exact Neon.bitfield_same. Qed.
Print Assumptions C117_order_and_repetition.

Theorem C117_range : forall w f r, 0 <= w -> 0 <= f < 2 ^ w -> Forall (fun x => 0 <= x < 2 ^ w) r -> 0 <= bitfield f r < 2 ^ w.
Proof. intros w f r Hw Hf. apply Neon.fold_or_range; assumption. Qed.
Print Assumptions C117_range.

Example C117_hypotheses_met :
  0 <= 8 /\ 0 <= 1 < 2 ^ 8 /\ Forall (fun x => 0 <= x < 2 ^ 8) [4; 64; 4] /\ bitfield 1 [4; 64; 4] = 69 /\ bitfield 64 [1; 4] = 69.
Proof. split; [lia|]. split; [lia|]. split; [repeat constructor; lia|]. vm_compute. auto. Qed.

(** OR({...}) starts from an uninitialised variable *)
Theorem C117_OR_refuted : forall l, OR l = UB Indeterminate.
Proof. exact Neon.OR_undefined. Qed.
Print Assumptions C117_OR_refuted.

(** C118.  The classification of floats that survives -ffast-math. *)
Theorem C118_is_finite : forall b, 0 <= b < 2 ^ 32 -> is_finite_fastmath b = is_number (f32_of_bits b).
Proof. intros b _. apply Neon.is_finite_bits. Qed.
Print Assumptions C118_is_finite.

(** the decoding used in the statement yields floats, and all of them *)
Theorem C118_bit_patterns : (forall b, valid_f32 (f32_of_bits b)) /\ (forall x, valid_f32 x -> exists b, 0 <= b < 2 ^ 32 /\ f32_of_bits b = x).
Proof. split; [exact Neon.bits_valid|exact Neon.bits_onto]. Qed.
Print Assumptions C118_bit_patterns.

Theorem C118_is_inf : forall a, valid_f32 a -> (is_inf_fastmath a = true <-> exists s, a = S754_infinity s).
Proof. exact Neon.is_inf_iff. Qed.
Print Assumptions C118_is_inf.

Example C116_hypotheses_met :
  valid_f32 (f32_of_int 3) /\ is_nan_f32 (f32_of_int 3) = false /\ fmax2 (f32_of_int 3) (f32_of_int 5) = f32_of_int 5 /\ fmax2 (f32_of_int 5) (f32_of_int 3) = f32_of_int 5 /\
  bitfield 1 [4; 64; 4] = 69 /\ is_finite_fastmath 0x3f800000 = true /\ is_finite_fastmath 0x7f7fffff = true /\ is_finite_fastmath 0xff800000 = false /\ is_finite_fastmath 0x7fc00000 = false /\
  f32_of_bits 0x3f800000 = f32_one /\ f32_of_bits 0xc0000000 = f32_of_int (-2) /\ is_inf_fastmath (f32_of_bits 0x7f7fffff) = false /\ is_inf_fastmath (f32_of_bits 0xff800000) = true.
Proof. repeat match goal with |- _ /\ _ => split end; vm_compute; reflexivity. Qed.
Example C118_hypotheses_met :
  0 <= 0x3f800000 < 2 ^ 32 /\ valid_f32 (f32_of_bits 0x7f7fffff) /\ f32_of_bits 0x3f800000 = f32_one /\ is_finite_fastmath 0x3f800000 = true /\
  is_finite_fastmath 0x7fc00000 = false /\ is_inf_fastmath (f32_of_bits 0x7f7fffff) = false /\ is_inf_fastmath (f32_of_bits 0xff800000) = true.
Proof. split; [lia|]. vm_compute. auto 10. Qed.
