From Coq Require Import ZArith Bool Permutation Floats.SpecFloat.
From Verif.Common Require Import Base Lemmas Lists F32 F32Order.
From Verif.Model Require Import Neon MathFloat.
From Verif.Spec Require Import FloatBits.
Open Scope Z_scope.

Lemma fold_or_bit l : forall acc i, Z.testbit (fold_or acc l) i = Z.testbit acc i || existsb (fun x => Z.testbit x i) l.
Proof. induction l as [|x r IH]; intros acc i; cbn; [rewrite orb_false_r; reflexivity|]. rewrite IH, Z.lor_spec, orb_assoc. reflexivity. Qed.
Lemma bitfield_bit f r i : Z.testbit (bitfield f r) i = existsb (fun x => Z.testbit x i) (f :: r).
Proof. apply fold_or_bit. Qed.
Lemma bitfield_bit_iff f r i : Z.testbit (bitfield f r) i = true <-> exists x, In x (f :: r) /\ Z.testbit x i = true.
Proof. rewrite bitfield_bit. apply existsb_exists. Qed.
Lemma bitfield_same f r f' r' : (forall x, In x (f :: r) <-> In x (f' :: r')) -> bitfield f r = bitfield f' r'.
Proof.
  intros H. apply Z.bits_inj'. intros i _. apply eq_true_iff_eq. rewrite !bitfield_bit_iff. split; intros (x & Hx & Hb); exists x; split; auto; apply H; exact Hx.
Qed.
Lemma fold_or_range w l : 0 <= w -> forall acc, 0 <= acc < 2 ^ w -> Forall (fun x => 0 <= x < 2 ^ w) l -> 0 <= fold_or acc l < 2 ^ w.
Proof.
  intros Hw. induction l as [|x r IH]; intros acc Ha HF; cbn; [exact Ha|]. inversion HF as [|? ? Hx HF']; subst. apply IH; [|exact HF'].
  assert (HP : forall z, 0 <= z < 2 ^ w <-> 0 <= z /\ forall i, w <= i -> Z.testbit z i = false).
  { intros z. split; intros [H0 H]; (split; [exact H0|]).
    - intros i Hi. rewrite Z.testbit_odd, Z.shiftr_div_pow2 by lia. rewrite Z.div_small; [reflexivity|]. split; [exact H0|]. apply Z.lt_le_trans with (1 := H). apply Z.pow_le_mono_r; lia.
    - assert (E : z mod 2 ^ w = z). { apply Z.bits_inj'. intros i Hi. destruct (Z.ltb_spec i w); [apply Z.mod_pow2_bits_low; assumption|]. rewrite Z.mod_pow2_bits_high by lia. symmetry. apply H. assumption. }
      rewrite <- E. apply Z.mod_pos_bound. apply Z.pow_pos_nonneg; lia. }
  apply HP. apply HP in Ha as [A0 A], Hx as [X0 X]. split; [apply Z.lor_nonneg; auto|]. intros i Hi. rewrite Z.lor_spec, A, X by exact Hi. reflexivity.
Qed.
Lemma OR_undefined l : OR l = UB Indeterminate.
Proof. destruct l; reflexivity. Qed.

Lemma fmax2_max a b : valid_f32 a -> valid_f32 b -> is_nan_f32 a = false -> is_nan_f32 b = false ->
  (fmax2 a b = a \/ fmax2 a b = b) /\ SFleb a (fmax2 a b) = true /\ SFleb b (fmax2 a b) = true.
Proof.
  intros Ha Hb Na Nb. unfold fmax2. rewrite SFltb_key by assumption. destruct (Z.ltb_spec (fkey b) (fkey a)); (split; [auto|]); rewrite !SFleb_key by assumption; split; apply Z.leb_le; lia.
Qed.
Lemma fmax2_nan_l b : fmax2 S754_nan b = b. Proof. unfold fmax2. rewrite SFltb_nan_r. reflexivity. Qed.
Lemma fmax2_nan_r a : fmax2 a S754_nan = S754_nan. Proof. reflexivity. Qed.
Lemma vld1q_short a : zlen a < 4 -> vld1q a = UB OutOfBounds.
Proof.
  intros H. unfold zlen in H. destruct a as [|x0 [|x1 [|x2 [|x3 r]]]]; try reflexivity. cbn in H. lia.
Qed.

(** bit patterns *)
Lemma land_exp b : Z.land b 0x7f800000 = (b / 2 ^ 23) mod 2 ^ 8 * 2 ^ 23.
Proof.
  rewrite <- (Z.shiftr_div_pow2 b 23) by lia. rewrite <- (Z.land_ones _ 8) by lia. rewrite <- Z.shiftl_mul_pow2 by lia. apply Z.bits_inj'. intros i Hi. rewrite Z.land_spec, Z.shiftl_spec by lia.
  change 0x7f800000 with (Z.shiftl (Z.ones 8) 23). rewrite Z.shiftl_spec by lia. rewrite Z.land_spec. destruct (Z.ltb_spec i 23) as [L|L].
  - rewrite !(Z.testbit_neg_r _ (i - 23)) by lia. rewrite !andb_false_r. reflexivity.
  - rewrite Z.shiftr_spec by lia. replace (i - 23 + 23) with i by lia. reflexivity.
Qed.
Lemma is_finite_bits b : is_finite_fastmath b = is_number (f32_of_bits b).
Proof.
  unfold is_finite_fastmath, f32_of_bits. rewrite land_exp. cbn zeta. set (e := (b / 2 ^ 23) mod 2 ^ 8). set (m := b mod 2 ^ 23).
  assert (Hm : 0 <= m < 2 ^ 23) by (apply Z.mod_pos_bound; lia). assert (EQ : (e * 2 ^ 23 =? 2139095040) = (e =? 255)) by (change 2139095040 with (255 * 2 ^ 23); destruct (Z.eqb_spec e 255), (Z.eqb_spec (e * 2 ^ 23) (255 * 2 ^ 23)); auto; subst; lia).
  rewrite EQ. clearbody e. destruct (e =? 255); cbn [negb]; [destruct (m =? 0); reflexivity|]. destruct (e =? 0); [destruct m; reflexivity|]. destruct (2 ^ 23 + m) eqn:E; try reflexivity; lia.
Qed.
Lemma bits_valid b : valid_f32 (f32_of_bits b).
Proof.
  unfold f32_of_bits. cbn zeta. set (e := (b / 2 ^ 23) mod 2 ^ 8). set (m := b mod 2 ^ 23). set (s := Z.testbit b 31).
  assert (Hm : 0 <= m < 2 ^ 23) by (apply Z.mod_pos_bound; lia). assert (He : 0 <= e < 2 ^ 8) by (apply Z.mod_pos_bound; lia). clearbody e m s.
  assert (HB : forall p x, Z.pos p < 2 ^ 24 -> -149 <= x <= 104 -> (2 ^ 23 <= Z.pos p \/ x = -149) -> valid_f32 (S754_finite s p x)).
  { intros p x Hp Hx Hc. unfold valid_f32, valid_binary, bounded, canonical_mantissa, fexp, emin. change (3 - 128 - 24) with (-149). pose proof (digits_bounds p) as HD.
    assert (HL : Z.pos (digits2_pos p) <= 24). { destruct (Z.leb_spec (Z.pos (digits2_pos p)) 24); [assumption|exfalso]. assert (2 ^ 24 <= 2 ^ (Z.pos (digits2_pos p) - 1)) by (apply Z.pow_le_mono_r; lia). lia. }
    assert (HE : x = -149 \/ Z.pos (digits2_pos p) = 24). { destruct Hc as [Hc|Hc]; [right|left; exact Hc]. destruct (Z.leb_spec 24 (Z.pos (digits2_pos p))); [lia|exfalso]. assert (2 ^ Z.pos (digits2_pos p) <= 2 ^ 23) by (apply Z.pow_le_mono_r; lia). lia. }
    apply andb_true_intro. split; [apply Zeq_is_eq_bool; lia|apply Z.leb_le; lia]. }
  destruct (Z.eqb_spec e 255); [destruct (m =? 0); reflexivity|]. destruct (Z.eqb_spec e 0).
  - destruct m as [|p|p]; try reflexivity. apply HB; lia.
  - destruct (2 ^ 23 + m) eqn:E; try reflexivity. apply HB; lia.
Qed.
Lemma bits_decode s e m : 0 <= e < 2 ^ 8 -> 0 <= m < 2 ^ 23 -> let b := (if (s : bool) then 2 ^ 31 else 0) + e * 2 ^ 23 + m in
  0 <= b < 2 ^ 32 /\ Z.testbit b 31 = s /\ (b / 2 ^ 23) mod 2 ^ 8 = e /\ b mod 2 ^ 23 = m.
Proof.
  intros He Hm. cbn zeta. split; [destruct s; lia|]. split; [|split].
  - rewrite Z.testbit_odd, Z.shiftr_div_pow2 by lia. destruct s; [replace (2 ^ 31 + e * 2 ^ 23 + m) with (1 * 2 ^ 31 + (e * 2 ^ 23 + m)) by lia|replace (0 + e * 2 ^ 23 + m) with (0 * 2 ^ 31 + (e * 2 ^ 23 + m)) by lia]; rewrite Z.div_add_l, Z.div_small by lia; reflexivity.
  - replace ((if s then 2 ^ 31 else 0) + e * 2 ^ 23 + m) with (((if s then 2 ^ 8 else 0) + e) * 2 ^ 23 + m) by (destruct s; lia). rewrite Z.div_add_l, Z.div_small, Z.add_0_r by lia. destruct s; [|apply Z.mod_small; lia]. replace (2 ^ 8 + e) with (e + 1 * 2 ^ 8) by lia. rewrite Z.mod_add by lia. apply Z.mod_small. lia.
  - replace ((if s then 2 ^ 31 else 0) + e * 2 ^ 23 + m) with (m + ((if s then 2 ^ 8 else 0) + e) * 2 ^ 23) by (destruct s; lia). rewrite Z.mod_add by lia. apply Z.mod_small. lia.
Qed.
Lemma bits_onto x : valid_f32 x -> exists b, 0 <= b < 2 ^ 32 /\ f32_of_bits b = x.
Proof.
  intros Hx. destruct x as [s|s| |s p e].
  - pose proof (bits_decode s 0 0 ltac:(lia) ltac:(lia)) as (H1 & H2 & H3 & H4). eexists; split; [exact H1|]. unfold f32_of_bits. rewrite H2, H3, H4. reflexivity.
  - pose proof (bits_decode s 255 0 ltac:(lia) ltac:(lia)) as (H1 & H2 & H3 & H4). eexists; split; [exact H1|]. unfold f32_of_bits. rewrite H2, H3, H4. reflexivity.
  - pose proof (bits_decode false 255 1 ltac:(lia) ltac:(lia)) as (H1 & H2 & H3 & H4). eexists; split; [exact H1|]. unfold f32_of_bits. rewrite H2, H3, H4. reflexivity.
  - apply valid_finite in Hx as (A & B & C). destruct (Z.ltb_spec (Z.pos p) (2 ^ 23)) as [L|L].
    + assert (e = -149) by lia. subst e. pose proof (bits_decode s 0 (Z.pos p) ltac:(lia) ltac:(lia)) as (H1 & H2 & H3 & H4). eexists; split; [exact H1|]. unfold f32_of_bits. rewrite H2, H3, H4. reflexivity.
    + pose proof (bits_decode s (e + 150) (Z.pos p - 2 ^ 23) ltac:(lia) ltac:(lia)) as (H1 & H2 & H3 & H4). eexists; split; [exact H1|]. unfold f32_of_bits. rewrite H2, H3, H4. destruct (Z.eqb_spec (e + 150) 255); [lia|]. destruct (Z.eqb_spec (e + 150) 0); [lia|]. replace (2 ^ 23 + (Z.pos p - 2 ^ 23)) with (Z.pos p) by lia. f_equal. lia.
Qed.
Lemma is_inf_iff a : valid_f32 a -> (is_inf_fastmath a = true <-> exists s, a = S754_infinity s).
Proof.
  intros Ha. unfold is_inf_fastmath. change (f32_of (2 ^ 24 - 1) 104) with (S754_finite false 16777215 104). destruct a as [s|s| |s m e].
  - split; [discriminate|intros [t E]; discriminate].
  - split; [eauto|reflexivity].
  - split; [discriminate|intros [t E]; discriminate].
  - split; [|intros [t E]; discriminate]. cbn [SFabs]. apply (valid_sign _ false) in Ha. rewrite SFltb_key by (exact Ha || reflexivity). intros H. apply Z.ltb_lt in H. cbn [fkey] in H. apply valid_finite in Ha as (A & B & _).
    exfalso. assert (2 ^ (e + 149) <= 2 ^ (104 + 149)) by (apply Z.pow_le_mono_r; lia). assert (0 < 2 ^ (e + 149)) by (apply Z.pow_pos_nonneg; lia). set (x := 2 ^ (e + 149)) in *. set (y := 2 ^ (104 + 149)) in *. clearbody x y. nia.
Qed.
