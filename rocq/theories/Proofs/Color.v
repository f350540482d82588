From Coq Require Import QArith Qround Lqa Floats.SpecFloat.
From Verif.Common Require Import Base Lemmas F32.
From Verif.Spec Require Import ColorSpec.
From Verif.Model Require Import MathInt Color.
From Verif.Proofs Require Import MathInt.
Open Scope Z_scope.

(** land with a mask in two pieces *)
Lemma land_split x k m1 m0 : 0 <= k -> 0 <= m0 < 2 ^ k ->
  Z.land x (m1 * 2 ^ k + m0) = Z.land (x / 2 ^ k) m1 * 2 ^ k + Z.land x m0.
Proof.
  intros Hk Hm. pose proof (pow2_pos k Hk) as Hp.
  assert (Hr : 0 <= Z.land x m0 < 2 ^ k).
  { replace m0 with (Z.land m0 (Z.ones k)) by (rewrite Z.land_ones by lia; apply Z.mod_small; lia).
    rewrite Z.land_assoc, Z.land_ones by lia. apply Z.mod_pos_bound. lia. }
  assert (Hbit : forall a b i, 0 <= b < 2 ^ k -> 0 <= i -> Z.testbit (a * 2 ^ k + b) i = if i <? k then Z.testbit b i else Z.testbit a (i - k)).
  { intros a b i Hb Hi. destruct (i <? k) eqn:E.
    - apply Z.ltb_lt in E. rewrite <- (Z.mod_pow2_bits_low (a * 2 ^ k + b) k i) by lia. rewrite Z.add_comm, Z.mod_add by lia. rewrite Z.mod_small by lia. reflexivity.
    - apply Z.ltb_ge in E. replace i with ((i - k) + k) at 1 by lia. rewrite <- Z.div_pow2_bits by lia. rewrite Z.div_add_l by lia. rewrite Z.div_small by lia. rewrite Z.add_0_r. reflexivity. }
  apply Z.bits_inj'. intros i Hi. rewrite Z.land_spec, !Hbit by lia. destruct (i <? k) eqn:E.
  - rewrite Z.land_spec. reflexivity.
  - apply Z.ltb_ge in E. rewrite Z.land_spec, Z.div_pow2_bits by lia. replace (i - k + k) with i by lia. reflexivity.
Qed.
Lemma land_high x k n : 0 <= k -> 0 <= n -> Z.land x ((2 ^ n - 1) * 2 ^ k) = (x / 2 ^ k) mod 2 ^ n * 2 ^ k.
Proof.
  intros Hk Hn. pose proof (land_split x k (2 ^ n - 1) 0 Hk) as H. rewrite Z.add_0_r in H. rewrite H by (pose proof (pow2_pos k Hk); lia).
  rewrite Z.land_0_r, Z.add_0_r, land_ones_mod by lia. reflexivity.
Qed.
Lemma lor_split a k b : 0 <= k -> 0 <= b < 2 ^ k -> Z.lor (a * 2 ^ k) b = a * 2 ^ k + b.
Proof.
  intros Hk Hb. symmetry. rewrite <- Z.shiftl_mul_pow2 by lia. 
  assert (E : Z.land (Z.shiftl a k) b = 0); [|rewrite Z.add_nocarry_lxor, Z.lxor_lor by exact E; reflexivity].
  apply Z.bits_inj'. intros i Hi. rewrite Z.land_spec, Z.bits_0. destruct (Z.lt_ge_cases i k).
  - rewrite Z.shiftl_spec_low by lia. reflexivity.
  - replace b with (b mod 2 ^ k) by (apply Z.mod_small; lia). rewrite Z.mod_pow2_bits_high by lia. apply andb_false_r.
Qed.

Ltac dm := Z.to_euclidean_division_equations; lia.

(** shifts as arithmetic *)
Lemma shr x k : 0 <= k -> Z.shiftr x k = x / 2 ^ k. Proof. apply Z.shiftr_div_pow2. Qed.
Lemma shl x k : 0 <= k -> Z.shiftl x k = x * 2 ^ k. Proof. apply Z.shiftl_mul_pow2. Qed.
Ltac shifts := rewrite ?shr, ?shl by lia.

Lemma of565_spec x : uint16 x -> color_of_565 x = RGB (red5 x * 8) (green6 x * 4) (blue5 x * 8).
Proof.
  intros H. unfold color_of_565, mk, red5, green6, blue5. unfold uint16 in H.
  change 0xf800 with ((2 ^ 5 - 1) * 2 ^ 11). change 0x07e0 with ((2 ^ 6 - 1) * 2 ^ 5). change 0x001f with ((2 ^ 5 - 1) * 2 ^ 0).
  rewrite !land_high by lia. shifts. unfold word. f_equal; dm.
Qed.
Lemma to565_spec c : is_color c -> rgb565 c = red c / 8 * 2 ^ 11 + green c / 4 * 2 ^ 5 + blue c / 8 /\ uint16 (rgb565 c).
Proof.
  intros (Hr & Hg & Hb). unfold byte, rgb565, uint16 in *.
  change 0xf8 with ((2 ^ 5 - 1) * 2 ^ 3). change 0xfc with ((2 ^ 6 - 1) * 2 ^ 2). rewrite !land_high by lia. shifts.
  replace ((red c / 2 ^ 3) mod 2 ^ 5 * 2 ^ 3 * 2 ^ 8) with (red c / 8 * 2 ^ 11) by dm.
  replace ((green c / 2 ^ 2) mod 2 ^ 6 * 2 ^ 2 * 2 ^ 3) with (green c / 4 * 2 ^ 5) by dm.
  rewrite (lor_split (red c / 8) 11) by dm.
  replace (red c / 8 * 2 ^ 11 + green c / 4 * 2 ^ 5) with ((red c / 8 * 64 + green c / 4) * 2 ^ 5) by lia.
  rewrite lor_split by dm. rewrite word_small by dm. split; [reflexivity|dm].
Qed.
Lemma to565_channels c : is_color c ->
  red5 (rgb565 c) = red c / 8 /\ green6 (rgb565 c) = green c / 4 /\ blue5 (rgb565 c) = blue c / 8.
Proof.
  intros Hc. destruct (to565_spec c Hc) as [-> _]. destruct Hc as (Hr & Hg & Hb). unfold byte, red5, green6, blue5 in *.
  assert (0 <= red c / 8 < 32 /\ 0 <= green c / 4 < 64 /\ 0 <= blue c / 8 < 32) as (H1 & H2 & H3) by dm.
  generalize dependent (red c / 8). generalize dependent (green c / 4). generalize dependent (blue c / 8). intros. splits; dm.
Qed.
Lemma is_color_565 x : uint16 x -> is_color (color_of_565 x).
Proof. intros H. rewrite of565_spec by exact H. unfold uint16, is_color, byte, red5, green6, blue5 in *. cbn. dm. Qed.
Lemma round565 x : uint16 x -> rgb565 (color_of_565 x) = x.
Proof.
  intros H. rewrite (proj1 (to565_spec _ (is_color_565 x H))). rewrite of565_spec by exact H. unfold uint16, red5, green6, blue5 in *. cbn [red green blue].
  rewrite !Z.div_mul by lia. dm.
Qed.
Lemma keep_top_bits c : is_color c ->
  color_of_565 (rgb565 c) = RGB (red c / 8 * 8) (green c / 4 * 4) (blue c / 8 * 8).
Proof.
  intros Hc. destruct (to565_channels c Hc) as (H1 & H2 & H3). rewrite of565_spec by apply (to565_spec c Hc). rewrite H1, H2, H3. reflexivity.
Qed.
Lemma c565_fields c : is_color c -> c565_rgb (red c) (green c) (blue c) = B565 (blue c / 8) (green c / 4) (red c / 8).
Proof. intros (Hr & Hg & Hb). unfold byte, c565_rgb, mk565, word in *. shifts. f_equal; dm. Qed.
Lemma raw_fields b g r : 0 <= b < 32 -> 0 <= g < 64 -> 0 <= r < 32 -> raw565 (B565 b g r) = r * 2 ^ 11 + g * 2 ^ 5 + b.
Proof.
  intros Hb Hg Hr. unfold raw565. cbn [f_b f_g f_r]. shifts. rewrite (lor_split r 11) by lia.
  replace (r * 2 ^ 11 + g * 2 ^ 5) with ((r * 64 + g) * 2 ^ 5) by lia. rewrite lor_split by lia. apply word_small. lia.
Qed.
Lemma classes_agree c : is_color c ->
  let x := c565_rgb (red c) (green c) (blue c) in
  raw565 x = rgb565 c /\ RGB (red565 x) (green565 x) (blue565 x) = color_of_565 (rgb565 c).
Proof.
  intros Hc x. subst x. rewrite (c565_fields c Hc), (keep_top_bits c Hc), (proj1 (to565_spec c Hc)). destruct Hc as (Hr & Hg & Hb). unfold byte in *. split.
  - apply raw_fields; dm.
  - unfold red565, green565, blue565, word. cbn [f_r f_g f_b]. shifts. f_equal; dm.
Qed.
Lemma from888 c hi : is_color c -> byte hi ->
  c565_888 (hi * 2 ^ 24 + red c * 2 ^ 16 + green c * 2 ^ 8 + blue c) = c565_rgb (red c) (green c) (blue c).
Proof.
  intros Hc Hhi. rewrite (c565_fields c Hc). destruct Hc as (Hr & Hg & Hb). unfold byte, c565_888, mk565, word in *.
  change 0x0000f8 with ((2 ^ 5 - 1) * 2 ^ 3). change 0x00fc00 with ((2 ^ 6 - 1) * 2 ^ 10). change 0xf80000 with ((2 ^ 5 - 1) * 2 ^ 19).
  rewrite !land_high by lia. shifts. rewrite !Z.div_mul by lia. rewrite !Z.mod_mod by lia. f_equal; dm.
Qed.
Lemma assign565 raw : uint16 raw -> raw565 (c565_assign raw) = raw /\ c565_assign raw = B565 (blue5 raw) (green6 raw) (red5 raw).
Proof.
  intros H. unfold uint16 in H. assert (E : c565_assign raw = B565 (blue5 raw) (green6 raw) (red5 raw)).
  { unfold c565_assign, blue5, green6, red5. shifts. change 31 with (2 ^ 5 - 1). change 63 with (2 ^ 6 - 1). rewrite !land_ones_mod by lia. f_equal; dm. }
  split; [|exact E]. rewrite E. unfold blue5, green6, red5. rewrite raw_fields by dm. dm.
Qed.

(** 8-bit blend *)
Lemma blend8_ch_spec x y p : byte x -> byte y -> byte p ->
  blend8_ch x y p = (y * p + x * (255 - p)) / 255 /\ byte (blend8_ch x y p).
Proof.
  unfold byte. intros Hx Hy Hp. unfold blend8_ch. assert (HB : 0 <= y * p + x * (255 - p) <= 65025) by nia.
  rewrite (word_small 16 (y * p + x * (255 - p))) by lia. generalize dependent (y * p + x * (255 - p)). intros n Hn. shifts.
  rewrite word_small by dm. dm.
Qed.
Lemma blend8_spec c d p : is_color c -> is_color d -> byte p ->
  blend8 c d p = each2 (fun x y => (y * p + x * (255 - p)) / 255) c d.
Proof.
  intros (H1 & H2 & H3) (H4 & H5 & H6) Hp. unfold blend8, each2, mk.
  destruct (blend8_ch_spec _ _ _ H1 H4 Hp) as [E1 B1]. destruct (blend8_ch_spec _ _ _ H2 H5 Hp) as [E2 B2]. destruct (blend8_ch_spec _ _ _ H3 H6 Hp) as [E3 B3].
  rewrite !word_small by assumption. rewrite E1, E2, E3. reflexivity.
Qed.
Lemma mean_within x y p : byte x -> byte y -> byte p -> within x y ((y * p + x * (255 - p)) / 255).
Proof.
  unfold byte, within. intros Hx Hy Hp. split.
  - apply Z.div_le_lower_bound; [lia|]. destruct (Z.min_spec x y) as [[? ->]|[? ->]]; nia.
  - apply Z.div_le_upper_bound; [lia|]. destruct (Z.max_spec x y) as [[? ->]|[? ->]]; nia.
Qed.
Lemma each2_within (f : Z -> Z -> Z) c d : (forall x y, byte x -> byte y -> within x y (f x y)) -> is_color c -> is_color d ->
  within (red c) (red d) (red (each2 f c d)) /\ within (green c) (green d) (green (each2 f c d)) /\ within (blue c) (blue d) (blue (each2 f c d)).
Proof. intros H (H1 & H2 & H3) (H4 & H5 & H6). cbn. auto. Qed.
Lemma blend8_ends c d : is_color c -> is_color d -> blend8 c d 0 = c /\ blend8 c d 255 = d.
Proof.
  intros Hc Hd. rewrite !blend8_spec by (try assumption; unfold byte; lia). destruct c as [r g b], d as [r2 g2 b2]. unfold each2. cbn [red green blue]. split; f_equal.
  all: try (rewrite Z.sub_0_r); try (rewrite Z.sub_diag, Z.mul_0_r, Z.add_0_r); try (rewrite Z.mul_0_r, Z.add_0_l); apply Z.div_mul; lia.
Qed.
Lemma blend8_within c d p : is_color c -> is_color d -> byte p ->
  within (red c) (red d) (red (blend8 c d p)) /\ within (green c) (green d) (green (blend8 c d p)) /\ within (blue c) (blue d) (blue (blend8 c d p)).
Proof. intros Hc Hd Hp. rewrite blend8_spec by assumption. apply each2_within; auto. intros. apply mean_within; assumption. Qed.

Lemma usat8 n : 0 <= n < 2 ^ 31 -> usat n 8 = Z.min n 255.
Proof.
  intros H. unfold usat, unsigned_saturate. cbn [Z.leb Z.compare Pos.compare Pos.compare_cont]. change (sword 32 (word 32 (word 32 (2 ^ 8) - 1))) with 255.
  destruct (n >? 255) eqn:E.
  - apply Z.gtb_lt in E. rewrite word_small by lia. lia.
  - rewrite Z.gtb_ltb, Z.ltb_ge in E. destruct (n <? 0) eqn:E2; [apply Z.ltb_lt in E2; lia|]. rewrite word_small by lia. lia.
Qed.
Lemma combine_spec c d : is_color c -> is_color d -> combine c d = each2 (fun x y => Z.min (x + y) 255) c d.
Proof.
  intros (H1 & H2 & H3) (H4 & H5 & H6). unfold byte, combine, each2, mk in *. rewrite !(sword_small 32) by lia. rewrite !usat8 by lia.
  rewrite !word_small by lia. reflexivity.
Qed.
Lemma plus_spec c d : plus c d = each2 (fun x y => (x + y) mod 256) c d.
Proof. reflexivity. Qed.
Lemma adjust_spec c a : is_color c -> is_color a -> adjust c a = each2 (fun x k => Z.min (x * k / 128) 255) c a.
Proof.
  intros (H1 & H2 & H3) (H4 & H5 & H6). unfold byte, adjust, each2, mk in *. shifts. change (2 ^ 7) with 128.
  assert (HB : forall x k, 0 <= x < 256 -> 0 <= k < 256 -> 0 <= x * k / 128 < 2 ^ 31).
  { intros x k Hx Hk. assert (0 <= x * k < 65536) by nia. dm. }
  rewrite !usat8 by (apply HB; assumption). assert (HC : forall x k, 0 <= x < 256 -> 0 <= k < 256 -> 0 <= Z.min (x * k / 128) 255 < 2 ^ 8).
  { intros x k Hx Hk. pose proof (HB x k Hx Hk). lia. }
  rewrite !word_small by (apply HC; assumption). reflexivity.
Qed.
Lemma adjust_128 c : is_color c -> adjust c (RGB 128 128 128) = c.
Proof.
  intros Hc. rewrite adjust_spec by (auto; unfold is_color, byte; cbn; lia). destruct c as [r g b], Hc as (H1 & H2 & H3). unfold byte, each2 in *. cbn [red green blue] in *.
  rewrite !Z.div_mul by lia. f_equal; lia.
Qed.

(** 32-bit and half blends *)
Lemma blend32_spec c d p : is_color c -> is_color d -> 0 <= p < 2 ^ 32 ->
  blend32 c d p = each2 (fun x y => (x * (256 - p / 2 ^ 24) + y * (p / 2 ^ 24)) / 256) c d.
Proof.
  intros (H1 & H2 & H3) (H4 & H5 & H6) Hp. unfold byte, blend32, each2, mk, blend32_ch in *. shifts.
  assert (Hk : 0 <= p / 2 ^ 24 < 256) by dm. generalize dependent (p / 2 ^ 24). intros k Hk. change (2 ^ 8) with 256.
  rewrite !(word_small 32 (256 - k)) by lia.
  assert (HB : forall x, 0 <= x < 256 -> forall w, 0 <= w <= 256 -> 0 <= x * w <= 65280) by (intros; nia).
  rewrite !(word_small 32 (_ * _)) by (match goal with |- 0 <= ?x * ?w < _ => pose proof (HB x ltac:(lia) w ltac:(lia)); lia end).
  assert (HS : forall x y, 0 <= x < 256 -> 0 <= y < 256 -> 0 <= x * (256 - k) + y * k <= 65280) by (intros; nia).
  assert (HT : forall x y, 0 <= x < 256 -> 0 <= y < 256 -> 0 <= (x * (256 - k) + y * k) / 256 < 2 ^ 8) by (intros x y Hx Hy; pose proof (HS x y Hx Hy); dm).
  rewrite !(word_small 32) by (match goal with |- 0 <= ?x * _ + ?y * _ < _ => pose proof (HS x y ltac:(lia) ltac:(lia)); lia end).
  rewrite !word_small by (apply HT; assumption). reflexivity.
Qed.
Lemma blend_half_spec c d : is_color c -> is_color d -> blend_half c d = each2 (fun x y => x / 2 + y / 2) c d.
Proof. intros (H1 & H2 & H3) (H4 & H5 & H6). unfold byte, blend_half, each2, mk, word in *. shifts. f_equal; dm. Qed.

(** packed blend *)
(** a masked word keeps its three fields *)
Lemma mask3 x : Z.land x 0x07e0f81f = (x / 2 ^ 21) mod 2 ^ 6 * 2 ^ 21 + ((x / 2 ^ 11) mod 2 ^ 5 * 2 ^ 11 + x mod 2 ^ 5).
Proof.
  change 0x07e0f81f with ((2 ^ 6 - 1) * 2 ^ 21 + ((2 ^ 5 - 1) * 2 ^ 11 + (2 ^ 5 - 1) * 2 ^ 0)).
  rewrite land_split by lia. rewrite land_split by lia. rewrite land_high by lia. rewrite !land_ones_mod by lia. rewrite Z.pow_0_r, Z.div_1_r, Z.mul_1_r. reflexivity.
Qed.
Lemma spread_spec x : uint16 x -> spread x = green6 x * 2 ^ 21 + red5 x * 2 ^ 11 + blue5 x.
Proof.
  intros H. unfold uint16 in H. unfold spread, green6, red5, blue5. shifts. rewrite Z.lor_comm, lor_split by lia.
  rewrite word_small by lia. rewrite mask3.
  replace ((x * 2 ^ 16 + x) / 2 ^ 21) with (x / 2 ^ 5) by dm.
  replace (((x * 2 ^ 16 + x) / 2 ^ 11) mod 2 ^ 5) with (x / 2 ^ 11) by dm.
  replace ((x * 2 ^ 16 + x) mod 2 ^ 5) with (x mod 2 ^ 5) by dm. ring.
Qed.
Lemma mask3_word x y : x mod 2 ^ 27 = y mod 2 ^ 27 -> Z.land x 0x07e0f81f = Z.land y 0x07e0f81f.
Proof.
  intros H. change 0x07e0f81f with (Z.land (Z.ones 27) 0x07e0f81f). rewrite !Z.land_assoc, !Z.land_ones by lia. rewrite H. reflexivity.
Qed.
Lemma pack3 G R B : 0 <= G < 64 -> 0 <= R < 32 -> 0 <= B < 32 ->
  word 16 (Z.lor (Z.shiftr (G * 2 ^ 21 + (R * 2 ^ 11 + B)) 16) (G * 2 ^ 21 + (R * 2 ^ 11 + B))) = R * 2 ^ 11 + G * 2 ^ 5 + B.
Proof.
  intros HG HR HB. shifts. replace ((G * 2 ^ 21 + (R * 2 ^ 11 + B)) / 2 ^ 16) with (G * 2 ^ 5) by dm.
  unfold word. rewrite <- Z.land_ones by lia. rewrite Z.land_lor_distr_l, !Z.land_ones by lia.
  replace ((G * 2 ^ 21 + (R * 2 ^ 11 + B)) mod 2 ^ 16) with (R * 2 ^ 11 + B) by dm. rewrite (Z.mod_small (G * 2 ^ 5)) by lia.
  rewrite <- (lor_split R 11 B) by lia. rewrite Z.lor_comm, <- Z.lor_assoc, (Z.lor_comm B), (lor_split G 5 B) by lia. rewrite lor_split by lia. lia.
Qed.
Lemma blend565_spec c1 c2 alpha : uint16 c1 -> uint16 c2 -> byte alpha ->
  let a := (alpha + 4) / 8 in
  blend565 c1 c2 alpha =
    (red5 c1 + (red5 c2 - red5 c1) * a / 32) * 2 ^ 11 + (green6 c1 + (green6 c2 - green6 c1) * a / 32) * 2 ^ 5 +
    (blue5 c1 + (blue5 c2 - blue5 c1) * a / 32) /\
  0 <= red5 c1 + (red5 c2 - red5 c1) * a / 32 < 32 /\ 0 <= green6 c1 + (green6 c2 - green6 c1) * a / 32 < 64 /\
  0 <= blue5 c1 + (blue5 c2 - blue5 c1) * a / 32 < 32.
Proof.
  intros H1 H2 Ha a. unfold blend565. shifts. change (2 ^ 3) with 8. unfold byte in Ha. assert (Hb : 0 <= a <= 32) by (subst a; dm).
  rewrite (word_small 8) by (subst a; lia). fold a. clearbody a. rewrite !spread_spec by assumption.
  assert (0 <= red5 c1 < 32 /\ 0 <= green6 c1 < 64 /\ 0 <= blue5 c1 < 32) as (Hr1 & Hg1 & Hb1) by (unfold uint16, red5, green6, blue5 in *; dm).
  assert (0 <= red5 c2 < 32 /\ 0 <= green6 c2 < 64 /\ 0 <= blue5 c2 < 32) as (Hr2 & Hg2 & Hb2) by (unfold uint16, red5, green6, blue5 in *; dm).
  generalize dependent (red5 c1). generalize dependent (green6 c1). generalize dependent (blue5 c1).
  generalize dependent (red5 c2). generalize dependent (green6 c2). generalize dependent (blue5 c2). clear - Hb.
  intros b2 Hb2 g2 Hg2 r2 Hr2 b1 Hb1 g1 Hg1 r1 Hr1.
  set (bg := g1 * 2 ^ 21 + r1 * 2 ^ 11 + b1). set (fg := g2 * 2 ^ 21 + r2 * 2 ^ 11 + b2).
  set (gg := g1 * (32 - a) + g2 * a). set (rr := r1 * (32 - a) + r2 * a). set (bb := b1 * (32 - a) + b2 * a).
  assert (HG : 0 <= gg <= 2016) by (subst gg; nia). assert (HR : 0 <= rr <= 992) by (subst rr; nia). assert (HB : 0 <= bb <= 992) by (subst bb; nia).
  assert (EG : g1 + (g2 - g1) * a / 32 = gg / 32). { rewrite <- Z.div_add_l by lia. f_equal. subst gg. lia. }
  assert (ER : r1 + (r2 - r1) * a / 32 = rr / 32). { rewrite <- Z.div_add_l by lia. f_equal. subst rr. lia. }
  assert (EB : b1 + (b2 - b1) * a / 32 = bb / 32). { rewrite <- Z.div_add_l by lia. f_equal. subst bb. lia. }
  rewrite EG, ER, EB. split; [|dm].
  assert (EX : (fg - bg) * a / 32 + bg = gg * 2 ^ 16 + rr * 2 ^ 6 + bb / 32).
  { rewrite <- Z.div_add by lia. replace ((fg - bg) * a + bg * 32) with (bb + (gg * 2 ^ 16 + rr * 2 ^ 6) * 32) by (subst gg rr bb fg bg; lia). rewrite Z.div_add by lia. lia. }
  rewrite (mask3_word _ (gg * 2 ^ 16 + rr * 2 ^ 6 + bb / 32)).
  2:{ rewrite <- EX. rewrite word_mod_pow2 by lia. rewrite <- Z.add_mod_idemp_l, <- (Z.add_mod_idemp_l ((fg - bg) * a / 32)) by lia. f_equal. f_equal.
      unfold word. rewrite Z.mul_mod_idemp_l by lia. change (2 ^ 5) with 32. generalize ((fg - bg) * a). intros n. dm. }
  rewrite mask3.
  replace (((gg * 2 ^ 16 + rr * 2 ^ 6 + bb / 32) / 2 ^ 21) mod 2 ^ 6) with (gg / 32) by dm.
  replace (((gg * 2 ^ 16 + rr * 2 ^ 6 + bb / 32) / 2 ^ 11) mod 2 ^ 5) with (rr / 32) by dm.
  replace ((gg * 2 ^ 16 + rr * 2 ^ 6 + bb / 32) mod 2 ^ 5) with (bb / 32) by dm.
  rewrite <- shr by lia. apply pack3; dm.
Qed.
Lemma blend565_channels c1 c2 alpha : uint16 c1 -> uint16 c2 -> byte alpha ->
  let a := (alpha + 4) / 8 in let c := blend565 c1 c2 alpha in
  uint16 c /\ red5 c = red5 c1 + (red5 c2 - red5 c1) * a / 32 /\ green6 c = green6 c1 + (green6 c2 - green6 c1) * a / 32 /\
  blue5 c = blue5 c1 + (blue5 c2 - blue5 c1) * a / 32.
Proof.
  intros H1 H2 Ha a c. destruct (blend565_spec c1 c2 alpha H1 H2 Ha) as (E & HR & HG & HB). subst c. rewrite E. fold a in HR, HG, HB |- *.
  generalize dependent (red5 c1 + (red5 c2 - red5 c1) * a / 32). generalize dependent (green6 c1 + (green6 c2 - green6 c1) * a / 32).
  generalize dependent (blue5 c1 + (blue5 c2 - blue5 c1) * a / 32). clear. intros b Hb g Hg r Hr. unfold uint16, red5, green6, blue5. splits; dm.
Qed.
Lemma split565 x : uint16 x -> x = red5 x * 2 ^ 11 + green6 x * 2 ^ 5 + blue5 x.
Proof. unfold uint16, red5, green6, blue5. intros. dm. Qed.
Lemma blend565_ends c1 c2 alpha : uint16 c1 -> uint16 c2 -> byte alpha ->
  (alpha < 4 -> blend565 c1 c2 alpha = c1) /\ (252 <= alpha -> blend565 c1 c2 alpha = c2).
Proof.
  intros H1 H2 Ha. destruct (blend565_spec c1 c2 alpha H1 H2 Ha) as (E & _). cbv zeta in E. unfold byte in Ha. split; intros HA; rewrite E.
  - replace ((alpha + 4) / 8) with 0 by dm. rewrite !Z.mul_0_r. change (0 / 32) with 0. rewrite !Z.add_0_r. symmetry. apply split565, H1.
  - replace ((alpha + 4) / 8) with 32 by dm. rewrite !Z.div_mul by lia. rewrite (split565 c2 H2) at 4. lia.
Qed.

(** HSV *)
Definition hp s v := v * (255 - s) / 256.
Definition hq s v rem := v * (255 - s * rem / 256) / 256.
Definition ht s v rem := v * (255 - s * (255 - rem) / 256) / 256.
Lemma hsv_eq h s v : byte h -> byte s -> byte v ->
  let rem := h mod 43 * 6 in
  hsv_to_rgb h s v =
  if s =? 0 then RGB v v v
  else if h <? 43 then RGB v (ht s v rem) (hp s v)
  else if h <? 86 then RGB (hq s v rem) v (hp s v)
  else if h <? 129 then RGB (hp s v) v (ht s v rem)
  else if h <? 172 then RGB (hp s v) (hq s v rem) v
  else if h <? 215 then RGB (ht s v rem) (hp s v) v
  else RGB v (hp s v) (hq s v rem).
Proof.
  intros Hh Hs Hv rem. unfold byte in *. unfold hsv_to_rgb, mk. rewrite !(word_small 8 v) by lia.
  assert (HR : 0 <= rem <= 252) by (subst rem; dm).
  replace (word 32 (word 32 (h - word 32 (h / 43 * 43)) * 6)) with rem.
  2:{ rewrite (word_small 32 (h / 43 * 43)) by dm. rewrite (word_small 32 (h - _)) by dm. rewrite word_small by dm. subst rem. dm. }
  clearbody rem. shifts. change (2 ^ 8) with 256. rewrite !(word_small 32 (255 - s)) by lia. rewrite !(word_small 32 (255 - rem)) by lia.
  rewrite !(word_small 32 (s * rem)) by nia. rewrite !(word_small 32 (s * (255 - rem))) by nia.
  assert (H1 : 0 <= s * rem / 256 <= 255) by (assert (0 <= s * rem <= 65025) by nia; dm).
  assert (H2 : 0 <= s * (255 - rem) / 256 <= 255) by (assert (0 <= s * (255 - rem) <= 65025) by nia; dm).
  rewrite !(word_small 32 (255 - _)) by lia.
  assert (HB : forall k, 0 <= k <= 255 -> 0 <= v * k <= 65025) by (intros; nia).
  rewrite !(word_small 32 (v * _)) by (match goal with |- 0 <= v * ?k < _ => pose proof (HB k ltac:(lia)); lia end).
  assert (HC : forall k, 0 <= k <= 255 -> 0 <= v * k / 256 < 2 ^ 8) by (intros k Hk; pose proof (HB k Hk); dm).
  rewrite !(word_small 8 (v * _ / 256)) by (apply HC; lia). fold (hp s v) (hq s v rem) (ht s v rem).
  destruct (s =? 0); [reflexivity|].
  destruct (Z.ltb_spec h 43); [replace (h / 43) with 0 by dm; reflexivity|].
  destruct (Z.ltb_spec h 86); [replace (h / 43) with 1 by dm; reflexivity|].
  destruct (Z.ltb_spec h 129); [replace (h / 43) with 2 by dm; reflexivity|].
  destruct (Z.ltb_spec h 172); [replace (h / 43) with 3 by dm; reflexivity|].
  destruct (Z.ltb_spec h 215); [replace (h / 43) with 4 by dm; reflexivity|].
  replace (h / 43) with 5 by dm. reflexivity.
Qed.
Lemma hpqt s v rem : byte s -> byte v -> 0 <= rem <= 252 ->
  0 <= hp s v /\ hp s v <= hq s v rem <= v /\ hp s v <= ht s v rem <= v.
Proof.
  unfold byte, hp, hq, ht. intros Hs Hv Hr.
  assert (H1 : 0 <= s * rem / 256 <= s) by (assert (0 <= s * rem <= s * 256) by nia; dm).
  assert (H2 : 0 <= s * (255 - rem) / 256 <= s) by (assert (0 <= s * (255 - rem) <= s * 256) by nia; dm).
  splits.
  - apply Z.div_pos; nia.
  - apply Z.div_le_mono; nia.
  - apply Z.div_le_upper_bound; nia.
  - apply Z.div_le_mono; nia.
  - apply Z.div_le_upper_bound; nia.
Qed.
Lemma hsv_extremes h s v : byte h -> byte s -> byte v ->
  let c := hsv_to_rgb h s v in
  is_color c /\ Z.max (red c) (Z.max (green c) (blue c)) = v /\
  Z.min (red c) (Z.min (green c) (blue c)) = if s =? 0 then v else v * (255 - s) / 256.
Proof.
  intros Hh Hs Hv. cbv zeta. rewrite hsv_eq by assumption. cbv zeta. fold (hp s v).
  assert (HR : 0 <= h mod 43 * 6 <= 252) by dm. destruct (hpqt s v _ Hs Hv HR) as (H1 & H2 & H3). unfold is_color, byte in *.
  destruct (s =? 0); [cbn; lia|].
  destruct (h <? 43); [cbn; lia|]. destruct (h <? 86); [cbn; lia|]. destruct (h <? 129); [cbn; lia|]. destruct (h <? 172); [cbn; lia|].
  destruct (h <? 215); cbn; lia.
Qed.
Lemma hsv_grey h v : byte h -> byte v -> hsv_to_rgb h 0 v = RGB v v v.
Proof. intros Hh Hv. rewrite hsv_eq by (auto; unfold byte; lia). reflexivity. Qed.
Lemma hsv_primaries v : byte v -> hsv_to_rgb 0 255 v = RGB v 0 0 /\ hsv_to_rgb 86 255 v = RGB 0 v 0 /\ hsv_to_rgb 172 255 v = RGB 0 0 v.
Proof.
  intros Hv. rewrite !hsv_eq by (auto; unfold byte; lia). cbn [Z.eqb Z.ltb Z.compare Pos.compare Pos.compare_cont].
  unfold byte, hp, ht in *. change (86 mod 43 * 6) with 0. change (172 mod 43 * 6) with 0. change (0 mod 43 * 6) with 0. change (255 * (255 - 0) / 256) with 254.
  splits; f_equal; dm.
Qed.
(** neighbouring hues *)
Lemma near_scale v K K' d : byte v -> 0 <= d -> near d K K' -> near d (v * K / 256) (v * K' / 256).
Proof.
  unfold byte, near. intros Hv Hd HK.
  assert (HM : forall A B, A <= B -> B - A <= d -> 0 <= v * B / 256 - v * A / 256 <= d).
  { intros A B H1 H2. assert (0 <= v * B - v * A <= d * 255) by nia. generalize dependent (v * B). intros vB. generalize dependent (v * A). intros vA H3. clear - H3 Hd. dm. }
  destruct (Z.le_ge_cases K K'); [pose proof (HM K K' ltac:(lia) ltac:(lia))|pose proof (HM K' K ltac:(lia) ltac:(lia))]; lia.
Qed.
Lemma v256 v : v = v * 256 / 256. Proof. rewrite Z.div_mul; lia. Qed.
Lemma sfrac s a b d : byte s -> 0 <= a <= b -> 0 <= d -> b - a <= d -> near d (s * a / 256) (s * b / 256).
Proof. intros Hs Ha Hd H. apply near_scale; [exact Hs|exact Hd|]. unfold near. lia. Qed.
Lemma near_sub d x y : near d x y -> near d (255 - x) (255 - y).
Proof. unfold near. lia. Qed.
Lemma near_refl d x : 0 <= d -> near d x x.
Proof. unfold near. rewrite Z.sub_diag. auto. Qed.
Lemma near_sym d x y : near d x y -> near d y x.
Proof. unfold near. lia. Qed.
Lemma near_weak d d' x y : d <= d' -> near d x y -> near d' x y.
Proof. unfold near. lia. Qed.
Lemma hq_step s v rem : byte s -> byte v -> 0 <= rem -> near 6 (hq s v rem) (hq s v (rem + 6)).
Proof. intros Hs Hv Hr. unfold hq. apply near_scale; [exact Hv|lia|]. apply near_sub, sfrac; auto; lia. Qed.
Lemma ht_step s v rem : byte s -> byte v -> rem + 6 <= 255 -> near 6 (ht s v rem) (ht s v (rem + 6)).
Proof. intros Hs Hv Hr. unfold ht. apply near_scale; [exact Hv|lia|]. apply near_sub, near_sym, sfrac; auto; lia. Qed.
Lemma hq_p s v rem : byte s -> byte v -> 0 <= rem <= 256 -> near (256 - rem) (hq s v rem) (hp s v).
Proof. intros Hs Hv Hr. unfold hq, hp. apply near_scale; [exact Hv|lia|]. apply near_sub. rewrite (v256 s) at 2. apply sfrac; auto; lia. Qed.
Lemma ht_p s v : byte s -> byte v -> near 1 (hp s v) (ht s v 0).
Proof. intros Hs Hv. unfold ht, hp. apply near_scale; [exact Hv|lia|]. apply near_sub. rewrite (v256 s) at 1. apply near_sym, sfrac; auto; lia. Qed.
Lemma hq_v s v : byte s -> byte v -> near 1 v (hq s v 0).
Proof. intros Hs Hv. unfold hq. rewrite (v256 v) at 1. apply near_scale; [exact Hv|lia|]. rewrite Z.mul_0_r. unfold near. cbn. lia. Qed.
Lemma ht_v s v : byte s -> byte v -> near 3 (ht s v 252) v.
Proof. intros Hs Hv. unfold ht. rewrite (v256 v) at 2. apply near_scale; [exact Hv|lia|]. unfold byte, near in *. dm. Qed.
Lemma hue_step h s v : byte h -> byte (h + 1) -> byte s -> byte v ->
  all_channels2 (near 6) (hsv_to_rgb h s v) (hsv_to_rgb (h + 1) s v).
Proof.
  intros Hh Hh' Hs Hv. rewrite !hsv_eq by assumption. cbv zeta. destruct (s =? 0); [unfold all_channels2; cbn; splits; apply near_refl; lia|].
  unfold byte in Hh, Hh'.
  assert (HC : (h + 1) mod 43 * 6 = h mod 43 * 6 + 6 /\ 0 <= h mod 43 * 6 <= 246 \/ (h + 1) mod 43 * 6 = 0 /\ h mod 43 * 6 = 252) by dm.
  assert (HD : (h + 1) mod 43 * 6 = 0 /\ h mod 43 * 6 = 252 <-> h + 1 = 43 \/ h + 1 = 86 \/ h + 1 = 129 \/ h + 1 = 172 \/ h + 1 = 215) by (split; dm).
  unfold all_channels2. destruct HC as [[E HR]|E].
  - assert (HN : ~ (h + 1 = 43 \/ h + 1 = 86 \/ h + 1 = 129 \/ h + 1 = 172 \/ h + 1 = 215)) by (rewrite <- HD; lia). rewrite E. clear HD E.
    generalize dependent (h mod 43 * 6). intros rem HR. pose proof (hq_step s v rem Hs Hv ltac:(lia)). pose proof (ht_step s v rem Hs Hv ltac:(lia)).
    repeat match goal with |- context [h <? ?n] => destruct (Z.ltb_spec h n) end;
    repeat match goal with |- context [h + 1 <? ?n] => destruct (Z.ltb_spec (h + 1) n) end; try (exfalso; lia); cbn [red green blue]; splits; auto; apply near_refl; lia.
  - pose proof (proj1 HD E) as HN. clear HD. destruct E as [-> ->].
    assert (near 6 (hp s v) (ht s v 0)) by (apply near_weak with 1; [lia|apply ht_p; assumption]).
    assert (near 6 (hq s v 252) (hp s v)) by (apply near_weak with (256 - 252); [lia|apply hq_p; auto; lia]).
    assert (near 6 v (hq s v 0)) by (apply near_weak with 1; [lia|apply hq_v; assumption]).
    assert (near 6 (ht s v 252) v) by (apply near_weak with 3; [lia|apply ht_v; assumption]).
    destruct HN as [HN|[HN|[HN|[HN|HN]]]]; replace h with (h + 1 - 1) by lia; rewrite HN; cbn [Z.ltb Z.compare Z.sub Z.add Z.opp Z.pos_sub Pos.pred_double Pos.compare Pos.compare_cont];
    cbn [red green blue]; splits; auto; apply near_refl; lia.
Qed.
Lemma hue_wrap s v : byte s -> byte v -> all_channels2 (near 16) (hsv_to_rgb 255 s v) (hsv_to_rgb 0 s v).
Proof.
  intros Hs Hv. rewrite !hsv_eq by (auto; unfold byte; lia). cbv zeta. destruct (s =? 0); [unfold all_channels2; cbn; splits; apply near_refl; lia|].
  cbn [Z.ltb Z.compare Pos.compare Pos.compare_cont]. change (255 mod 43 * 6) with 240. change (0 mod 43 * 6) with 0. unfold all_channels2. cbn [red green blue]. splits.
  - apply near_refl. lia.
  - apply near_weak with 1; [lia|apply ht_p; assumption].
  - apply (hq_p s v 240 Hs Hv). lia.
Qed.

(** blending a colour with itself *)
Lemma blend8_self c p : is_color c -> byte p -> blend8 c c p = c.
Proof.
  intros Hc Hp. rewrite blend8_spec by assumption. destruct c as [r g b]. unfold each2. cbn [red green blue]. f_equal;
  match goal with |- (?x * p + ?x * (255 - p)) / 255 = ?x => replace (x * p + x * (255 - p)) with (x * 255) by lia; apply Z.div_mul; lia end.
Qed.
Lemma blend32_self c p : is_color c -> 0 <= p < 2 ^ 32 -> blend32 c c p = c.
Proof.
  intros Hc Hp. rewrite blend32_spec by assumption. destruct c as [r g b]. unfold each2. cbn [red green blue]. generalize (p / 2 ^ 24). intros k. f_equal;
  match goal with |- (?x * (256 - k) + ?x * k) / 256 = ?x => replace (x * (256 - k) + x * k) with (x * 256) by lia; apply Z.div_mul; lia end.
Qed.
Lemma blendf_self_darker : exists c p, is_color c /\ SFltb f32_zero p = true /\ SFltb p f32_one = true /\
  blendf c c p = Ok (RGB 44 132 3) /\ c = RGB 45 132 3.
Proof. exists (RGB 45 132 3), (f32_of 0x6a107b (-28)). splits; try (vm_compute; reflexivity); unfold is_color, byte; cbn; lia. Qed.

(** float constructor *)
Lemma clamp_conv_spec x top : 0 <= top < 2 ^ 16 ->
  ((- (1) < x)%Q -> (x < inject_Z (2 ^ 16))%Q -> clamp_conv x top = Ok (Z.min top (Z.max 0 (Z.quot (Qnum x) (Zpos (Qden x)))))) /\
  ((x <= - (1))%Q \/ (inject_Z (2 ^ 16) <= x)%Q -> clamp_conv x top = UB BadCast).
Proof.
  intros Ht. unfold clamp_conv. destruct x as [n d]. unfold Qlt, Qle, inject_Z. cbn [Qnum Qden Qopp]. rewrite !Z.mul_1_r. split.
  - intros H1 H2. assert (HQ : 0 <= Z.quot n (Z.pos d) < 2 ^ 16).
    { destruct (Z.le_gt_cases 0 n) as [Hn|Hn].
      - rewrite Z.quot_div_nonneg by lia. split; [apply Z.div_pos; lia|apply Z.div_lt_upper_bound; lia].
      - rewrite <- (Z.opp_involutive n), Z.quot_opp_l by lia. rewrite Z.quot_div_nonneg by lia. rewrite Z.div_small by lia. lia. }
    generalize dependent (Z.quot n (Z.pos d)). intros q HQ. rewrite (proj2 (Z.leb_le 0 q)), (proj2 (Z.ltb_lt q (2 ^ 16))) by lia. cbn [andb].
    destruct (Z.ltb_spec q 0); [lia|]. destruct (Z.ltb_spec top q); f_equal; lia.
  - intros H. assert (HQ : Z.quot n (Z.pos d) < 0 \/ 2 ^ 16 <= Z.quot n (Z.pos d)).
    { destruct H as [H|H].
      - left. rewrite <- (Z.opp_involutive n), Z.quot_opp_l by lia. rewrite Z.quot_div_nonneg by lia. assert (1 <= - n / Z.pos d) by (apply Z.div_le_lower_bound; lia). lia.
      - right. rewrite Z.quot_div_nonneg by lia. apply Z.div_le_lower_bound; lia. }
    generalize dependent (Z.quot n (Z.pos d)). intros q HQ. destruct (Z.leb_spec 0 q); cbn [andb]; [|reflexivity]. destruct (Z.ltb_spec q (2 ^ 16)); [lia|reflexivity].
Qed.
Lemma clamp_frac (x : Q) (k : Z) : 0 < k < 2 ^ 8 -> (0 <= x)%Q -> (x <= 1)%Q ->
  clamp_conv (x * inject_Z k)%Q (k - 1) = Ok (Z.min (k - 1) (Qfloor (x * inject_Z k))).
Proof.
  intros Hk H0 H1. assert (HK : (0 <= inject_Z k)%Q) by (unfold Qle; cbn; lia).
  assert (HP : (0 <= x * inject_Z k)%Q) by (apply Qmult_le_0_compat; assumption).
  rewrite (proj1 (clamp_conv_spec _ (k - 1) ltac:(lia))).
  - f_equal. f_equal. destruct (x * inject_Z k)%Q as [n d]. unfold Qle in HP. cbn [Qnum Qden Qfloor] in *. rewrite Z.mul_1_r in HP. cbn [Z.mul] in HP. rewrite Z.quot_div_nonneg by lia.
    assert (0 <= n / Z.pos d) by (apply Z.div_pos; lia). lia.
  - lra.
  - assert (HU : (x * inject_Z k <= 1 * inject_Z k)%Q) by (apply Qmult_le_compat_r; assumption). eapply Qle_lt_trans; [exact HU|]. rewrite Qmult_1_l. unfold Qlt, inject_Z. cbn [Qnum Qden]. lia.
Qed.
Lemma c565_float_ok r g b : (0 <= r <= 1)%Q -> (0 <= g <= 1)%Q -> (0 <= b <= 1)%Q ->
  c565_float r g b = Ok (B565 (Z.min 31 (Qfloor (b * 32))) (Z.min 63 (Qfloor (g * 64))) (Z.min 31 (Qfloor (r * 32)))).
Proof.
  intros [r0 r1] [g0 g1] [b0 b1]. unfold c565_float. pose proof (clamp_frac b 32 ltac:(lia) b0 b1) as EB. pose proof (clamp_frac g 64 ltac:(lia) g0 g1) as EG.
  pose proof (clamp_frac r 32 ltac:(lia) r0 r1) as ER. change (inject_Z 32) with 32%Q in *. change (inject_Z 64) with 64%Q in *. change (32 - 1) with 31 in *. change (64 - 1) with 63 in *.
  rewrite EB, EG, ER. cbn [bind]. unfold mk565.
  assert (HF : forall x, (0 <= x)%Q -> 0 <= Qfloor x) by (intros x Hx; change 0 with (Qfloor 0); apply Qfloor_resp_le; exact Hx).
  assert (0 <= Qfloor (b * 32) /\ 0 <= Qfloor (g * 64) /\ 0 <= Qfloor (r * 32)) as (K1 & K2 & K3) by (splits; apply HF; lra).
  rewrite !word_small by lia. reflexivity.
Qed.
Lemma c565_float_ub r g b : (r <= - (1 # 32) \/ g <= - (1 # 64) \/ b <= - (1 # 32) \/ 2048 <= r \/ 1024 <= g \/ 2048 <= b)%Q ->
  c565_float r g b = UB BadCast.
Proof.
  intros H. unfold c565_float.
  assert (HB : forall x k, 0 < k < 2 ^ 16 -> clamp_conv x k = UB BadCast \/ exists n, clamp_conv x k = Ok n).
  { intros x k Hk. unfold clamp_conv. destruct (_ && _); [right; eauto|left; reflexivity]. }
  destruct (HB (b * 32)%Q 31 ltac:(lia)) as [E|[nb EB]]; [rewrite E; reflexivity|].
  destruct (HB (g * 64)%Q 63 ltac:(lia)) as [E|[ng EG]]; [rewrite EB; cbn [bind]; rewrite E; reflexivity|].
  destruct (HB (r * 32)%Q 31 ltac:(lia)) as [E|[nr ER]]; [rewrite EB, EG; cbn [bind]; rewrite E; reflexivity|].
  exfalso.
  assert (HU : forall x k n, 0 < k < 2 ^ 16 -> clamp_conv x k = Ok n -> ~ ((x <= - (1))%Q \/ (inject_Z (2 ^ 16) <= x)%Q)).
  { intros x k n Hk E N. rewrite (proj2 (clamp_conv_spec x k ltac:(lia)) N) in E. discriminate. }
  pose proof (HU _ 31 _ ltac:(lia) EB) as N1. pose proof (HU _ 63 _ ltac:(lia) EG) as N2. pose proof (HU _ 31 _ ltac:(lia) ER) as N3.
  change (inject_Z (2 ^ 16)) with 65536%Q in *.
  destruct H as [H|[H|[H|[H|[H|H]]]]].
  - apply N3. left. lra.
  - apply N2. left. lra.
  - apply N1. left. lra.
  - apply N3. right. lra.
  - apply N2. right. lra.
  - apply N1. right. lra.
Qed.
(** float blend at phases 0 and 1: all pairs of channel values *)
Definition bytes : list Z := map Z.of_nat (seq 0 256).
Definition outcome_is (o : outcome Z) (n : Z) : bool := match o with Ok m => m =? n | _ => false end.
Lemma in_bytes x : byte x -> In x bytes.
Proof. intros H. unfold byte in H. unfold bytes. apply in_map_iff. exists (Z.to_nat x). split; [lia|apply in_seq; lia]. Qed.
Definition ends_ok (x : Z) : bool :=
  let v := f32_of_int x in match fmul v f32_zero with S754_zero false => true | _ => false end && outcome_is (f32_to_uint 8 (fadd (fmul v f32_one) f32_zero)) x && outcome_is (f32_to_uint 8 (fadd f32_zero (fmul v f32_one))) x.
Lemma ends_all : forallb ends_ok bytes = true.
Proof. vm_compute. reflexivity. Qed.
Lemma blendf_ch_ends x y : byte x -> byte y -> blendf_ch x y f32_zero = Ok x /\ blendf_ch x y f32_one = Ok y.
Proof.
  intros Hx Hy. pose proof (proj1 (forallb_forall _ _) ends_all x (in_bytes x Hx)) as A. pose proof (proj1 (forallb_forall _ _) ends_all y (in_bytes y Hy)) as B.
  unfold ends_ok in A, B. cbv zeta in A, B. apply andb_prop in A as [A A4]. apply andb_prop in A as [A1 A3]. apply andb_prop in B as [B B4]. apply andb_prop in B as [B1 B3].
  unfold blendf_ch. replace (fsub f32_one f32_zero) with f32_one by (vm_compute; reflexivity). replace (fsub f32_one f32_one) with f32_zero by (vm_compute; reflexivity).
  destruct (fmul (f32_of_int x) f32_zero) as [[]| | |]; try discriminate A1. destruct (fmul (f32_of_int y) f32_zero) as [[]| | |]; try discriminate B1. change (S754_zero false) with f32_zero. unfold outcome_is in *.
  destruct (f32_to_uint 8 (fadd (fmul (f32_of_int x) f32_one) f32_zero)) eqn:E1; try discriminate. destruct (f32_to_uint 8 (fadd f32_zero (fmul (f32_of_int y) f32_one))) eqn:E2; try discriminate. apply Z.eqb_eq in A3, B4. subst. auto.
Qed.
Lemma blendf_ends c d : is_color c -> is_color d -> blendf c d f32_zero = Ok c /\ blendf c d f32_one = Ok d.
Proof.
  intros (H1 & H2 & H3) (H4 & H5 & H6). unfold blendf.
  destruct (blendf_ch_ends _ _ H1 H4) as [-> ->]. destruct (blendf_ch_ends _ _ H2 H5) as [-> ->]. destruct (blendf_ch_ends _ _ H3 H6) as [-> ->]. cbn [bind].
  unfold mk. rewrite !word_small by assumption. destruct c, d. auto.
Qed.
Lemma blend32_short c d p : is_color c -> is_color d -> 0 <= p < 2 ^ 32 -> red c < red d -> red (blend32 c d p) < red d.
Proof.
  intros Hc Hd Hp H. rewrite blend32_spec by assumption. cbn [each2 red]. assert (Hk : 0 <= p / 2 ^ 24 < 256) by dm. generalize dependent (p / 2 ^ 24). intros k Hk.
  apply Z.div_lt_upper_bound; [lia|]. nia.
Qed.
