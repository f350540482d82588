(* C62-C65, C98-C101: colours. *)
From Coq Require Import QArith Qround Floats.SpecFloat.
From Verif.Common Require Import Base F32.
From Verif.Spec Require Import ColorSpec.
From Verif.Model Require Import Color.
From Verif.Proofs Require Color.
Open Scope Z_scope.

(** C62. *)
Theorem C62_565_round_trip :
  forall x, uint16 x -> rgb565 (color_of_565 x) = x.
Proof. exact Color.round565. Qed.
Print Assumptions C62_565_round_trip.
Theorem C62_565_layout :
  forall x, uint16 x -> color_of_565 x = RGB (red5 x * 8) (green6 x * 4) (blue5 x * 8).
Proof. exact Color.of565_spec. Qed.
Print Assumptions C62_565_layout.
Theorem C62_keeps_top_bits :
  forall c, is_color c -> color_of_565 (rgb565 c) = RGB (red c / 8 * 8) (green c / 4 * 4) (blue c / 8 * 8).
Proof. exact Color.keep_top_bits. Qed.
Print Assumptions C62_keeps_top_bits.
(** Color and RGB565 agree, and so do the constructors of RGB565; [hi] is the unused top byte. *)
Theorem C62_classes_agree :
  forall c, is_color c ->
    let x := c565_rgb (red c) (green c) (blue c) in
    raw565 x = rgb565 c /\ RGB (red565 x) (green565 x) (blue565 x) = color_of_565 (rgb565 c).
Proof. exact Color.classes_agree. Qed.
Print Assumptions C62_classes_agree.
Theorem C62_from_888 :
  forall c hi, is_color c -> byte hi ->
    c565_888 (hi * 2 ^ 24 + red c * 2 ^ 16 + green c * 2 ^ 8 + blue c) = c565_rgb (red c) (green c) (blue c).
Proof. exact Color.from888. Qed.
Print Assumptions C62_from_888.
Theorem C62_assign_raw :
  forall raw, uint16 raw ->
    raw565 (c565_assign raw) = raw /\ c565_assign raw = B565 (blue5 raw) (green6 raw) (red5 raw).
Proof. exact Color.assign565. Qed.
Print Assumptions C62_assign_raw.
Example C62_hypotheses_met :
  uint16 0xABCD /\ color_of_565 0xABCD = RGB 0xA8 0x78 0x68 /\ rgb565 (RGB 0xAF 0x7B 0x6D) = 0xABCD /\
  raw565 (c565_888 0x99AF7B6D) = 0xABCD.
Proof. repeat split; first [reflexivity | discriminate]. Qed.

(** C63. *)
Theorem C63_blend_is_floored_mean :
  forall c d p, is_color c -> is_color d -> byte p ->
    blend8 c d p = each2 (fun x y => (y * p + x * (255 - p)) / 255) c d.
Proof. exact Color.blend8_spec. Qed.
Print Assumptions C63_blend_is_floored_mean.
Theorem C63_blend_ends :
  forall c d, is_color c -> is_color d -> blend8 c d 0 = c /\ blend8 c d 255 = d.
Proof. exact Color.blend8_ends. Qed.
Print Assumptions C63_blend_ends.
Theorem C63_blend_between :
  forall c d p, is_color c -> is_color d -> byte p ->
    within (red c) (red d) (red (blend8 c d p)) /\ within (green c) (green d) (green (blend8 c d p)) /\
    within (blue c) (blue d) (blue (blend8 c d p)).
Proof. exact Color.blend8_within. Qed.
Print Assumptions C63_blend_between.
Theorem C63_combine_plus_adjust :
  forall c d, is_color c -> is_color d ->
    combine c d = each2 (fun x y => Z.min (x + y) 255) c d /\
    plus c d = each2 (fun x y => (x + y) mod 256) c d /\
    adjust c d = each2 (fun x k => Z.min (x * k / 128) 255) c d /\
    adjust c (RGB 128 128 128) = c.
Proof.
  intros c d Hc Hd.
  exact (conj (Color.combine_spec c d Hc Hd) (conj (Color.plus_spec c d) (conj (Color.adjust_spec c d Hc Hd) (Color.adjust_128 c Hc)))).
Qed.
Print Assumptions C63_combine_plus_adjust.
Example C63_hypotheses_met :
  let c := RGB 10 200 255 in let d := RGB 20 100 1 in
  blend8 c d 128 = RGB 15 149 127 /\ combine c d = RGB 30 255 255 /\ plus c d = RGB 30 44 0 /\
  adjust c (RGB 255 64 128) = RGB 19 100 255 /\ is_color c.
Proof. repeat split; first [reflexivity | discriminate | lia]. Qed.

(** C64. *)
Theorem C64_packed_blend_per_channel :
  forall c1 c2 alpha, uint16 c1 -> uint16 c2 -> byte alpha ->
    let a := (alpha + 4) / 8 in let c := blend565 c1 c2 alpha in
    uint16 c /\
    red5 c = red5 c1 + (red5 c2 - red5 c1) * a / 32 /\
    green6 c = green6 c1 + (green6 c2 - green6 c1) * a / 32 /\
    blue5 c = blue5 c1 + (blue5 c2 - blue5 c1) * a / 32.
Proof. exact Color.blend565_channels. Qed.
Print Assumptions C64_packed_blend_per_channel.
Theorem C64_packed_blend_ends :
  forall c1 c2 alpha, uint16 c1 -> uint16 c2 -> byte alpha ->
    (alpha < 4 -> blend565 c1 c2 alpha = c1) /\ (252 <= alpha -> blend565 c1 c2 alpha = c2).
Proof. exact Color.blend565_ends. Qed.
Print Assumptions C64_packed_blend_ends.
Example C64_hypotheses_met :
  blend565 0xF81F 0x07E0 100 = 0x9332 /\ red5 0x9332 = 31 + (0 - 31) * 13 / 32 /\ green6 0x9332 = 0 + 63 * 13 / 32 /\
  blend565 0xF81F 0x07E0 3 = 0xF81F /\ blend565 0xF81F 0x07E0 252 = 0x07E0.
Proof. repeat split; first [reflexivity | discriminate]. Qed.

(** C65. *)
Theorem C65_hsv_extremes :
  forall h s v, byte h -> byte s -> byte v ->
    let c := hsv_to_rgb h s v in
    is_color c /\ Z.max (red c) (Z.max (green c) (blue c)) = v /\
    Z.min (red c) (Z.min (green c) (blue c)) = if s =? 0 then v else v * (255 - s) / 256.
Proof. exact Color.hsv_extremes. Qed.
Print Assumptions C65_hsv_extremes.
Theorem C65_hsv_grey_and_primaries :
  (forall h v, byte h -> byte v -> hsv_to_rgb h 0 v = RGB v v v) /\
  (forall v, byte v -> hsv_to_rgb 0 255 v = RGB v 0 0 /\ hsv_to_rgb 86 255 v = RGB 0 v 0 /\ hsv_to_rgb 172 255 v = RGB 0 0 v).
Proof. exact (conj Color.hsv_grey Color.hsv_primaries). Qed.
Print Assumptions C65_hsv_grey_and_primaries.
Example C65_hypotheses_met :
  hsv_to_rgb 100 128 200 = RGB 99 200 132 /\ 200 * (255 - 128) / 256 = 99 /\ byte 100 /\ byte 128 /\ byte 200.
Proof. repeat split; first [reflexivity | discriminate | lia]. Qed.

(** C98.  In exact arithmetic, which scaling by a power of two is. *)
Theorem C98_float_components :
  forall r g b : Q, (0 <= r <= 1)%Q -> (0 <= g <= 1)%Q -> (0 <= b <= 1)%Q ->
    c565_float r g b =
    Ok (B565 (Z.min 31 (Qfloor (b * 32))) (Z.min 63 (Qfloor (g * 64))) (Z.min 31 (Qfloor (r * 32)))).
Proof. exact Color.c565_float_ok. Qed.
Print Assumptions C98_float_components.
Theorem C98_out_of_range_not_clamped_refuted :
  forall r g b : Q,
    (r <= - (1 # 32) \/ g <= - (1 # 64) \/ b <= - (1 # 32) \/ 2048 <= r \/ 1024 <= g \/ 2048 <= b)%Q ->
    c565_float r g b = UB BadCast.
Proof. exact Color.c565_float_ub. Qed.
Print Assumptions C98_out_of_range_not_clamped_refuted.
Example C98_hypotheses_met :
  c565_float 1 (1 # 2) (3 # 100) = Ok (B565 0 32 31) /\ c565_float 1 (1 # 2) (- (1 # 10)) = UB BadCast /\
  ((- (1 # 10)) <= - (1 # 32))%Q.
Proof. repeat split; first [reflexivity | discriminate | lia]. Qed.

(** C99. *)
Theorem C99_integer_blends_keep_equal_colours :
  forall c, is_color c ->
    (forall p, byte p -> blend8 c c p = c) /\ (forall p, 0 <= p < 2 ^ 32 -> blend32 c c p = c) /\
    blend_half c c = each2 (fun x y => x / 2 + y / 2) c c.
Proof.
  intros c H. exact (conj (fun p => Color.blend8_self c p H) (conj (fun p => Color.blend32_self c p H) (Color.blend_half_spec c c H H))).
Qed.
Print Assumptions C99_integer_blends_keep_equal_colours.
(** A phase strictly between 0 and 1 darkens a colour blended with itself. *)
Theorem C99_float_blend_darkens_refuted :
  exists c p, is_color c /\ SFltb f32_zero p = true /\ SFltb p f32_one = true /\
    blendf c c p = Ok (RGB 44 132 3) /\ c = RGB 45 132 3.
Proof. exact Color.blendf_self_darker. Qed.
Print Assumptions C99_float_blend_darkens_refuted.
Theorem C99_float_blend_ends :
  forall c d, is_color c -> is_color d -> blendf c d f32_zero = Ok c /\ blendf c d f32_one = Ok d.
Proof. exact Color.blendf_ends. Qed.
Print Assumptions C99_float_blend_ends.
Example C99_hypotheses_met :
  blend8 (RGB 45 132 3) (RGB 45 132 3) 77 = RGB 45 132 3 /\ blend_half (RGB 45 132 3) (RGB 45 132 3) = RGB 44 132 2 /\
  blend32 (RGB 45 132 3) (RGB 45 132 3) 1234567890 = RGB 45 132 3.
Proof. repeat split; first [reflexivity | discriminate]. Qed.

(** C100. *)
Theorem C100_blend32_is_floored_mean :
  forall c d p, is_color c -> is_color d -> 0 <= p < 2 ^ 32 ->
    blend32 c d p = each2 (fun x y => (x * (256 - p / 2 ^ 24) + y * (p / 2 ^ 24)) / 256) c d.
Proof. exact Color.blend32_spec. Qed.
Print Assumptions C100_blend32_is_floored_mean.
Theorem C100_blend32_never_arrives_refuted :
  forall c d p, is_color c -> is_color d -> 0 <= p < 2 ^ 32 -> red c < red d -> red (blend32 c d p) < red d.
Proof. exact Color.blend32_short. Qed.
Print Assumptions C100_blend32_never_arrives_refuted.
Example C100_hypotheses_met :
  blend32 (RGB 0 10 255) (RGB 255 20 0) (2 ^ 32 - 1) = RGB 254 19 0 /\ blend32 (RGB 0 10 255) (RGB 255 20 0) 0 = RGB 0 10 255.
Proof. split; reflexivity. Qed.

(** C101. *)
Theorem C101_neighbouring_hues_are_near :
  (forall h s v, byte h -> byte (h + 1) -> byte s -> byte v ->
     all_channels2 (near 6) (hsv_to_rgb h s v) (hsv_to_rgb (h + 1) s v)) /\
  (forall s v, byte s -> byte v -> all_channels2 (near 16) (hsv_to_rgb 255 s v) (hsv_to_rgb 0 s v)).
Proof. exact (conj Color.hue_step Color.hue_wrap). Qed.
Print Assumptions C101_neighbouring_hues_are_near.
Example C101_hypotheses_met :
  hsv_to_rgb 42 255 255 = RGB 255 252 0 /\ hsv_to_rgb 43 255 255 = RGB 254 255 0 /\
  hsv_to_rgb 255 255 255 = RGB 255 0 15 /\ hsv_to_rgb 0 255 255 = RGB 255 0 0.
Proof. repeat split; first [reflexivity | discriminate]. Qed.
