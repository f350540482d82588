(* util/colors.hh, util/colors_rgb565.hh, util/hsv.hh.  uint8_t operands promote to int. *)
From Coq Require Import QArith Floats.SpecFloat.
From Verif.Common Require Import Base F32.
From Verif.Spec Require Import ColorSpec.
From Verif.Model Require Import MathInt.
Open Scope Z_scope.

(* the constructor Color(r, g, b), colors.hh lines 32-36: arguments convert to uint8_t *)
Definition mk (r g b : Z) : color := RGB (word 8 r) (word 8 g) (word 8 b).
(* Color(uint16_t), lines 38-42 *)
Definition color_of_565 (x : Z) : color :=
  mk (Z.shiftr (Z.land x 0xf800) 8) (Z.shiftr (Z.land x 0x07e0) 3) (Z.shiftl (Z.land x 0x001f) 3).
(* Rgb565, lines 114-116 *)
Definition rgb565 (c : color) : Z :=
  word 16 (Z.lor (Z.lor (Z.shiftl (Z.land (red c) 0xf8) 8) (Z.shiftl (Z.land (green c) 0xfc) 3)) (Z.shiftr (blue c) 3)).
(* operator+, lines 54-56, with builtin_add_u8 the plain sum, line 21 *)
Definition plus (c d : color) : color := mk (red c + red d) (green c + green d) (blue c + blue d).
(* blend(that), lines 67-69 *)
Definition blend_half (c d : color) : color :=
  mk (Z.shiftr (red c) 1 + Z.shiftr (red d) 1) (Z.shiftr (green c) 1 + Z.shiftr (green d) 1)
     (Z.shiftr (blue c) 1 + Z.shiftr (blue d) 1).
(* blend(that, uint8_t), lines 71-79: the sums are stored in uint16_t *)
Definition blend8_ch (x y phase : Z) : Z :=
  let out := word 16 (y * phase + x * (255 - phase)) in
  let out := word 16 (out + 1 + Z.shiftr out 8) in
  Z.shiftr out 8.
Definition blend8 (c d : color) (phase : Z) : color :=
  mk (blend8_ch (red c) (red d) phase) (blend8_ch (green c) (green d) phase) (blend8_ch (blue c) (blue d) phase).
(* blend(that, uint32_t), lines 82-86: unsigned arithmetic *)
Definition blend32_ch (x y phase : Z) : Z :=
  Z.shiftr (word 32 (word 32 (x * word 32 (256 - Z.shiftr phase 24)) + word 32 (y * Z.shiftr phase 24))) 8.
Definition blend32 (c d : color) (phase : Z) : color :=
  mk (blend32_ch (red c) (red d) phase) (blend32_ch (green c) (green d) phase) (blend32_ch (blue c) (blue d) phase).
(* blend(that, float), lines 89-93: single precision, then converted to uint8_t *)
Definition blendf_ch (x y : Z) (phase : f32) : outcome Z :=
  f32_to_uint 8 (fadd (fmul (f32_of_int x) (fsub f32_one phase)) (fmul (f32_of_int y) phase)).
Definition blendf (c d : color) (phase : f32) : outcome color :=
  let* r := blendf_ch (red c) (red d) phase in
  let* g := blendf_ch (green c) (green d) phase in
  let* b := blendf_ch (blue c) (blue d) phase in
  Ok (mk r g b).
(* combine, lines 99-104; __USAT of MathInt takes int32_t *)
Definition combine (c d : color) : color :=
  mk (usat (sword 32 (red c + red d)) 8) (usat (sword 32 (green c + green d)) 8) (usat (sword 32 (blue c + blue d)) 8).
(* adjust, lines 107-112; an Adjustment has three uint8_t *)
Definition adjust (c adj : color) : color :=
  mk (usat (Z.shiftr (red c * red adj) 7) 8) (usat (Z.shiftr (green c * green adj) 7) 8)
     (usat (Z.shiftr (blue c * blue adj) 7) 8).
(* blend(uint16_t, uint16_t, uint8_t), lines 130-136 *)
Definition spread (x : Z) : Z := Z.land (word 32 (Z.lor x (Z.shiftl x 16))) 0x07e0f81f.
Definition blend565 (c1 c2 alpha : Z) : Z :=
  let alpha := word 8 (Z.shiftr (alpha + 4) 3) in
  let bg := spread c1 in
  let fg := spread c2 in
  let result := Z.land (word 32 (Z.shiftr (word 32 (word 32 (fg - bg) * alpha)) 5 + bg)) 0x07e0f81f in
  word 16 (Z.lor (Z.shiftr result 16) result).
(* operator*(float), lines 58-60 *)
Definition scale (c : color) (phase : f32) : outcome color := blendf (RGB 0 0 0) c phase.
(* slow_blend, lines 119-124; blend(uint16_t, uint16_t, float), lines 126-128: the product is converted to uint8_t *)
Definition alpha8 (f_alpha : f32) : outcome Z := f32_to_uint 8 (fmul f_alpha (f32_of_int 255)).
Definition slow_blend (c1 c2 : Z) (f_alpha : f32) : outcome Z :=
  let* alpha := alpha8 f_alpha in
  Ok (rgb565 (blend8 (color_of_565 c1) (color_of_565 c2) alpha)).
Definition blend565f (c1 c2 : Z) (f_alpha : f32) : outcome Z :=
  let* alpha := alpha8 f_alpha in
  Ok (blend565 c1 c2 alpha).

(* RGB565, colors_rgb565.hh lines 6-10: three bit-fields *)
Record bits565 := B565 { f_b : Z; f_g : Z; f_r : Z }.
Definition mk565 (b g r : Z) : bits565 := B565 (word 5 b) (word 6 g) (word 5 r).
(* the constructors, lines 18-22 and 30-34 *)
Definition c565_rgb (red green blue : Z) : bits565 := mk565 (Z.shiftr blue 3) (Z.shiftr green 2) (Z.shiftr red 3).
Definition c565_888 (rgb888 : Z) : bits565 :=
  mk565 (Z.shiftr (Z.land rgb888 0x0000f8) 3) (Z.shiftr (Z.land rgb888 0x00fc00) 10) (Z.shiftr (Z.land rgb888 0xf80000) 19).
(* operator=(uint16_t), lines 37-44: a byte copy; bit-fields are allocated from the low end *)
Definition c565_assign (raw : Z) : bits565 := B565 (Z.land raw 31) (Z.land (Z.shiftr raw 5) 63) (Z.land (Z.shiftr raw 11) 31).
(* raw, red, green, blue; lines 46-71 *)
Definition raw565 (c : bits565) : Z := word 16 (Z.lor (Z.lor (Z.shiftl (f_r c) 11) (Z.shiftl (f_g c) 5)) (f_b c)).
Definition red565 (c : bits565) : Z := word 8 (Z.shiftl (f_r c) 3).
Definition green565 (c : bits565) : Z := word 8 (Z.shiftl (f_g c) 2).
Definition blue565 (c : bits565) : Z := word 8 (Z.shiftl (f_b c) 3).
(* the float constructor, lines 24-28, on numbers: scaling by a power of two is exact; the
   product is converted to uint16_t before it is clamped *)
Definition clamp_conv (x : Q) (top : Z) : outcome Z :=
  let n := Z.quot (Qnum x) (Zpos (Qden x)) in
  if (0 <=? n) && (n <? 2 ^ 16) then Ok (if n <? 0 then 0 else if top <? n then top else n) else UB BadCast.
Definition c565_float (red green blue : Q) : outcome bits565 :=
  let* b := clamp_conv (blue * 32)%Q 31 in
  let* g := clamp_conv (green * 64)%Q 63 in
  let* r := clamp_conv (red * 32)%Q 31 in
  Ok (mk565 b g r).

(* HSVColor::operator Color, hsv.hh lines 12-38; unsigned arithmetic *)
Definition hsv_to_rgb (h s v : Z) : color :=
  if s =? 0 then mk v v v
  else
    let region := h / 43 in
    let remainder := word 32 (word 32 (h - word 32 (region * 43)) * 6) in
    let p := word 8 (Z.shiftr (word 32 (v * word 32 (255 - s))) 8) in
    let q := word 8 (Z.shiftr (word 32 (v * word 32 (255 - Z.shiftr (word 32 (s * remainder)) 8))) 8) in
    let t := word 8 (Z.shiftr (word 32 (v * word 32 (255 - Z.shiftr (word 32 (s * word 32 (255 - remainder))) 8))) 8) in
    if region =? 0 then mk v t p
    else if region =? 1 then mk q v p
    else if region =? 2 then mk p v t
    else if region =? 3 then mk p q v
    else if region =? 4 then mk t p v
    else mk v p q.
