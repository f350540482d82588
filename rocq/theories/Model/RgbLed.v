(* util/rgbled.hh: MixedRgbLed<.., UpdateRateHz>.  The three drivers are seen as the colour last
   given to them. *)
From Coq Require Import Floats.SpecFloat.
From Verif.Common Require Import Base F32.
From Verif.Spec Require Import LedSpec.
From Verif.Model Require Import Color Oscs.

(* lines 97-103, and the defaults of oscs.hh lines 33-35, 84 and 210-211 *)
Record led := Led { l_fader : osc; l_flasher : osc; l_base : color; l_breathe : color; l_flash : color; l_fade : bool; l_cal : color }.
Definition led0 : led := Led (Osc 0 0) (Osc max_ max_) (RGB 0 0 0) (RGB 255 0 0) (RGB 255 255 255) false (RGB 128 128 128).

(* flash_once_ms, lines 31-37: set_frequency(uint32_t) truncates the quotient *)
Definition flash_freq (ms : f32) : outcome Z := f32_to_uint 32 (fdiv (f32_of_int 1000) ms).
Definition flash (rate : Z) (fade : bool) (s : led) (c : color) (ms : f32) : outcome led :=
  let* freq := flash_freq ms in
  Ok (Led (l_fader s) (Osc max_ (word 32 (freq * freq_units rate))) (l_base s) (l_breathe s) c fade (l_cal s)).
(* update_animation, lines 76-91: the new state and the colour set *)
Definition shown (s : led) : color :=
  let c := l_base s in
  let c :=
    if negb (phase (l_flasher s) =? 0) then
      if l_fade s then blend32 c (l_flash s) (phase (l_flasher s)) else l_flash s
    else if negb (triangle_val (phase (l_fader s)) =? 0) then
      blend32 c (l_breathe s) (triangle_val (phase (l_fader s)))
    else c in
  adjust c (l_cal s).
Definition led_update (s : led) : led :=
  Led (osc_update (l_fader s)) (down_update (l_flasher s)) (l_base s) (l_breathe s) (l_flash s) (l_fade s) (l_cal s).

(* one call; only update_animation sets a colour.  set_frequency(float), oscs.hh lines 73-75;
   reset_breathe uses the int overload, lines 69-71 *)
Definition led_step (rate : Z) (s : led) (o : ledop) : outcome (led * option color) :=
  match o with
  | LBase c => Ok (Led (l_fader s) (l_flasher s) c (l_breathe s) (l_flash s) (l_fade s) (l_cal s), None)
  | LBlend c => Ok (Led (l_fader s) (l_flasher s) (blend_half (l_base s) c) (l_breathe s) (l_flash s) (l_fade s) (l_cal s), None)
  | LAdd c => Ok (Led (l_fader s) (l_flasher s) (plus (l_base s) c) (l_breathe s) (l_flash s) (l_fade s) (l_cal s), None)
  | LFlash c ms => let* s' := flash rate false s c ms in Ok (s', None)
  | LFade c ms => let* s' := flash rate true s c ms in Ok (s', None)
  | LBreathe c freq =>
      let* inc := f32_to_uint 32 (fmul freq (f32_of_int (freq_units rate))) in
      Ok (Led (Osc (phase (l_fader s)) inc) (l_flasher s) (l_base s) c (l_flash s) (l_fade s) (l_cal s), None)
  | LNoBreathe => Ok (Led (Osc 0 0) (l_flasher s) (l_base s) (l_breathe s) (l_flash s) (l_fade s) (l_cal s), None)
  | LCal adj => Ok (Led (l_fader s) (l_flasher s) (l_base s) (l_breathe s) (l_flash s) (l_fade s) adj, None)
  | LUpdate => let s' := led_update s in Ok (s', Some (shown s'))
  end.

(* set_color(col, uint8_t brightness), lines 61-65: int products, shifted; what the drivers are given *)
Definition set_color_u8 (c : color) (b : Z) : color :=
  RGB (Z.shiftr (red c * b) 8) (Z.shiftr (green c * b) 8) (Z.shiftr (blue c * b) 8).
(* set_color(col, float brightness), lines 66-70: float products converted to the uint8_t
   parameter of the driver *)
Definition set_color_f (c : color) (b : f32) : outcome color :=
  let ch x := f32_to_uint 8 (fmul (f32_of_int x) b) in
  let* r := ch (red c) in
  let* g := ch (green c) in
  let* bl := ch (blue c) in
  Ok (RGB r g bl).
