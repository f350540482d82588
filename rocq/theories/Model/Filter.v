(* util/filter.hh. *)
From Coq Require Import QArith Qabs Floats.SpecFloat.
From Verif.Common Require Import Base F32.
From Verif.Spec Require Import FilterSpec.
Open Scope Z_scope.

(* MovingAverage, lines 4-34; T is an unsigned type that holds InputValueBits bits, [shift] is
   Log2<Size>::val (C46) *)
Record movavg := MA { ma_sum : Z; ma_buff : list Z; ma_idx : Z }.
Definition ma0 (Size : Z) : movavg := MA 0 (zrepeat 0 Size) 0.
Definition ma_val (shift : Z) (s : movavg) : Z := Z.shiftr (ma_sum s) shift.
Definition ma_add (Size shift : Z) (s : movavg) (newval : Z) : outcome (movavg * Z) :=
  let* old := rd (ma_buff s) (ma_idx s) in
  let sum := word 32 (ma_sum s - old) in
  let* buff := wr (ma_buff s) (ma_idx s) newval in
  let sum := word 32 (sum + newval) in
  let s' := MA sum buff (Z.land (ma_idx s + 1) (Size - 1)) in
  Ok (s', ma_val shift s').

(* Oversampler and SmoothOversampler, lines 36-93, which differ in how the sum of a block is
   turned into a value *)
Record oversampler (R : Type) := OS { os_buff : Z; os_val : R; os_idx : Z }.
Arguments OS {R}. Arguments os_buff {R}. Arguments os_val {R}. Arguments os_idx {R}.
Definition os_add {R} (value : Z -> R) (Size : Z) (s : oversampler R) (newval : Z) : oversampler R * R :=
  let buff := word 32 (os_buff s + newval) in
  let idx := word 32 (os_idx s + 1) in
  let s' := if idx >=? Size then OS 0 (value buff) 0 else OS buff (os_val s) idx in
  (s', os_val s').
(* lines 46-54; T is an unsigned type that holds the mean *)
Definition over_add (Size shift : Z) : oversampler Z -> Z -> oversampler Z * Z := os_add (fun buff => Z.shiftr buff shift) Size.
Definition over0 : oversampler Z := OS 0 0 0.
(* lines 76-84 *)
Definition smooth_add (Size : Z) : oversampler f32 -> Z -> oversampler f32 * f32 :=
  os_add (fun buff => fdiv (f32_of_int buff) (f32_of_int Size)) Size.
Definition smooth0 : oversampler f32 := OS 0 f32_zero 0.

(* ResizingOversampler, lines 96-144 *)
Record resizing := RO { ro_buff : f32; ro_val : f32; ro_idx : Z; ro_size : Z }.
Definition ro0 (size : Z) : resizing := RO f32_zero f32_zero 0 size.
Definition ro_step (s : resizing) (o : roop) : resizing :=
  match o with
  | OSize new_size =>
      if ro_idx s >=? new_size then RO f32_zero (fdiv (ro_buff s) (f32_of_int (ro_idx s))) 0 new_size
      else RO (ro_buff s) (ro_val s) (ro_idx s) new_size
  | OAdd newval =>
      let buff := fadd (ro_buff s) newval in
      let idx := word 32 (ro_idx s + 1) in
      if idx >=? ro_size s then RO f32_zero (fdiv buff (f32_of_int (ro_size s))) 0 (ro_size s)
      else RO buff (ro_val s) idx (ro_size s)
  end.

(* NonLinearOnePoleLp::add_val, lines 157-160, with the transfer functions of lines 167-181, in
   exact arithmetic; std::clamp *)
Definition one_pole (transfer : Q -> Q) (state input : Q) : Q := (state + transfer (input - state))%Q.
Definition Qclamp (x lo hi : Q) : Q := if negb (Qle_bool lo x) then lo else if negb (Qle_bool x hi) then hi else x.
Definition transfer_quadratic (Divisor x : Q) : Q := (Qabs x * x * / Divisor)%Q.
Definition transfer_hysteresis (flat x : Q) : Q := (x - Qclamp x (- flat) flat)%Q.

(* CascadingFilter, lines 208-221: two filters as (add_val, val) pairs *)
Section Cascade.
Context {F1 F2 : Type} (add1 : F1 -> Z -> F1) (val1 : F1 -> Z) (add2 : F2 -> Z -> F2 * Z).
Definition cascade_add (s : F1 * F2) (newval : Z) : F1 * F2 := (add1 (fst s) newval, snd s).
Definition cascade_val (s : F1 * F2) : (F1 * F2) * Z :=
  let (f2, r) := add2 (snd s) (val1 (fst s)) in ((fst s, f2), r).
End Cascade.
