(* The integer functions of util/math.hh and util/cortex_math.hh.  int and int32_t have 32 bits,
   unsigned and uint32_t too; [schk 32] is the overflow check of signed arithmetic. *)
From Verif.Common Require Import Base.

(* map_value with all five arguments int, math.hh lines 19-23; [W] is the width arithmetic is
   done in *)
Definition map_value (W x in_min in_max out_min out_max : Z) : outcome Z :=
  let* a := schk W (x - in_min) in
  let* b := schk W (out_max - out_min) in
  let* m := schk W (a * b) in
  let* d := schk W (in_max - in_min) in
  if d =? 0 then UB DivByZero
  else let* q := schk W (Z.quot m d) in schk W (q + out_min).
(* randomNumber<int>, lines 69-72: [r] is what std::rand() returned, long has [L] bits; the
   difference out_max - out_min is computed in int, the rest in long; the result is cut to int *)
Definition random_number (L RAND_MAX r minNum maxNum : Z) : outcome Z :=
  let* b := schk 32 (maxNum - minNum) in
  let* m := schk L (r * b) in
  if RAND_MAX =? 0 then UB DivByZero
  else let* s := schk L (Z.quot m RAND_MAX + minNum) in Ok (sword 32 s).

(* constrain, max, min; lines 25-46 *)
Definition constrain (val min max : Z) : Z := if val <? min then min else if val >? max then max else val.
Definition max2 (val1 val2 : Z) : Z := if val1 >? val2 then val1 else val2.
Definition min2 (val1 val2 : Z) : Z := if val1 <? val2 then val1 else val2.
(* between<int>, lines 48-51 *)
Definition between (x low high : Z) : outcome (option Z) :=
  if (x >=? low) && (x <=? high) then let* d := schk 32 (x - low) in Ok (Some d) else Ok None.

(* interpolate<PhaseMax>, lines 64-67: in2*phase is signed, the rest unsigned *)
Definition interpolate (PhaseMax in1 in2 phase : Z) : outcome Z :=
  let* m := schk 32 (in2 * phase) in
  let s := word 32 (m + word 32 (in1 * word 32 (PhaseMax - phase))) in
  if PhaseMax =? 0 then UB DivByZero else Ok (sword 32 (s / PhaseMax)).

(* Log2<N>, lines 74-82; Log2<0> does not compile *)
Fixpoint log2_t (fuel : nat) (N : Z) : outcome Z :=
  match fuel with
  | O => OutOfFuel
  | S f => if N =? 1 then Ok 0 else let* v := log2_t f (N / 2) in Ok (v + 1)
  end.
(* is_power_of_2, lines 84-86 *)
Definition is_power_of_2 (v : Z) : bool := negb (v =? 0) && (Z.land v (word 32 (v - 1)) =? 0).
(* log2_floor, lines 88-95: [i] is the loop variable before the decrement *)
Fixpoint log2_loop (i : nat) (x : Z) : Z :=
  match i with
  | O => 0
  | S i' => if negb (Z.land x (2 ^ Z.of_nat i') =? 0) then Z.of_nat i' else log2_loop i' x
  end.
Definition log2_floor (x : Z) : Z := log2_loop 32 x.

(* next_power_of_2<T>, lines 98-123; T is unsigned with [W] bits, is_power_of_2 takes unsigned *)
Definition smear (s value : Z) : Z := Z.lor value (Z.shiftr value s).
Definition next_power_of_2 (W value : Z) : Z :=
  if (value =? 0) || (value =? 1) then 1
  else if is_power_of_2 (word 32 value) then value
  else
    let value := smear 4 (smear 2 (smear 1 value)) in
    let value := if W >? 8 then smear 8 value else value in
    let value := if W >? 16 then smear 16 value else value in
    let value := if W >? 32 then smear 32 value else value in
    word W (value + 1).

(* ipow, lines 136-138; bipolar_type_range for a type of [size] bytes, lines 141-144 *)
Fixpoint ipow (a : Z) (b : nat) : Z := match b with O => 1 | S b' => word 32 (a * ipow a b') end.
Definition bipolar_type_range (size : Z) : Z := word 32 (ipow 2 (Z.to_nat (size * 8 - 1)) - 1).

(* wrap<Max>(T val) for unsigned T, lines 146-151 *)
Fixpoint wrap_max (fuel : nat) (Max val : Z) : outcome Z :=
  match fuel with
  | O => OutOfFuel
  | S f => if val >=? Max then wrap_max f Max (word 32 (val - Max)) else Ok val
  end.
(* the same for T = int: val is converted to unsigned in the comparison and the subtraction *)
Fixpoint wrap_max_int (fuel : nat) (Max val : Z) : outcome Z :=
  match fuel with
  | O => OutOfFuel
  | S f => if word 32 val >=? Max then wrap_max_int f Max (sword 32 (word 32 val - Max)) else Ok val
  end.
(* wrap<int>(val, min, max), lines 153-161 *)
Fixpoint wrap_down (fuel : nat) (max range val : Z) : outcome Z :=
  match fuel with
  | O => OutOfFuel
  | S f => if val >? max then let* val := schk 32 (val - range) in wrap_down f max range val else Ok val
  end.
Fixpoint wrap_up (fuel : nat) (min range val : Z) : outcome Z :=
  match fuel with
  | O => OutOfFuel
  | S f => if val <? min then let* val := schk 32 (val + range) in wrap_up f min range val else Ok val
  end.
Definition wrap_range (fuel : nat) (val min max : Z) : outcome Z :=
  let* d := schk 32 (max - min) in
  let* range := schk 32 (d + 1) in
  let* val := wrap_down fuel max range val in
  wrap_up fuel min range val.

(* abs_diff, diff on int; lines 175-183 *)
Definition abs_diff (x y : Z) : outcome Z := if x >=? y then schk 32 (x - y) else schk 32 (y - x).
Definition diff (a b : Z) : outcome Z := if a >? b then schk 32 (a - b) else schk 32 (b - a).
(* the same on an unsigned type of at most 32 bits *)
Definition abs_diff_u (x y : Z) : Z := if x >=? y then word 32 (x - y) else word 32 (y - x).
Definition diff_u (a b : Z) : Z := if a >? b then word 32 (a - b) else word 32 (b - a).

(* plateau, lines 186-205 (the overloads only fix arguments): the edges are computed in
   unsigned arithmetic and converted back *)
Definition plateau (val width center : Z) : outcome Z :=
  let high := sword 32 (word 32 center + width / 2) in
  let low := sword 32 (word 32 center - width / 2) in
  if val >? high then schk 32 (val - high)
  else if val <? low then schk 32 (val - low)
  else Ok 0.

(* array_adj_diff on int, lines 217-228: differences of neighbours; an empty array does not
   compile *)
Fixpoint adj_diff (prev : Z) (l : list Z) : outcome (list Z) :=
  match l with
  | [] => Ok []
  | x :: r => let* d := schk 32 (x - prev) in let* ds := adj_diff x r in Ok (d :: ds)
  end.
Definition array_adj_diff (l : list Z) : outcome (list Z) :=
  match l with [] => UB OutOfBounds | x :: r => adj_diff x r end.

(* swap_bytes16, swap_bytes32, swap_bytes_and_combine; lines 241-250 *)
Definition swap_bytes16 (h : Z) : Z := word 16 (Z.lor (Z.shiftl (Z.land h 255) 8) (Z.shiftr h 8)).
Definition swap_bytes32 (w : Z) : Z :=
  Z.lor (Z.lor (Z.lor (word 32 (Z.shiftl (Z.land w 255) 24)) (word 32 (Z.shiftl (Z.land w 65280) 8)))
               (Z.shiftr (Z.land w 16711680) 8)) (Z.shiftr w 24).
Definition swap_bytes_and_combine (h1 h2 : Z) : Z :=
  word 32 (Z.lor (Z.lor (Z.lor (Z.shiftl (Z.land h1 255) 24) (Z.shiftl (Z.land h1 65280) 8))
                        (Z.shiftl (Z.land h2 255) 8)) (Z.shiftr h2 8)).

(* cortex_math.hh lines 23-46 (the portable versions; the others are single instructions) and
   colors.hh lines 10-20 *)
Definition signed_saturate (val sat : Z) : Z :=
  if (sat >=? 1) && (sat <=? 32) then
    let max := sword 32 (word 32 (word 32 (2 ^ (sat - 1)) - 1)) in
    let min := -1 - max in
    if val >? max then max else if val <? min then min else val
  else val.
Definition unsigned_saturate (val sat : Z) : Z :=
  if sat <=? 31 then
    let max := word 32 (word 32 (2 ^ sat) - 1) in
    if val >? sword 32 max then sword 32 max else if val <? 0 then 0 else val
  else val.
(* __USAT returns uint32_t *)
Definition usat (val sat : Z) : Z := word 32 (unsigned_saturate val sat).
