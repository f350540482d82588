(* util/int_to_str.cc and util/print.hh.  Characters are their codes; a buffer is a list of
   characters of the span's length; writing outside it is undefined behaviour. *)
From Verif.Common Require Import Base.
From Verif.Spec Require Import Digits PrintSpec.

(* the ten calls, lines 49-68 and 122-141; print.hh lines 58-67 *)
Definition places10 : list Z := [1000000000; 100000000; 10000000; 1000000; 100000; 10000; 1000; 100; 10; 1].
(* print.hh lines 80-87 *)
Definition places16 : list Z := [268435456; 16777216; 1048576; 65536; 4096; 256; 16; 1].

(* Log10<Place>(), lines 11-19 *)
Fixpoint log10_f (fuel : nat) (place : Z) : Z :=
  match fuel with
  | O => 1
  | S f => if place =? 1 then 1 else log10_f f (place / 10) + 1
  end.
Definition log10 (place : Z) : Z := log10_f 10 place.

(* digit<Place>(value, avail), lines 21-29: remaining value and character (0 for none) *)
Definition digit (place value avail : Z) : Z * Z :=
  if value >? place then
    let dig := value / place in
    (value - dig * place, if avail >? log10 place then 48 + dig else 0)
  else (value, 0).

(* lines 49-70 *)
Fixpoint chop_loop (places : list Z) (val len : Z) (buf : list Z) : outcome (list Z) :=
  match places with
  | [] => wr buf len 0
  | p :: ps =>
      let (val, c) := digit p val (zlen buf - len) in
      if c =? 0 then chop_loop ps val len buf
      else let* buf := wr buf len c in chop_loop ps val (len + 1) buf
  end.

(* int_to_str_chop, lines 32-71 *)
Definition int_to_str_chop (value : Z) (buf : list Z) : outcome (list Z) :=
  if zlen buf <=? 1 then Ok buf
  else if value =? 0 then let* buf := wr buf 0 48 in wr buf 1 0
  else if value <? 0 then
    let* buf := wr buf 0 45 in
    let* value := schk 32 (- value) in
    chop_loop places10 value 1 buf
  else chop_loop places10 value 0 buf.

(* _digit<Place>(value), lines 77-85 *)
Definition digit2 (place value : Z) : Z * Z :=
  if value >=? place then
    let dig := value / place in (value - dig * place, 48 + dig)
  else (value, 0).

(* num_digits, lines 88-100 *)
Fixpoint num_digits_f (fuel : nat) (value : Z) : outcome Z :=
  match fuel with
  | O => OutOfFuel
  | S f =>
      if value <? 10 then Ok 1
      else if value <? 100 then Ok 2
      else if value <? 1000 then Ok 3
      else if value <? 10000 then Ok 4
      else if value <? 100000 then Ok 5
      else let* n := num_digits_f f (value / 100000) in Ok (n + 5)
  end.
Definition num_digits (value : Z) : outcome Z := num_digits_f 8 value.

(* lines 122-143 *)
Fixpoint fill_loop (places : list Z) (val len : Z) (buf : list Z) : outcome (list Z) :=
  match places with
  | [] => wr buf len 0
  | p :: ps =>
      let (val, c) := digit2 p val in
      if c =? 0 then fill_loop ps val len buf
      else let* buf := wr buf len c in fill_loop ps val (len + 1) buf
  end.

(* int_to_str, lines 102-145: the buffer and the result *)
Definition int_to_str_body (value len : Z) (buf : list Z) : outcome (list Z * bool) :=
  if value =? 0 then
    let* buf := wr buf 0 48 in
    let* buf := wr buf 1 0 in Ok (buf, true)
  else
    let* n := num_digits value in
    if n + len + 1 >? zlen buf then Ok (buf, false)
    else let* buf := fill_loop places10 value len buf in Ok (buf, true).
Definition int_to_str (value : Z) (buf : list Z) : outcome (list Z * bool) :=
  if value <? 0 then
    if zlen buf =? 0 then Ok (buf, false)
    else
      let* buf := wr buf 0 45 in
      let* value := schk 32 (- value) in
      int_to_str_body value 1 buf
  else int_to_str_body value 0 buf.

(* print.hh, print_digit<Place, putc>, lines 32-40: remaining value, print_zero, characters put *)
Definition print_digit (place value : Z) (print_zero : bool) : Z * bool * list Z :=
  if print_zero || (value >=? place) then
    let dig := value / place in
    (value - dig * place, true, [if dig <? 10 then 48 + dig else 65 + dig - 10])
  else (value, print_zero, []).
Fixpoint print_digits (places : list Z) (value : Z) (print_zero : bool) : list Z :=
  match places with
  | [] => []
  | p :: ps =>
      let '(value, print_zero, out) := print_digit p value print_zero in
      out ++ print_digits ps value print_zero
  end.
(* printone(int32_t), lines 43-68 *)
Definition print_int (val : Z) : outcome (list Z) :=
  if val =? 0 then Ok [48]
  else if val <? 0 then
    let* uval := schk 32 (- val) in Ok (45 :: print_digits places10 uval false)
  else Ok (print_digits places10 val false).
(* printone(Hex), lines 70-88 *)
Definition print_hex (value : Z) : outcome (list Z) :=
  if value =? 0 then Ok [48] else Ok (print_digits places16 value false).

(* printone(const char * ), lines 13-23: reads memory from [p] until a zero byte.  Memory is
   one list of characters; reading outside it is undefined behaviour. *)
Fixpoint print_cstr_f (fuel : nat) (mem : list Z) (p : Z) : outcome (list Z) :=
  match fuel with
  | O => OutOfFuel
  | S f =>
      let* c := rd mem p in
      if c =? 0 then Ok [] else let* rest := print_cstr_f f mem (p + 1) in Ok (c :: rest)
  end.
Definition print_cstr (mem : list Z) (p : Z) : outcome (list Z) := print_cstr_f (S (length mem)) mem p.
(* printone(std::string_view), lines 25-28: passes data() only *)
Definition print_view (mem : list Z) (p n : Z) : outcome (list Z) := print_cstr mem p.

(* print(args...), lines 105-108.  A float argument (lines 90-96) is given by its value
   truncated toward zero; converting a value outside int32 is undefined. *)
Definition printone (a : parg) : outcome (list Z) :=
  match a with
  | PInt v => print_int v
  | PHex v => print_hex v
  | PStr mem p => print_cstr mem p
  | PView mem p n => print_view mem p n
  | PFloat t =>
      if (- 2 ^ 31 <=? t) && (t <? 2 ^ 31) then let* s := print_int t in Ok ([63] ++ s ++ [63])
      else UB BadCast
  end.
Fixpoint print (args : list parg) : outcome (list Z) :=
  match args with
  | [] => Ok []
  | a :: r => let* s := printone a in let* t := print r in Ok (s ++ t)
  end.
