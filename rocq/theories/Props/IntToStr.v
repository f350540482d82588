(* C34-C39: rendering numbers and strings as text. *)
From Verif.Common Require Import Base.
From Verif.Spec Require Import Digits PrintSpec.
From Verif.Model Require Import IntToStr.
From Verif.Proofs Require Digits IntToStr.

(** C34.  What int_to_str leaves in the buffer and returns, for every non-zero value: the sign
    and the non-zero digits of the rendering [l]; false exactly when the true rendering and a
    terminator do not fit (then only the sign has been written). *)
Theorem C34_int_to_str_drops_zero_digits :
  forall (v : Z) (l buf : list Z),
    - 2 ^ 31 < v < 2 ^ 31 -> v <> 0 -> numeral 10 (Z.abs v) l ->
    let text := sign_text v ++ map ascii_digit (non_zero l) in
    int_to_str v buf = Ok
      (if zlen (sign_text v) + zlen l + 1 <=? zlen buf then (text ++ 0 :: skipn (S (length text)) buf, true)
       else (firstn (length buf) (sign_text v) ++ skipn (length (sign_text v)) buf, false)).
Proof. exact IntToStr.int_to_str_spec. Qed.
Print Assumptions C34_int_to_str_drops_zero_digits.
(** So the text is right exactly when no digit is zero. *)
Theorem C34_correct_iff_no_zero_digit :
  forall (v : Z) (l buf : list Z),
    - 2 ^ 31 < v < 2 ^ 31 -> v <> 0 -> numeral 10 (Z.abs v) l -> zlen (sign_text v) + zlen l + 1 <= zlen buf ->
    ((exists rest, int_to_str v buf = Ok ((sign_text v ++ map ascii_digit l) ++ 0 :: rest, true)) <-> ~ In 0 l).
Proof. exact IntToStr.int_to_str_correct_iff. Qed.
Print Assumptions C34_correct_iff_no_zero_digit.
(** Every value has exactly one rendering, so the theorems above cover every value. *)
Theorem C34_renderings_exist_and_are_unique :
  forall b v : Z, 1 < b -> 0 <= v -> exists l, numeral b v l /\ forall l', numeral b v l' -> l' = l.
Proof.
  intros b v Hb Hv. destruct (Digits.numeral_exists b Hb v Hv) as (l & H). exists l. split; [exact H|].
  intros l' H'. exact (Digits.numeral_unique b Hb v l' l H' H).
Qed.
Print Assumptions C34_renderings_exist_and_are_unique.
Example C34_hypotheses_met :
  numeral 10 (Z.abs (-2050)) [2; 0; 5; 0] /\
  int_to_str (-2050) [9; 9; 9; 9; 9; 9; 9] = Ok ([45; 50; 53; 0; 9; 9; 9], true) /\
  int_to_str (-2050) [9; 9; 9; 9; 9] = Ok ([45; 9; 9; 9; 9], false) /\
  int_to_str 314 [9; 9; 9; 9] = Ok ([51; 49; 52; 0], true).
Proof.
  split; [|vm_compute; repeat split; reflexivity].
  split; [repeat constructor; discriminate|]. split; [reflexivity|right; exists 2, [0; 5; 0]; split; [reflexivity|discriminate]].
Qed.

(** C35.  Non-zero values: no write outside the buffer, and nothing beyond the room the
    rendering needs is changed. *)
Theorem C35_int_to_str_stays_in_the_buffer :
  forall (v : Z) (l buf : list Z),
    - 2 ^ 31 < v < 2 ^ 31 -> v <> 0 -> numeral 10 (Z.abs v) l ->
    exists buf' r, int_to_str v buf = Ok (buf', r) /\ zlen buf' = zlen buf /\
      (forall i, zlen (sign_text v) + zlen l + 1 <= i -> znth buf' i = znth buf i) /\
      (r = false -> forall i, zlen (sign_text v) <= i -> znth buf' i = znth buf i).
Proof. exact IntToStr.int_to_str_safe. Qed.
Print Assumptions C35_int_to_str_stays_in_the_buffer.
(** Value 0 writes two characters whatever the buffer; INT_MIN overflows. *)
Theorem C35_zero_overruns_short_buffers_refuted :
  forall buf : list Z,
    int_to_str 0 buf = if 2 <=? zlen buf then Ok (48 :: 0 :: skipn 2 buf, true) else UB OutOfBounds.
Proof. exact IntToStr.int_to_str_zero. Qed.
Print Assumptions C35_zero_overruns_short_buffers_refuted.
Theorem C35_int_min_overflows_refuted :
  forall (x : Z) (buf : list Z), int_to_str (- 2 ^ 31) (x :: buf) = UB SignedOverflow.
Proof. exact IntToStr.int_to_str_min. Qed.
Print Assumptions C35_int_min_overflows_refuted.
Example C35_hypotheses_met :
  int_to_str 0 [] = UB OutOfBounds /\ int_to_str 0 [7] = UB OutOfBounds /\ int_to_str 0 [7; 7; 7] = Ok ([48; 0; 7], true) /\
  int_to_str 5 [] = Ok ([], false) /\ int_to_str 12 [7; 7] = Ok ([7; 7], false).
Proof. vm_compute. repeat split; reflexivity. Qed.

(** C36.  What int_to_str_chop writes: of the place-by-place digits computed with [>] instead
    of [>=], the non-zero ones among the lowest places that fit. *)
Theorem C36_chop_output :
  forall (v : Z) (l buf : list Z),
    - 2 ^ 31 < v < 2 ^ 31 -> v <> 0 -> numeral 10 (Z.abs v) l -> 2 <= zlen buf ->
    let room := (length buf - length (sign_text v) - 1)%nat in
    let text := sign_text v ++ map (Z.add 48) (non_zero (last_n room (late_compare l))) in
    int_to_str_chop v buf = Ok (text ++ 0 :: skipn (S (length text)) buf).
Proof. exact IntToStr.chop_spec. Qed.
Print Assumptions C36_chop_output.
(** The documented contract holds for values without zero digits that do not end in 1. *)
Theorem C36_contract_holds_without_zeros_or_final_one :
  forall (v : Z) (l buf : list Z),
    - 2 ^ 31 < v < 2 ^ 31 -> v <> 0 -> numeral 10 (Z.abs v) l -> 2 <= zlen buf -> ~ In 0 l -> last l 0 <> 1 ->
    let text := sign_text v ++ map ascii_digit (last_n (length buf - length (sign_text v) - 1) l) in
    int_to_str_chop v buf = Ok (text ++ 0 :: skipn (S (length text)) buf).
Proof. exact IntToStr.chop_contract. Qed.
Print Assumptions C36_contract_holds_without_zeros_or_final_one.
(** It fails for 1 (empty text) and 10 (a colon), in every buffer. *)
Theorem C36_one_and_ten_refuted :
  forall buf : list Z, 2 <= zlen buf ->
    int_to_str_chop 1 buf = Ok (0 :: skipn 1 buf) /\ int_to_str_chop 10 buf = Ok (58 :: 0 :: skipn 2 buf).
Proof. intros buf H. exact (conj (IntToStr.chop_one buf H) (IntToStr.chop_ten buf H)). Qed.
Print Assumptions C36_one_and_ten_refuted.
Theorem C36_zero_and_tiny_buffers :
  forall (v : Z) (buf : list Z),
    (zlen buf <= 1 -> int_to_str_chop v buf = Ok buf) /\
    (2 <= zlen buf -> int_to_str_chop 0 buf = Ok (48 :: 0 :: skipn 2 buf)).
Proof. intros v buf. exact (conj (IntToStr.chop_small v buf) (IntToStr.chop_zero buf)). Qed.
Print Assumptions C36_zero_and_tiny_buffers.
Example C36_hypotheses_met :
  numeral 10 (Z.abs (-9876)) [9; 8; 7; 6] /\
  int_to_str_chop (-9876) [5; 5; 5; 5] = Ok [45; 55; 54; 0] /\
  int_to_str_chop 9876 [5; 5; 5; 5; 5; 5] = Ok [57; 56; 55; 54; 0; 5] /\
  int_to_str_chop 3100 [5; 5; 5; 5; 5; 5] = Ok [51; 58; 0; 5; 5; 5] /\
  int_to_str_chop (- 2 ^ 31) [5; 5] = UB SignedOverflow.
Proof.
  split; [|vm_compute; repeat split; reflexivity].
  split; [repeat constructor; discriminate|]. split; [reflexivity|right; exists 9, [8; 7; 6]; split; [reflexivity|discriminate]].
Qed.

(** C37. *)
Theorem C37_num_digits_counts_digits :
  forall (v : Z) (l : list Z), 0 <= v < 2 ^ 32 -> numeral 10 v l -> num_digits v = Ok (zlen l).
Proof. exact IntToStr.num_digits_spec. Qed.
Print Assumptions C37_num_digits_counts_digits.
Example C37_hypotheses_met : num_digits 0 = Ok 1 /\ num_digits 99999 = Ok 5 /\ num_digits 100000 = Ok 6 /\ num_digits 4294967295 = Ok 10.
Proof. vm_compute. repeat split; reflexivity. Qed.

(** C38.  print renders integers in decimal and Hex in upper-case hexadecimal. *)
Theorem C38_print_renders_numbers :
  (forall (v : Z) (l : list Z), - 2 ^ 31 < v < 2 ^ 31 -> numeral 10 (Z.abs v) l ->
     print_int v = Ok (sign_text v ++ map ascii_digit l)) /\
  (forall (v : Z) (l : list Z), 0 <= v < 2 ^ 32 -> numeral 16 v l -> print_hex v = Ok (map ascii_digit l)) /\
  print_int (- 2 ^ 31) = UB SignedOverflow.
Proof. exact (conj IntToStr.print_int_spec (conj IntToStr.print_hex_spec IntToStr.print_int_min)). Qed.
Print Assumptions C38_print_renders_numbers.
(** The texts of the arguments follow each other in order. *)
Theorem C38_print_in_order :
  forall (args : list parg) (texts : list (list Z)), Forall2 renders args texts -> print args = Ok (concat texts).
Proof. exact IntToStr.print_concat. Qed.
Print Assumptions C38_print_in_order.
Example C38_hypotheses_met :
  print [PInt (-1020); PStr [120; 61; 0] 0; PHex 48879; PFloat 7] =
  Ok [45; 49; 48; 50; 48; 120; 61; 66; 69; 69; 70; 63; 55; 63].
Proof. vm_compute. reflexivity. Qed.

(** C39.  A C string is printed up to its terminator; a string_view likewise, whatever its
    length says: more than the view, or past the end of memory. *)
Theorem C39_cstring_printed_up_to_terminator :
  forall pre s post : list Z, ~ In 0 s -> print_cstr (pre ++ s ++ 0 :: post) (zlen pre) = Ok s.
Proof. exact IntToStr.print_cstr_spec. Qed.
Print Assumptions C39_cstring_printed_up_to_terminator.
Theorem C39_string_view_length_ignored_refuted :
  forall (pre s post : list Z) (n : Z), ~ In 0 s ->
    print_view (pre ++ s ++ 0 :: post) (zlen pre) n = Ok s /\
    print_view (pre ++ s) (zlen pre) n = UB OutOfBounds.
Proof. intros pre s post n H. exact (conj (IntToStr.print_cstr_spec pre s post H) (IntToStr.print_cstr_unterminated pre s H)). Qed.
Print Assumptions C39_string_view_length_ignored_refuted.
Example C39_hypotheses_met :
  print_view [104; 101; 108; 108; 111; 0] 0 2 = Ok [104; 101; 108; 108; 111] /\
  print_view [104; 105] 0 2 = UB OutOfBounds.
Proof. vm_compute. repeat split; reflexivity. Qed.
