(* util/contains_word.hh, util/string_compare.hh, util/string_util.hh.  The std::string
   operations they use are modelled by their documented meaning; a string is the list of its
   character codes, npos is None. *)
From Verif.Common Require Import Base.
From Verif.Spec Require Import TextSpec.

Definition str_eq (a b : list Z) : bool := if list_eq_dec Z.eq_dec a b then true else false.
(* std::string::starts_with / ends_with *)
Definition starts_with (s p : list Z) : bool := str_eq (firstn (length p) s) p.
Definition ends_with (s p : list Z) : bool :=
  Nat.leb (length p) (length s) && str_eq (skipn (length s - length p) s) p.
(* std::string::find(p, pos): search the suffixes from [i] on *)
Fixpoint find_from (p s : list Z) (i : nat) : option nat :=
  if starts_with s p then Some i
  else match s with [] => None | _ :: s' => find_from p s' (S i) end.
Definition str_find (s p : list Z) (pos : nat) : option nat :=
  if Nat.leb pos (length s) then find_from p (skipn pos s) pos else None.
(* std::string::replace(index, n, r) *)
Definition str_replace (s : list Z) (index n : nat) (r : list Z) : list Z :=
  firstn index s ++ r ++ skipn (index + n) s.

(* tolower of a plain (signed) char: negative arguments other than EOF are undefined *)
Definition char_tolower (c : Z) : outcome Z := if c <? 0 then UB OutOfBounds else Ok (lower c).
Fixpoint transform_lower (s : list Z) : outcome (list Z) :=
  match s with
  | [] => Ok []
  | c :: r => let* c := char_tolower c in let* r := transform_lower r in Ok (c :: r)
  end.

(* contains_word, contains_word.hh lines 4-32 *)
Definition contains_word (name word : list Z) : outcome bool :=
  let* lname := transform_lower name in
  let* lword := transform_lower word in
  let space_lword := 32 :: lword in
  let lword_space := lword ++ [32] in
  let space_lword_space := 32 :: lword ++ [32] in
  Ok (if str_eq lname lword then true
      else if ends_with lname space_lword then true
      else if starts_with lname lword_space then true
      else match str_find lname space_lword_space 0 with Some _ => true | None => false end).

(* string_compare.hh lines 7-18.  Characters are given as unsigned char values, 0..255. *)
Fixpoint less_ci (a b : list Z) : bool :=
  match a, b with
  | _, [] => false
  | [], _ :: _ => true
  | x :: a', y :: b' =>
      if lower x <? lower y then true else if lower y <? lower x then false else less_ci a' b'
  end.
Fixpoint equal_ci (a b : list Z) : bool :=
  match a, b with
  | [], [] => true
  | x :: a', y :: b' => (lower x =? lower y) && equal_ci a' b'
  | _, _ => false
  end.

(* ReplaceString::replace_all, string_util.hh lines 12-23 *)
Fixpoint replace_loop (fuel : nat) (str f r : list Z) (index : nat) : outcome (list Z) :=
  match fuel with
  | O => OutOfFuel
  | S fuel' =>
      match str_find str f index with
      | None => Ok str
      | Some i => replace_loop fuel' (str_replace str i (length f) r) f r (i + length f)
      end
  end.
(* enough iterations whenever the loop ends because the index passed the end *)
Definition replace_all (s f r : list Z) : outcome (list Z) := replace_loop (S (length s)) s f r 0.

(* find_first_of / find_first_not_of from a position, [pos = None] being npos *)
Definition is_in (delims : list Z) (c : Z) : bool := existsb (Z.eqb c) delims.
Fixpoint find_if (p : Z -> bool) (s : list Z) (i : nat) : option nat :=
  match s with [] => None | c :: s' => if p c then Some i else find_if p s' (S i) end.
Definition find_first_if (p : Z -> bool) (s : list Z) (pos : option nat) : option nat :=
  match pos with None => None | Some i => find_if p (skipn i s) i end.

(* tokenize_string, string_util.hh lines 26-43; str.substr(npos, ..) would throw *)
Fixpoint token_loop (fuel : nat) (s delims : list Z) (lastPos pos : option nat) (tokens : list (list Z)) : outcome (list (list Z)) :=
  match fuel with
  | O => OutOfFuel
  | S fuel' =>
      match pos, lastPos with
      | None, None => Ok tokens
      | _, None => UB OutOfBounds
      | _, Some l =>
          let tok := match pos with Some p => firstn (p - l) (skipn l s) | None => skipn l s end in
          let lastPos := find_first_if (fun c => negb (is_in delims c)) s pos in
          let pos := find_first_if (is_in delims) s lastPos in
          token_loop fuel' s delims lastPos pos (tokens ++ [tok])
      end
  end.
Definition tokenize_string (s : list Z) (tokens : list (list Z)) (delims : list Z) : outcome (list (list Z)) :=
  let lastPos := find_first_if (fun c => negb (is_in delims c)) s (Some 0%nat) in
  let pos := find_first_if (is_in delims) s lastPos in
  token_loop (S (length s)) s delims lastPos pos tokens.
