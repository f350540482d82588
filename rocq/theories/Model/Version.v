(* util/version_tools.hh.  Characters are their codes; memory is one list of characters and a
   string_view is a position and a length inside it.  long has L bits, unsigned 32. *)
From Verif.Common Require Import Base.
From Verif.Model Require Import Strings.

(* lines 9-13 *)
Record version := Ver { major : Z; minor : Z; revision : Z; is_normal : bool }.
(* Version() = default, line 28 *)
Definition ver0 : version := Ver 0 0 0 true.

(* set_field, lines 15-26 *)
Definition set_field (v : version) (index val : Z) : version :=
  if val >? 255 then v
  else
    let v := if index =? 0 then Ver val (minor v) (revision v) (is_normal v) else v in
    let v := if index =? 1 then Ver (major v) val (revision v) (is_normal v) else v in
    if index =? 2 then Ver (major v) (minor v) val (is_normal v) else v.

(* strtol(str, nullptr, 10) (libc): white space, a sign, digits, up to the first other
   character; running off the end of memory is undefined; out-of-range results are clipped. *)
Definition is_digit (c : Z) : bool := (48 <=? c) && (c <=? 57).
Definition is_space (c : Z) : bool := (c =? 32) || ((9 <=? c) && (c <=? 13)).
Fixpoint strtol_digits (s : list Z) (acc : Z) : outcome Z :=
  match s with
  | [] => UB OutOfBounds
  | c :: r => if is_digit c then strtol_digits r (acc * 10 + (c - 48)) else Ok acc
  end.
Fixpoint strtol_body (s : list Z) : outcome Z :=
  match s with
  | [] => UB OutOfBounds
  | c :: r =>
      if is_space c then strtol_body r
      else if c =? 45 then let* n := strtol_digits r 0 in Ok (- n)
      else if c =? 43 then strtol_digits r 0
      else strtol_digits (c :: r) 0
  end.
Definition strtol (L : Z) (mem : list Z) (p : nat) : outcome Z :=
  let* n := strtol_body (skipn p mem) in
  Ok (Z.max (- 2 ^ (L - 1)) (Z.min n (2 ^ (L - 1) - 1))).

(* Version(std::string_view), lines 37-58: the loop over the tokens *)
Fixpoint parse_loop (L : Z) (fuel : nat) (mem : list Z) (p n : nat) (i : Z) (v : version) : outcome version :=
  match fuel with
  | O => OutOfFuel
  | S fuel' =>
      let vers := firstn n (skipn p mem) in
      let pos := find_if (Z.eqb 46) vers 0 in
      let* num := strtol L mem p in
      let v := set_field v i (word 32 num) in
      match pos with
      | Some k => parse_loop L fuel' mem (p + k + 1) (n - k - 1) (i + 1) v
      | None =>
          Ok (Ver (major v) (minor v) (revision v)
                (match find_if (Z.eqb 45) vers 0 with None => true | Some _ => false end))
      end
  end.
Definition parse (L : Z) (mem : list Z) (p n : nat) : outcome version := parse_loop L (S n) mem p n 0 ver0.

(* can_host_version, lines 61-63 *)
Definition can_host_version (v other : version) : bool :=
  (major v =? major other) && (minor v >=? minor other).
(* operator<=>, lines 65-76 *)
Definition ver_cmp (v o : version) : comparison :=
  if (major v =? major o) && (minor v =? minor o) && (revision v =? revision o) && Bool.eqb (is_normal v) (is_normal o) then Eq
  else if (major v <? major o) || ((major v =? major o) && (minor v <? minor o)) ||
          ((major v =? major o) && (minor v =? minor o) && (revision v <? revision o)) ||
          ((major v =? major o) && (minor v =? minor o) && (revision v =? revision o) && negb (is_normal v) && is_normal o) then Lt
  else Gt.
(* operator== = default, line 78 *)
Definition ver_eq (v o : version) : bool :=
  (major v =? major o) && (minor v =? minor o) && (revision v =? revision o) && Bool.eqb (is_normal v) (is_normal o).
(* is_later, lines 80-82 *)
Definition is_later (v o : version) : bool := match ver_cmp v o with Gt => true | _ => false end.
