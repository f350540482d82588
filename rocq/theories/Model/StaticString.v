(* Model of util/static_string.hh (StaticString<CAPACITY>).  A string is its array
   _data of CAPACITY+1 characters (as integers).  The volatile overloads (101-111)
   forward to the modelled ones. *)
From Verif.Common Require Import Base.
From Verif.Spec Require Import StaticStringSpec.

Section SS.
Variable cap : Z.

(* copy(const char* ): static_string.hh:27-35.  [src] is the memory from s onwards. *)
Fixpoint copy_c (i : Z) (src d : list Z) : outcome (list Z) :=
  match src with
  | [] => UB OutOfBounds                       (* *s beyond the source object *)
  | c :: r =>
      if negb (c =? 0) && (i <? cap) then
        let* d1 := wr d i c in copy_c (i + 1) r d1
      else wr d i 0
  end.

(* The same loop when s points into _data itself, at offset [off]; [fuel] bounds the loop. *)
Fixpoint copy_self (fuel : nat) (i off : Z) (d : list Z) : outcome (list Z) :=
  match fuel with
  | O => OutOfFuel
  | S fuel' =>
      let* c := rd d (off + i) in
      if negb (c =? 0) && (i <? cap) then
        let* d1 := wr d i c in copy_self fuel' (i + 1) off d1
      else wr d i 0
  end.

(* copy(std::string_view): static_string.hh:41-49 *)
Fixpoint copy_sv (i : Z) (s d : list Z) : outcome (list Z) :=
  match s with
  | [] => wr d i 0
  | c :: r =>
      let* d1 := wr d i c in
      let i := i + 1 in
      if i >=? cap then wr d1 i 0 else copy_sv i r d1
  end.

(* clear, default constructor: static_string.hh:15-17, 37-39 *)
Definition ss_clear (d : list Z) : outcome (list Z) := wr d 0 0.

(* string_view{p}: scans for the terminator (length, c_str conversions: 59-65, 96-98) *)
Definition view (d : list Z) : outcome (list Z) :=
  match cstring d with Some t => Ok t | None => UB OutOfBounds end.

(* comparison of two string_views: equal lengths and characters (67-74) *)
Fixpoint sv_equal (a b : list Z) : bool :=
  match a, b with
  | [], [] => true
  | x :: a', y :: b' => (x =? y) && sv_equal a' b'
  | _, _ => false
  end.

Definition ss_step (d : list Z) (o : sop) : outcome (list Z * sout) :=
  match o with
  | SCopyC mem => let* d' := copy_c 0 mem d in Ok (d', SoUnit)
  | SCopySV l => let* d' := copy_sv 0 l d in Ok (d', SoUnit)
  | SCopySelf off => let* d' := copy_self (S (Z.to_nat (cap + 1))) 0 off d in Ok (d', SoUnit)
  | SClear => let* d' := ss_clear d in Ok (d', SoUnit)
  | SLength => let* t := view d in Ok (d, SoNum (zlen t))
  | SAvailable => let* t := view d in Ok (d, SoNum (cap - zlen t))
  | SText => let* t := view d in Ok (d, SoText t)
  | SEqual mem => let* t := view d in let* u := view mem in Ok (d, SoBool (sv_equal t u))
  end.
End SS.
