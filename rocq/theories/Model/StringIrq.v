(* util/static_string.hh: calls of a main program interrupted by a handler that uses the same string,
   as in Model/Irq.v.  Every character loaded or stored is one access; the source of a copy is not
   shared, except that of a copy from the string's own array. *)
From Verif.Common Require Import Base.
From Verif.Spec Require Import StaticStringSpec.
From Verif.Model Require Import StaticString Irq.

Section SI.
Variable cap : Z.
Notation P := (prog (list Z) sout).
Definition load_c (i : Z) (k : Z -> P) : P := Acc (fun d => let* c := rd d i in Ok (d, k c)).
Definition store_c (i c : Z) (k : P) : P := Acc (fun d => let* d' := wr d i c in Ok (d', k)).
(* copy from a C string: lines 27-35 *)
Fixpoint copy_c_prog (i : Z) (src : list Z) : P :=
  match src with
  | [] => Acc (fun _ => UB OutOfBounds)
  | c :: r => if negb (c =? 0) && (i <? cap) then store_c i c (copy_c_prog (i + 1) r) else store_c i 0 (Ret SoUnit)
  end.
(* the same from the string's own array: the source is loaded for the test and again for the store *)
Fixpoint copy_self_prog (fuel : nat) (i off : Z) : P :=
  match fuel with
  | O => Acc (fun _ => OutOfFuel)
  | S fuel' =>
      load_c (off + i) (fun c => if negb (c =? 0) && (i <? cap) then load_c (off + i) (fun c => store_c i c (copy_self_prog fuel' (i + 1) off))
                                 else store_c i 0 (Ret SoUnit))
  end.
(* copy from a string_view: lines 41-49 *)
Fixpoint copy_sv_prog (i : Z) (s : list Z) : P :=
  match s with
  | [] => store_c i 0 (Ret SoUnit)
  | c :: r => store_c i c (let i := i + 1 in if i >=? cap then store_c i 0 (Ret SoUnit) else copy_sv_prog i r)
  end.
(* the scan for the terminator: lines 59-65, 96-98 *)
Fixpoint scan_prog (fuel : nat) (i : Z) (seen : list Z) (k : list Z -> P) : P :=
  match fuel with
  | O => Acc (fun _ => OutOfFuel)
  | S fuel' => load_c i (fun c => if c =? 0 then k (rev seen) else scan_prog fuel' (i + 1) (c :: seen) k)
  end.
(* comparing the characters after the lengths were found equal: lines 67-74 *)
Fixpoint equal_prog (u : list Z) (i : Z) : P :=
  match u with
  | [] => Ret (SoBool true)
  | x :: u' => load_c i (fun c => if c =? x then equal_prog u' (i + 1) else Ret (SoBool false))
  end.
Definition all_prog (k : list Z -> P) : P := scan_prog (S (S (Z.to_nat cap))) 0 [] k.
Definition s_main (o : sop) : P :=
  match o with
  | SCopyC mem => copy_c_prog 0 mem
  | SCopySV l => copy_sv_prog 0 l
  | SCopySelf off => copy_self_prog (S (Z.to_nat (cap + 1))) 0 off
  | SClear => store_c 0 0 (Ret SoUnit)
  | SLength => all_prog (fun t => Ret (SoNum (zlen t)))
  | SAvailable => all_prog (fun t => Ret (SoNum (cap - zlen t)))
  | SText => all_prog (fun t => Ret (SoText t))
  | SEqual mem => all_prog (fun t => match cstring mem with
      | Some u => if zlen t =? zlen u then equal_prog u 0 else Ret (SoBool false)
      | None => Acc (fun _ => UB OutOfBounds)
      end)
  end.
End SI.
