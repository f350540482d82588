(* util/lookup_table.hh and util/interp_array.hh. *)
From Coq Require Import QArith Floats.SpecFloat.
From Verif.Common Require Import Base F32.
Open Scope Z_scope.

(* The arithmetic of T and PhaseT, exact or single precision: [of_int] converts an integer,
   [to_u32] is static_cast<uint32_t>. *)
Section Table.
Context {A : Type} (add sub mul div : A -> A -> A) (of_int : Z -> A) (leb : A -> A -> bool) (to_u32 : A -> outcome Z).

(* LookupTable::lookup, lookup_table.hh lines 46-60 *)
Definition lookup (points : list A) (mn mx val : A) : outcome A :=
  let last := zlen points - 1 in
  let idx := mul (div (sub val mn) (sub mx mn)) (of_int last) in
  if leb idx (of_int 0) then rd points 0
  else if leb (of_int last) idx then rd points last
  else
    let* lower_idx := to_u32 idx in
    let phase := sub idx (of_int lower_idx) in
    let* lower := rd points lower_idx in
    let* upper := rd points (word 32 (lower_idx + 1)) in
    Ok (add lower (mul phase (sub upper lower))).
(* CreateArray, lines 12-21 *)
Definition generate (NumPoints : Z) (mn mx : A) (func : A -> A) : list A :=
  ztab NumPoints (fun i => func (add mn (div (mul (of_int i) (sub mx mn)) (of_int (NumPoints - 1))))).

(* InterpArray, interp_array.hh; [data] has Size elements *)
(* lines 28-29, 68-69 *)
Fixpoint wrap_loop (fuel : nat) (Size idx : Z) : outcome Z :=
  if idx >=? Size then
    match fuel with O => OutOfFuel | S f => wrap_loop f Size (idx - Size) end
  else Ok idx.
(* lines 30-32, 44-47 *)
Definition blend (data : list A) (idx0 : Z) (phase : A) : outcome A :=
  let Size := zlen data in
  let idx1 := if idx0 =? Size - 1 then 0 else word 32 (idx0 + 1) in
  let* d1 := rd data idx1 in
  let* d0 := rd data idx0 in
  Ok (add (mul d1 phase) (mul d0 (sub (of_int 1) phase))).
(* lines 25-35 *)
Definition interp_by_index_wrap (fuel : nat) (data : list A) (index : A) : outcome A :=
  let* i := to_u32 index in
  let phase := sub index (of_int i) in
  let* idx0 := wrap_loop fuel (zlen data) i in
  blend data idx0 phase.
(* lines 41-48 *)
Definition interp_by_index (data : list A) (index : A) : outcome A :=
  let* idx0 := to_u32 index in
  let phase := sub index (of_int idx0) in
  blend data idx0 phase.
(* lines 51-54 *)
Definition interp_wrap (fuel : nat) (data : list A) (phase : A) : outcome A :=
  interp_by_index_wrap fuel data (mul phase (of_int (zlen data))).
(* lines 59-62 *)
Definition interp (data : list A) (phase : A) : outcome A :=
  interp_by_index data (mul phase (of_int (zlen data - 1))).
(* lines 66-71 *)
Definition closest_wrap (fuel : nat) (data : list A) (phase : A) : outcome A :=
  let* i := to_u32 (mul phase (of_int (zlen data))) in
  let* idx := wrap_loop fuel (zlen data) i in
  rd data idx.
(* lines 76-79 *)
Definition closest (data : list A) (phase : A) : outcome A :=
  let* idx := to_u32 (mul phase (of_int (zlen data - 1))) in
  rd data idx.
End Table.

(* exact arithmetic *)
Definition Q_to_u32 (q : Q) : outcome Z :=
  let n := Z.quot (Qnum q) (QDen q) in
  if (0 <=? n) && (n <? 2 ^ 32) then Ok n else UB BadCast.
Definition Qlookup := lookup Qplus Qminus Qmult Qdiv inject_Z Qle_bool Q_to_u32.
Definition Qgenerate := generate Qplus Qminus Qmult Qdiv inject_Z.
Definition Qinterp_by_index_wrap := interp_by_index_wrap Qplus Qminus Qmult inject_Z Q_to_u32.
Definition Qinterp_wrap := interp_wrap Qplus Qminus Qmult inject_Z Q_to_u32.
Definition Qinterp := interp Qplus Qminus Qmult inject_Z Q_to_u32.
Definition Qclosest_wrap := closest_wrap (A:=Q) Qmult inject_Z Q_to_u32.
Definition Qclosest := closest (A:=Q) Qmult inject_Z Q_to_u32.
(* single precision *)
Definition Flookup := lookup fadd fsub fmul fdiv f32_of_int SFleb (f32_to_uint 32).
Definition Finterp_wrap := interp_wrap fadd fsub fmul f32_of_int (f32_to_uint 32).
Definition Finterp := interp fadd fsub fmul f32_of_int (f32_to_uint 32).
Definition Fclosest_wrap := closest_wrap (A:=f32) fmul f32_of_int (f32_to_uint 32).
Definition Fclosest := closest (A:=f32) fmul f32_of_int (f32_to_uint 32).
