(* util/calibrator.hh, util/voct_calibrator.hh, util/analyzed_signal.hh, util/callable.hh and
   util/input_output_buffer.hh. *)
From Coq Require Import QArith Floats.SpecFloat.
From Verif.Common Require Import Base F32.
From Verif.Spec Require Import CalibSpec.
Open Scope Z_scope.

(* Calibrator, calibrator.hh lines 5-53, over any arithmetic *)
Section Calibrator.
Context {A : Type} (sub mul div add : A -> A -> A).
Record calibrator := Cal { cal_slope : A; cal_offset : A }.
Definition adjust (c : calibrator) (raw : A) : A := mul (sub raw (cal_offset c)) (cal_slope c).
Definition reverse_calibrate (c : calibrator) (val : A) : A := add (div val (cal_slope c)) (cal_offset c).
Definition calibrate_chan (target_low target_high low_measurement high_measurement : A) : calibrator :=
  let slope := div (sub target_high target_low) (sub high_measurement low_measurement) in
  Cal slope (sub low_measurement (div target_low slope)).
End Calibrator.
Arguments Cal {A}. Arguments cal_slope {A}. Arguments cal_offset {A}.

(* VoctCalibrator, voct_calibrator.hh lines 6-60, in exact arithmetic *)
Record voct := VC { vc_offset : Q; vc_slope : Q; vc_pts : list (Z * Q); vc_num : Z; vc_c0 : bool }.
Definition voct0 : voct := VC 0%Q 0%Q [(11, 0%Q); (11, 0%Q)] 0 false.
(* lines 16-48 *)
Definition voct_record (s : voct) (note : Z) (m : Q) : outcome voct :=
  if note =? 11 then Ok s
  else
    let c0 := if note =? 0 then true else vc_c0 s in
    let offset := if note =? 0 then m else vc_offset s in
    let* (pts, num) :=
      if vc_num s >=? 2 then
        let* p1 := rd (vc_pts s) 1 in
        let* pts := wr (vc_pts s) 0 p1 in
        Ok (pts, 1)
      else Ok (vc_pts s, vc_num s) in
    let* pts := wr pts num (note, m) in
    let num := num + 1 in
    if num >=? 2 then
      let* p0 := rd pts 0 in
      let* p1 := rd pts 1 in
      let octave_span := fst p0 - fst p1 in
      let diff := (snd p0 - snd p1)%Q in
      let slope := if negb (octave_span =? 0) && negb (Qeq_bool diff 0) then (diff / inject_Z octave_span)%Q else vc_slope s in
      let offset :=
        if c0 then offset
        else ((((snd p0 - slope * inject_Z (fst p0)) + (snd p1 - slope * inject_Z (fst p1))) / 2))%Q in
      Ok (VC offset slope pts num c0)
    else Ok (VC offset (vc_slope s) pts num c0).
(* lines 9-14 *)
Definition voct_reset (s : voct) : voct := VC 0%Q 0%Q (vc_pts s) 0 false.
Definition voct_step (s : voct) (o : vop) : outcome voct :=
  match o with VReset => Ok (voct_reset s) | VRec n m => voct_record s n m end.
Fixpoint voct_run (s : voct) (ops : list vop) : outcome voct :=
  match ops with [] => Ok s | o :: r => let* s' := voct_step s o in voct_run s' r end.

(* PeakMeter, analyzed_signal.hh lines 42-60: (min, max), with the order and the limits of T; the
   extrema of AnalyzedSig, lines 10-28 *)
Definition pm_update {A} (lt : A -> A -> bool) (s : A * A) (v : A) : A * A :=
  (if lt v (fst s) then v else fst s, if lt (snd s) v then v else snd s).
Definition pm_step {A} (lt : A -> A -> bool) (tmax tmin : A) (s : A * A) (o : pop A) : A * A :=
  match o with PUpdate v => pm_update lt s v | PReset => (tmax, tmin) end.
(* std::numeric_limits<float>::max() and min(): the largest number and the smallest positive
   normal number *)
Definition FLT_MAX : f32 := f32_of (2 ^ 24 - 1) 104.
Definition FLT_MIN : f32 := f32_of 1 (-126).
(* AnalyzedSig::update, lines 15-22: iir *)
Definition iir_update {A} (add sub mul : A -> A -> A) (coef iir v : A) : A := add iir (mul coef (sub v iir)).

(* FunctionSized, callable.hh lines 21-74.  A variable is absent, empty (default constructed) or
   holds the bytes of a callable; callables are numbered in order of construction.  Copying and
   assigning FunctionSized copies the bytes (the implicit members; there is no implicit move).
   The by-value parameter of the constructor is constructed and destroyed besides and not
   recorded. *)
Inductive slot := Absent | Empty | Holds (id : Z).
Record fstate := FS { fs_vars : Z -> slot; fs_next : Z; fs_log : list fevent }.
Definition fs0 : fstate := FS (fun _ => Absent) 0 [].
Definition set_var (f : Z -> slot) (v : Z) (x : slot) : Z -> slot := fun u => if u =? v then x else f u.
Definition fs_step (s : fstate) (o : fop) : outcome fstate :=
  match o with
  | FDefault v => match fs_vars s v with Absent => Ok (FS (set_var (fs_vars s) v Empty) (fs_next s) (fs_log s)) | _ => UB BadDeref end
  | FMake v =>
      match fs_vars s v with
      | Absent => Ok (FS (set_var (fs_vars s) v (Holds (fs_next s))) (fs_next s + 1) (fs_log s ++ [EConstruct (fs_next s)]))
      | _ => UB BadDeref
      end
  | FCopy v w =>
      match fs_vars s v, fs_vars s w with
      | Absent, Empty => Ok (FS (set_var (fs_vars s) v Empty) (fs_next s) (fs_log s))
      | Absent, Holds id => Ok (FS (set_var (fs_vars s) v (Holds id)) (fs_next s) (fs_log s))
      | _, _ => UB BadDeref
      end
  | FAssign v w =>
      match fs_vars s v, fs_vars s w with
      | Absent, _ | _, Absent => UB BadDeref
      | _, x => Ok (FS (set_var (fs_vars s) v x) (fs_next s) (fs_log s))
      end
  (* v = callable: a temporary is constructed, its bytes are copied, it is destroyed *)
  | FAssignNew v =>
      match fs_vars s v with
      | Absent => UB BadDeref
      | _ => Ok (FS (set_var (fs_vars s) v (Holds (fs_next s))) (fs_next s + 1) (fs_log s ++ [EConstruct (fs_next s); EDestroy (fs_next s)]))
      end
  | FCall v => match fs_vars s v with Holds id => Ok (FS (fs_vars s) (fs_next s) (fs_log s ++ [ECall id])) | _ => UB BadDeref end
  | FDestroy v =>
      match fs_vars s v with
      | Absent => UB BadDeref
      | Empty => Ok (FS (set_var (fs_vars s) v Absent) (fs_next s) (fs_log s))
      | Holds id => Ok (FS (set_var (fs_vars s) v Absent) (fs_next s) (fs_log s ++ [EDestroy id]))
      end
  end.
Fixpoint fs_run (s : fstate) (ops : list fop) : outcome fstate :=
  match ops with [] => Ok s | o :: r => let* s' := fs_step s o in fs_run s' r end.

(* InputBuffer and OutputBuffer, input_output_buffer.hh lines 8-90: the buffer and head_ *)
Section Buffers.
Context {A : Type} (N : Z) (dflt : A).
Definition stream0 : list A * Z := (zrepeat dflt N, 0).
Definition in_step (s : list A * Z) (o : inop A) : outcome (list A * Z) :=
  match o with
  | InPut x => if snd s >=? N then Ok s else let* b := wr (fst s) (snd s) x in Ok (b, word 64 (snd s + 1))
  | InReset => Ok (fst s, 0)
  end.
Fixpoint in_run (s : list A * Z) (ops : list (inop A)) : outcome (list A * Z) :=
  match ops with [] => Ok s | o :: r => let* s' := in_step s o in in_run s' r end.
Definition in_full (s : list A * Z) : bool := snd s >=? N.
Definition in_size (s : list A * Z) : Z := N.
(* OutFill writes through data() *)
Definition out_step (s : list A * Z) (o : outop A) : outcome ((list A * Z) * option A) :=
  match o with
  | OutGet => if snd s >=? N then Ok (s, Some dflt) else let* x := rd (fst s) (snd s) in Ok ((fst s, word 64 (snd s + 1)), Some x)
  | OutReset => Ok ((fst s, 0), None)
  | OutFill i x => let* b := wr (fst s) i x in Ok ((b, snd s), None)
  end.
End Buffers.
