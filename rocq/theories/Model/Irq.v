(* Interrupted calls of Toggler, TogglerCompact, RotaryMotion, Parameter and LatchedParam: each
   function as its sequence of accesses to the object.  Interrupts do not nest, memory is
   sequentially consistent on one core, and the compiler keeps the accesses in program order. *)
From Verif.Common Require Import Base.
From Verif.Spec Require Import ButtonSpec EncoderSpec DetectSpec IrqSpec.
From Verif.Model Require Import Debouncer Encoder Detect.

(* a function as the accesses it still makes *)
Inductive prog (S R : Type) := Ret (r : R) | Acc (f : S -> outcome (S * prog S R)).
Arguments Ret {S R} r.
Arguments Acc {S R} f.

(* the accesses with the handler's calls before each, and its remaining calls after the last one *)
Fixpoint iexec {S O R} (step : S -> O -> outcome (S * R)) (p : prog S R) (s : S) (gaps : list (list O)) : outcome (S * R * list R) :=
  match p with
  | Ret r => let* (s1, q) := run step s (concat gaps) in Ok (s1, r, q)
  | Acc f =>
      let* (s1, q1) := run step s (hd [] gaps) in
      match f s1 with
      | Ok (s2, p') => let* (s3r, q2) := iexec step p' s2 (tl gaps) in Ok (s3r, q1 ++ q2)
      | UB k => UB k
      | OutOfFuel => OutOfFuel
      end
  end.
(* the handler's calls run to completion *)
Fixpoint irun {S O R} (step : S -> O -> outcome (S * R)) (main : O -> prog S R) (s : S) (h : list (icall O)) : outcome (S * list R * list R) :=
  match h with
  | [] => Ok (s, [], [])
  | Irq i :: h' =>
      let* (s1, q) := step s i in
      let* (p, qs) := irun step main s1 h' in Ok (fst p, snd p, q :: qs)
  | Call m gaps :: h' =>
      let* (s1r, q) := iexec step (main m) s gaps in
      let* (p, qs) := irun step main (fst s1r) h' in Ok (fst p, snd s1r :: snd p, q ++ qs)
  end.

Definition total {S O R} (step : S -> O -> S * R) (s : S) (o : O) : outcome (S * R) := Ok (step s o).

(* Toggler, debouncer.hh lines 4-9 and 18-97: the flags are separate bools *)
Definition put_high (b : bool) (t : toggler) : toggler := Tog b (got_rise t) (got_fall t).
Definition put_rise (b : bool) (t : toggler) : toggler := Tog (is_high t) b (got_fall t).
Definition put_fall (b : bool) (t : toggler) : toggler := Tog (is_high t) (got_rise t) b.
Definition assign {R} (f : toggler -> toggler) (k : prog toggler R) : prog toggler R := Acc (fun t => Ok (f t, k)).
(* TogglerCompact, debouncer_compact.hh lines 5-10: bit-fields of one byte, so an assignment loads
   the byte and then stores it *)
Definition bit_assign {R} (f : toggler -> toggler) (k : prog toggler R) : prog toggler R :=
  Acc (fun t => Ok (t, Acc (fun _ => Ok (f t, k)))).
(* lines 18-97 of debouncer.hh, lines 19-94 of debouncer_compact.hh *)
Definition tog_prog (set : (toggler -> toggler) -> prog toggler bool -> prog toggler bool) (o : top) : prog toggler bool :=
  match o with
  | TPressed => Acc (fun t => Ok (t, if got_rise t then set (put_rise false) (Ret true) else Ret false))
  | TReleased => Acc (fun t => Ok (t, if got_fall t then set (put_fall false) (Ret true) else Ret false))
  | TReg b => Acc (fun t => Ok (t, if Bool.eqb b (is_high t) then Ret false
                                   else set (put_high b) (set (if b then put_rise true else put_fall true) (Ret false))))
  | TSet b => set (put_high b) (Ret false)
  | TClear => set (put_fall false) (set (put_rise false) (Ret false))
  | TReset => set (put_high false) (set (put_fall false) (set (put_rise false) (Ret false)))
  | TRise => set (put_high true) (set (put_rise true) (set (put_fall false) (Ret false)))
  | TFall => set (put_high false) (set (put_fall true) (set (put_rise false) (Ret false)))
  end.
Definition tog_main : top -> prog toggler bool := tog_prog assign.
Definition compact_main : top -> prog toggler bool := tog_prog bit_assign.

(* transfer_events, debouncer.hh lines 111-126, from the second toggler to the first; a call on
   one toggler is atomic here *)
Definition x_step (p : toggler * toggler) (o : xop) : (toggler * toggler) * bool :=
  match o with
  | XFirst o => let (t, b) := tog_step (fst p) o in ((t, snd p), b)
  | XSecond o => let (t, b) := tog_step (snd p) o in ((fst p, t), b)
  | XTransfer => (transfer_events (fst p) (snd p), false)
  end.
Definition on_first (f : toggler -> toggler) (k : prog (toggler * toggler) bool) : prog (toggler * toggler) bool := Acc (fun p => Ok ((f (fst p), snd p), k)).
Definition on_second (f : toggler -> toggler) (k : prog (toggler * toggler) bool) : prog (toggler * toggler) bool := Acc (fun p => Ok ((fst p, f (snd p)), k)).
Definition x_main (o : xop) : prog (toggler * toggler) bool :=
  match o with
  | XTransfer =>
      let finish := on_second (put_fall false) (on_second (put_rise false) (Ret false)) in
      let level := Acc (fun p => Ok (p, on_first (put_high (is_high (snd p))) finish)) in
      Acc (fun p => Ok (p, if got_fall (snd p) then on_first (put_fall true) level
                           else Acc (fun p => Ok (p, if got_rise (snd p) then on_first (put_rise true) level else level))))
  | o => Acc (fun p => let (p', b) := x_step p o in Ok (p', Ret b))
  end.

(* RotaryMotion, rotary_motion.hh lines 8-19; += loads and stores *)
Definition rot_main (o : rop) : prog rotary Z :=
  match o with
  | RUse => Acc (fun r => Ok (r, let tmp := motion r in Acc (fun r => Ok (Rot (abs_pos r) 0, Ret tmp))))
  | RAdd d | RTransfer d =>
      Acc (fun r => let m := motion r in Ok (r, Acc (fun r =>
        let* m' := schk 32 (m + d) in Ok (Rot (abs_pos r) m', Acc (fun r => let a := abs_pos r in Ok (r, Acc (fun r =>
          let* a' := schk 32 (a + d) in Ok (Rot a' (motion r), Ret 0))))))))
  end.

(* Parameter, parameter.hh lines 56-74 and 89: setValue; isChanged followed by getValue if it is true *)
Definition par_step (s : param) (o : pop) : param * option Z :=
  match o with
  | PSet x => (fst (pa_step s (VSet x)), None)
  | PPoll => let (s', c) := pa_step s VChanged in (s', if c then Some (pa_val s') else None)
  end.
Definition par_main (o : pop) : prog param (option Z) :=
  match o with
  | PSet x => Acc (fun s => Ok (s, if x =? pa_val s then Ret None
                                   else Acc (fun s => Ok (PA (pa_val s) true, Acc (fun s => Ok (PA x (pa_changed s), Ret None))))))
  | PPoll => Acc (fun s => Ok (s, let changeStatus := pa_changed s in Acc (fun s => Ok (PA (pa_val s) false,
               if changeStatus then Acc (fun s => Ok (s, Ret (Some (pa_val s)))) else Ret None))))
  end.
(* LatchedParam, lines 4-31 and 43-45: store_changed; did_change followed by reading val if it is true *)
Definition lat_step (num denom : Z) (s : latch) (o : pop) : latch * option Z :=
  match o with
  | PSet x => (fst (lp_step num denom s (LStore x)), None)
  | PPoll => let (s', c) := lp_step num denom s LDid in (s', if c then Some (lp_val s') else None)
  end.
Definition lat_main (num denom : Z) (o : pop) : prog latch (option Z) :=
  match o with
  | PSet x => Acc (fun s =>
      let d := if x >=? lp_val s then x - lp_val s else lp_val s - x in
      Ok (s, if d >=? min_change num denom then Acc (fun s => Ok (LP x (lp_changed s), Acc (fun s => Ok (LP (lp_val s) true, Ret None)))) else Ret None))
  | PPoll => Acc (fun s => Ok (s, if lp_changed s then Acc (fun s => Ok (LP (lp_val s) false, Acc (fun s => Ok (s, Ret (Some (lp_val s)))))) else Ret None))
  end.
