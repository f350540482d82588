(* util/debouncer.hh and util/debouncer_compact.hh. *)
From Verif.Common Require Import Base.
From Verif.Spec Require Import ButtonSpec.

(* Toggler, debouncer.hh lines 4-16; TogglerCompact (debouncer_compact.hh lines 5-17) keeps the
   same three flags in bit-fields *)
Record toggler := Tog { is_high : bool; got_rise : bool; got_fall : bool }.
Definition tog0 : toggler := Tog false false false.

(* lines 18-97; compact lines 19-94 *)
Definition clear_events (t : toggler) : toggler := Tog (is_high t) false false.
Definition reset (t : toggler) : toggler := clear_events (Tog false (got_rise t) (got_fall t)).
Definition is_just_pressed (t : toggler) : toggler * bool :=
  if got_rise t then (Tog (is_high t) false (got_fall t), true) else (t, false).
Definition is_just_released (t : toggler) : toggler * bool :=
  if got_fall t then (Tog (is_high t) (got_rise t) false, true) else (t, false).
Definition register_rising_edge (t : toggler) : toggler := Tog true true false.
Definition register_falling_edge (t : toggler) : toggler := Tog false false true.
Definition register_state (t : toggler) (newstate : bool) : toggler :=
  if Bool.eqb newstate (is_high t) then t
  else if newstate then Tog newstate true (got_fall t) else Tog newstate (got_rise t) true.
Definition set_state_no_events (t : toggler) (x : Z) : toggler := Tog (negb (x =? 0)) (got_rise t) (got_fall t).
(* copy_state, update_state, transfer_events; lines 99-126, compact lines 96-123 *)
Definition copy_state (t other : toggler) : toggler := Tog (is_high other) (got_rise other) (got_fall other).
Definition update_state (t other : toggler) : toggler :=
  let t := if got_fall other then Tog (is_high t) (got_rise t) true
           else if got_rise other then Tog (is_high t) true (got_fall t) else t in
  Tog (is_high other) (got_rise t) (got_fall t).
(* the new states of *this and of other *)
Definition transfer_events (t other : toggler) : toggler * toggler := (update_state t other, clear_events other).

(* one call and what it returns (false when it returns nothing) *)
Definition tog_step (t : toggler) (o : top) : toggler * bool :=
  match o with
  | TReg b => (register_state t b, false)
  | TPressed => is_just_pressed t
  | TReleased => is_just_released t
  | TSet b => (set_state_no_events t (if b then 1 else 0), false)
  | TClear => (clear_events t, false)
  | TReset => (reset t, false)
  | TRise => (register_rising_edge t, false)
  | TFall => (register_falling_edge t, false)
  end.

(* TogglerCounter, lines 129-159: samples are unsigned and compared with the flag as a number *)
Record tcounter := TC { tc_tog : toggler; tc_steady : Z }.
Definition tc0 : tcounter := TC tog0 0.
Definition tc_register (t : tcounter) (newstate : Z) : tcounter :=
  if newstate =? (if is_high (tc_tog t) then 1 else 0) then TC (tc_tog t) (word 32 (tc_steady t + 1))
  else
    let b := negb (newstate =? 0) in
    TC (if b then Tog b true (got_fall (tc_tog t)) else Tog b (got_rise (tc_tog t)) true) 0.

(* Debouncer, lines 163-186, and DebouncerCounter, lines 188-212, which also counts *)
Section Debouncer.
Variables (Rising Falling StateMask : Z) (DebounceRawState : bool).
Record debouncer := Deb { deb_tog : toggler; deb_state : Z; deb_steady : Z }.
Definition deb0 : debouncer := Deb tog0 0 0.
Definition deb_register (d : debouncer) (new_state : Z) : debouncer :=
  let state := Z.land (Z.lor (word 32 (Z.shiftl (deb_state d) 1)) new_state) StateMask in
  if state =? Z.land Rising StateMask then Deb (register_rising_edge (deb_tog d)) state 0
  else if state =? Z.land Falling StateMask then Deb (register_falling_edge (deb_tog d)) state 0
  else Deb (if DebounceRawState then deb_tog d else set_state_no_events (deb_tog d) new_state) state (word 32 (deb_steady d + 1)).
(* process(bool) is Toggler's: it calls Toggler::register_state, line 75 *)
Definition deb_process (d : debouncer) (b : bool) : debouncer := Deb (register_state (deb_tog d) b) (deb_state d) (deb_steady d).

(* one call and what it returns (false when it returns nothing) *)
Definition deb_step (d : debouncer) (o : dop) : debouncer * bool :=
  match o with
  | DReg b => (deb_register d (if b then 1 else 0), false)
  | DPressed => let (t, r) := is_just_pressed (deb_tog d) in (Deb t (deb_state d) (deb_steady d), r)
  | DReleased => let (t, r) := is_just_released (deb_tog d) in (Deb t (deb_state d) (deb_steady d), r)
  end.
End Debouncer.
