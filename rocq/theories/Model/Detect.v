(* util/edge_detector.hh, util/change_detector.hh, util/parameter.hh, util/schmitt_trigger.hh. *)
From Coq Require Import Floats.SpecFloat.
From Verif.Common Require Import Base.
From Verif.Spec Require Import DetectSpec.
From Verif.Model Require Import Debouncer.

(* EdgeStateDetector, edge_detector.hh lines 3-40 *)
Record edgestate := ES { es_state : bool; es_last : bool }.
Definition es0 : edgestate := ES false false.
Definition es_step (s : edgestate) (o : eop) : edgestate * unit :=
  (match o with EUpdate b => ES b (es_state s) | EReset => ES false false end, tt).
Definition es_changed (s : edgestate) : bool := negb (Bool.eqb (es_last s) (es_state s)).
Definition es_went_high (s : edgestate) : bool := negb (es_last s) && es_state s.
Definition es_went_low (s : edgestate) : bool := es_last s && negb (es_state s).
Definition es_is_high (s : edgestate) : bool := es_state s.
Definition es_staying_high (s : edgestate) : bool := es_last s && es_state s.
Definition es_staying_low (s : edgestate) : bool := negb (es_last s) && negb (es_state s).
(* RisingEdgeDetector, FallingEdgeDetector; lines 42-62; the state is last_state_ *)
Definition rising_update (last state : bool) : bool * bool := (state, state && negb (Bool.eqb last state)).
Definition falling_update (last state : bool) : bool * bool := (state, negb state && negb (Bool.eqb last state)).

(* ChangeDetector, change_detector.hh lines 6-24 *)
Record changedet := CD { cd_last : bool; cd_changed : bool }.
Definition cd0 : changedet := CD false false.
Definition cd_step (s : changedet) (o : vop bool) : changedet * bool :=
  match o with
  | VSet b => (if negb (Bool.eqb (cd_last s) b) then CD b true else s, false)
  | VChanged => if cd_changed s then (CD (cd_last s) false, true) else (s, false)
  end.

(* LatchedParam<int or unsigned>, parameter.hh lines 4-45, over values whose differences do not
   overflow (MathTools::abs_diff, math.hh lines 175-178); min_change is an integer quotient, line 6 *)
Record latch := LP { lp_val : Z; lp_changed : bool }.
Definition lp0 : latch := LP 0 false.
Definition min_change (num denom : Z) : Z := num / denom.
Definition lp_step (num denom : Z) (s : latch) (o : lop) : latch * bool :=
  match o with
  | LStore x =>
      let d := if x >=? lp_val s then x - lp_val s else lp_val s - x in
      if d >=? min_change num denom then (LP x true, true) else (s, false)
  | LDid => if lp_changed s then (LP (lp_val s) false, true) else (s, false)
  | LAssign x => (LP x (lp_changed s), false)
  end.

(* Parameter<T>, lines 47-90, T an integer type; [changed] starts true, line 89 *)
Record param := PA { pa_val : Z; pa_changed : bool }.
Definition pa_init (v : Z) : param := PA v true.
Definition pa_step (s : param) (o : vop Z) : param * bool :=
  match o with
  | VSet x => (if negb (x =? pa_val s) then PA x true else s, false)
  | VChanged => (PA (pa_val s) false, pa_changed s)
  end.
(* RefParameter<T>, lines 92-129: the first field is the variable referred to, which setValue
   and everyone else may write *)
Record refparam := RP { rp_var : Z; rp_last : Z }.
Definition rp_init (v : Z) : refparam := RP v 0.
Definition rp_step (s : refparam) (o : vop Z) : refparam * bool :=
  match o with
  | VSet x => (RP x (rp_last s), false)
  | VChanged => if rp_var s =? rp_last s then (s, false) else (RP (rp_var s) (rp_var s), true)
  end.

(* SchmittTrigger, schmitt_trigger.hh lines 7-25, with the events of Toggler *)
Definition st_process (low high : spec_float) (t : toggler) (val : spec_float) : toggler :=
  if negb (is_high t) && SFltb high val then register_rising_edge t
  else if is_high t && SFltb val low then register_falling_edge t
  else t.
Definition st_step (low high : spec_float) (t : toggler) (o : sop) : toggler * bool :=
  match o with
  | SSample v => (st_process low high t v, false)
  | SPressed => is_just_pressed t
  | SReleased => is_just_released t
  end.
(* RisingSchmittTrigger::update, lines 38-49; the state is last_state_ *)
Definition rst_update (low high : spec_float) (last : bool) (val : spec_float) : bool * bool :=
  if negb last && SFltb high val then (true, true)
  else if last && SFltb val low then (false, false)
  else (last, false).
