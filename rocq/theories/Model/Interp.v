(* util/interp_param.hh and util/filtered_interp_array.hh. *)
From Verif.Common Require Import Base.
From Verif.Spec Require Import InterpSpec.

(* The arithmetic of T is a parameter: exact, single precision or integer. *)
Section Params.
Context {A : Type} (add sub div : A -> A -> A) (of_int : Z -> A).
(* InterpParam, interp_param.hh lines 3-29: cur_val and step_size *)
Record iparam := IP { ip_cur : A; ip_step : A }.
Definition ip_set (num_updates : Z) (p : iparam) (new_val : A) : iparam :=
  let d := sub new_val (ip_cur p) in
  IP (ip_cur p) (div d (of_int num_updates)).
Definition ip_next (p : iparam) : iparam * A :=
  let c := add (ip_cur p) (ip_step p) in
  (IP c (ip_step p), c).

(* InterpParamVar, lines 31-65 *)
Record ivar := IV { iv_cur : A; iv_target : A; iv_step : A }.
Definition iv0 : ivar := IV (of_int 0) (of_int 0) (of_int 0).
Definition iv_set (p : ivar) (new_val : A) (num_updates : Z) : ivar :=
  IV (iv_cur p) new_val
     (if num_updates >? 0 then div (sub new_val (iv_cur p)) (of_int num_updates) else iv_step p).
Definition iv_next (p : ivar) : ivar * A :=
  let c := add (iv_cur p) (iv_step p) in
  (IV c (iv_target p) (iv_step p), c).
Definition iv_snap (p : ivar) : ivar * A := (IV (iv_target p) (iv_target p) (iv_step p), iv_target p).

(* FilteredInterpArray, filtered_interp_array.hh lines 16-72; [fstep] is Filter::add_val; a lane
   is an interpolator with its filter *)
Context {F : Type} (fstep : F -> A -> F * A).
Record fia := FIA { fi_lanes : list (ivar * F); fi_ready : bool; fi_count : Z; fi_num : Z }.
Definition fia0 (N : Z) (f0 : F) : fia := FIA (zrepeat (iv0, f0) N) false 0 256.
(* lines 34-36 *)
Fixpoint fi_readings (i : Z) (lanes : list (ivar * F)) (read_fn : Z -> A) (num : Z) : list (ivar * F) :=
  match lanes with
  | [] => []
  | (p, f) :: r =>
      let (f', v) := fstep f (read_fn i) in
      (iv_set p v num, f') :: fi_readings (i + 1) r read_fn num
  end.
(* lines 20-71; the result is the list of values passed to output_fn *)
Definition fi_step (s : fia) (o : iop A) : fia * list A :=
  match o with
  | IMark => (FIA (fi_lanes s) true (fi_count s) (fi_num s), [])
  | IAdd read_fn =>
      if fi_ready s then
        let num := if fi_count s >? 0 then fi_count s else fi_num s in
        (FIA (fi_readings 0 (fi_lanes s) read_fn num) false 0 num, [])
      else (s, [])
  | IGet =>
      let count := word 32 (fi_count s + 1) in
      let rs := if count >=? fi_num s then map (fun l => (iv_snap (fst l), snd l)) (fi_lanes s)
                else map (fun l => (iv_next (fst l), snd l)) (fi_lanes s) in
      (FIA (map (fun r => (fst (fst r), snd r)) rs) (fi_ready s) count (fi_num s), map (fun r => snd (fst r)) rs)
  | ISetNum n => (FIA (fi_lanes s) (fi_ready s) (fi_count s) n, [])
  end.
End Params.
Arguments IP {A}. Arguments ip_cur {A}. Arguments ip_step {A}.
Arguments IV {A}. Arguments iv_cur {A}. Arguments iv_target {A}. Arguments iv_step {A}.
Arguments FIA {A F}. Arguments fi_lanes {A F}. Arguments fi_ready {A F}. Arguments fi_count {A F}. Arguments fi_num {A F}.

(* InterpParam<T> for integers: int (line 12-13: d / num_updates truncates; signed overflow is
   undefined and excluded in the theorem) and unsigned (wraps, num_updates converts to unsigned) *)
Definition int_set := ip_set Z.sub Z.quot (fun n => n).
Definition int_next := ip_next Z.add.
Definition uint_set := ip_set (fun a b => word 32 (a - b)) Z.div (fun n => n).
Definition uint_next := ip_next (fun a b => word 32 (a + b)).
(* InterpParamVariable<int>::set_new_value, lines 76-80 *)
Definition ivariable_set (num_updates cur new_val : Z) : outcome Z :=
  if num_updates =? 0 then UB DivByZero else Ok (Z.quot (new_val - cur) num_updates).

(* add_new_readings (lines 27-39) against mark_new_data_ready (lines 20-22), one access of shared
   memory per step.  The producer stores version v of every reading and then the flag; [hs_marked] is the last
   version whose flag store is done.  [hs_read] is, per lane, the version last passed to
   set_new_value. *)
Inductive cpc := CIdle | CClear | CReading (i : Z).
Record hand := HS { hs_data : Z; hs_marked : Z; hs_flag : bool; hs_pc : cpc; hs_read : list Z; hs_writing : bool }.
Definition hand0 (N : Z) : hand := HS 0 0 false CIdle (zrepeat 0 N) false.
Definition hand_step (N : Z) (s : hand) (a : actor) : outcome hand :=
  match a with
  | Producer =>
      Ok (if hs_writing s then HS (hs_data s) (hs_data s) true (hs_pc s) (hs_read s) false
          else HS (hs_data s + 1) (hs_marked s) (hs_flag s) (hs_pc s) (hs_read s) true)
  | Consumer =>
      match hs_pc s with
      | CIdle => Ok (HS (hs_data s) (hs_marked s) (hs_flag s) (if hs_flag s then CClear else CIdle) (hs_read s) (hs_writing s))
      | CClear => Ok (HS (hs_data s) (hs_marked s) false (if 0 <? N then CReading 0 else CIdle) (hs_read s) (hs_writing s))
      | CReading i =>
          let* l := wr (hs_read s) i (hs_data s) in
          Ok (HS (hs_data s) (hs_marked s) (hs_flag s) (if i + 1 <? N then CReading (i + 1) else CIdle) l (hs_writing s))
      end
  end.
Fixpoint hand_run (N : Z) (s : hand) (l : list actor) : outcome hand :=
  match l with [] => Ok s | a :: r => let* s' := hand_step N s a in hand_run N s' r end.
