(* util/doublebuf_stream.hh: the hardware function (std::function, line 39) calls transmit and
   tx_done_callback of the same object before it returns. *)
From Verif.Common Require Import Base.
From Verif.Spec Require Import StreamSpec ReentrySpec.
From Verif.Model Require Import FixedVector DoubleBuf.

Section Reentry.
Context {T : Type}.
Variable size : Z.
(* start_tx, lines 92-98: [callee] is what transmit_func does to the object; it returns true.  Gives the
   state, what transmit_func was given and what its calls returned. *)
Definition start_tx_r (s : dbs T) (idx : Z) (callee : dbs T -> outcome (dbs T * list (dout T))) : outcome (dbs T * list T * list (dout T)) :=
  let s1 := DBS (tx s) (Some idx) in
  let* b := rd (tx s1) idx in
  let data := fv_contents b in
  let* (s2, outs) := callee s1 in
  Ok (s2, data, outs).
(* transmit, lines 46-68; the results of the calls in the order in which they begin *)
Definition transmit_r (s : dbs T) (w : list T) (callee : dbs T -> outcome (dbs T * list (dout T))) : outcome (dbs T * list (dout T)) :=
  let inactive := 1 - match in_progress s with Some i => i | None => 1 end in
  let* b := rd (tx s) inactive in
  if fv_available size b >=? zlen w then
    let* b' := push_all size b w in
    let* t := wr (tx s) inactive b' in
    let s1 := DBS t (in_progress s) in
    match in_progress s1 with
    | None => let* (s2, data, outs) := start_tx_r s1 inactive callee in Ok (s2, (Some true, Some data) :: outs)
    | Some _ => Ok (s1, [(Some true, None)])
    end
  else Ok (s, [(Some false, None)]).
(* tx_done_callback, lines 70-89 *)
Definition tx_done_r (s : dbs T) (callee : dbs T -> outcome (dbs T * list (dout T))) : outcome (dbs T * list (dout T)) :=
  match in_progress s with
  | None => Ok (s, [(None, None)])
  | Some i =>
      let* b := rd (tx s) i in
      let* t := wr (tx s) i (fv_clear b) in
      let s1 := DBS t (in_progress s) in
      let other := 1 - i in
      let* ob := rd (tx s1) other in
      if negb (v_n ob =? 0) then
        let* (s2, data, outs) := start_tx_r s1 other callee in Ok (s2, (None, Some data) :: outs)
      else Ok (DBS t None, [(None, None)])
  end.
Fixpoint call (o : rop T) (s : dbs T) {struct o} : outcome (dbs T * list (dout T)) :=
  let inner := (fix go l s := match l with
    | [] => Ok (s, [])
    | o :: l' => let* (s1, a) := call o s in let* (s2, b) := go l' s1 in Ok (s2, a ++ b)
    end) in
  match o with
  | RTransmit w l => transmit_r s w (inner l)
  | RDone l => tx_done_r s (inner l)
  end.
Fixpoint calls (l : list (rop T)) (s : dbs T) : outcome (dbs T * list (dout T)) :=
  match l with
  | [] => Ok (s, [])
  | o :: l' => let* (s1, a) := call o s in let* (s2, b) := calls l' s1 in Ok (s2, a ++ b)
  end.
End Reentry.
