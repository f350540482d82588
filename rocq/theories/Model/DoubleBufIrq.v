(* util/doublebuf_stream.hh: tx_done_callback interrupting transmit, which the header warns about
   (lines 23-26). *)
From Verif.Common Require Import Base.
From Verif.Spec Require Import StreamSpec.
From Verif.Model Require Import FixedVector DoubleBuf.

Section Irq.
Context {T : Type}.
Variable size : Z.
(* transmit of the word [before ++ after], lines 46-68, with the callback (lines 70-89) running
   after the elements [before] have been pushed and before the elements [after] are.  The index
   and the reference to the inactive buffer (lines 47-48) are not taken again.  Gives the state,
   the result of the callback and the result of transmit.  Interruptions inside push_back or
   start_tx are not modelled. *)
Definition interrupted (s : dbs T) (before after : list T) (hw : bool) : outcome (dbs T * dout T * dout T) :=
  let inactive := 1 - match in_progress s with Some i => i | None => 1 end in
  let* b := rd (tx s) inactive in
  if fv_available size b >=? zlen (before ++ after) then
    let* b1 := push_all size b before in
    let* t1 := wr (tx s) inactive b1 in
    let* (s1, irq) := tx_done (DBS t1 (in_progress s)) hw in
    let* b2 := rd (tx s1) inactive in
    let* b3 := push_all size b2 after in
    let* t2 := wr (tx s1) inactive b3 in
    let s2 := DBS t2 (in_progress s1) in
    match in_progress s2 with
    | None => let* (s3, res, data) := start_tx s2 inactive hw in Ok (s3, irq, (Some res, Some data))
    | Some _ => Ok (s2, irq, (Some true, None))
    end
  else
    let* (s1, irq) := tx_done s hw in Ok (s1, irq, (Some false, None)).
End Irq.
