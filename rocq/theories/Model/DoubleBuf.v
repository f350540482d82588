(* Model of util/doublebuf_stream.hh (DoubleBufferStream<T, Size>), on top of the
   FixedVector model.  The user-supplied transmit_func is an oracle: each call
   carries the answer the hardware would give ([hw]); its argument is recorded. *)
From Verif.Common Require Import Base.
From Verif.Spec Require Import VectorSpec StreamSpec.
From Verif.Model Require Import FixedVector.

Section DBS.
Context {T : Type}.
Variables (size : Z) (dflt : T).

(* doublebuf_stream.hh:36-39 *)
Record dbs := DBS { tx : list (fvec T); in_progress : option Z }.

(* doublebuf_stream.hh:36-37, 41-43 *)
Definition dbs_init : dbs := DBS [fv_init size dflt []; fv_init size dflt []] None.

(* start_tx: doublebuf_stream.hh:92-98 *)
Definition start_tx (s : dbs) (idx : Z) (hw : bool) : outcome (dbs * bool * list T) :=
  let* b := rd (tx s) idx in
  Ok (DBS (tx s) (Some idx), hw, fv_contents b).

(* for (auto d : word) inactive_buf.push_back(d): doublebuf_stream.hh:51-52 *)
Fixpoint push_all (b : fvec T) (w : list T) : outcome (fvec T) :=
  match w with
  | [] => Ok b
  | d :: r => let* (b', _) := fv_push size b d in push_all b' r
  end.

(* transmit: doublebuf_stream.hh:46-68 *)
Definition transmit (s : dbs) (w : list T) (hw : bool) : outcome (dbs * dout T) :=
  let inactive := 1 - match in_progress s with Some i => i | None => 1 end in
  let* b := rd (tx s) inactive in
  if fv_available size b >=? zlen w then
    let* b' := push_all b w in
    let* t := wr (tx s) inactive b' in
    let s1 := DBS t (in_progress s) in
    match in_progress s1 with
    | None => let* (s2, res, data) := start_tx s1 inactive hw in Ok (s2, (Some res, Some data))
    | Some _ => Ok (s1, (Some true, None))
    end
  else Ok (s, (Some false, None)).

(* tx_done_callback: doublebuf_stream.hh:70-89 *)
Definition tx_done (s : dbs) (hw : bool) : outcome (dbs * dout T) :=
  match in_progress s with
  | None => Ok (s, (None, None))
  | Some i =>
      let* b := rd (tx s) i in
      let* t := wr (tx s) i (fv_clear b) in
      let s1 := DBS t (in_progress s) in
      let other := 1 - i in
      let* ob := rd (tx s1) other in
      if negb (v_n ob =? 0) then
        let* (s2, _, data) := start_tx s1 other hw in Ok (s2, (None, Some data))
      else Ok (DBS t None, (None, None))
  end.

Definition dbs_step (s : dbs) (o : dop T) : outcome (dbs * dout T) :=
  match o with
  | DTransmit w hw => transmit s w hw
  | DDone hw => tx_done s hw
  end.
End DBS.
Arguments dbs : clear implicits.
