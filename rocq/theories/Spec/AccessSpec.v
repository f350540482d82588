(* What CircularBufferAccess is required to do, in terms of buffer contents and
   the two positions only. *)
From Verif.Common Require Import Base.
From Verif.Model Require Import CircularExt.

(** The size is that of the buffer, fits size_t, and both positions are inside. *)
Definition acc_ok {T} (W : Z) (s : acc T) : Prop :=
  a_sz s = zlen (a_buf s) /\ 0 < a_sz s < 2 ^ W /\ 0 <= a_rd s < a_sz s /\ 0 <= a_wr s < a_sz s.

(** [s'] is [s] after storing [data] at wr_pos, wr_pos+dir, ... cyclically.  A slot
    stored once holds [mix new old]; with a [mix] that ignores the old value a block
    longer than the buffer leaves its last elements; no other slot changes. *)
Definition writes_block {T} (mix : T -> T -> T) (dir : Z) (s s' : acc T) (data : list T) : Prop :=
  zlen (a_buf s') = zlen (a_buf s) /\ a_sz s' = a_sz s /\ a_rd s' = a_rd s /\
  a_wr s' = (a_wr s + dir * zlen data) mod a_sz s /\
  (zlen data <= a_sz s -> forall i d old, znth data i = Some d ->
     znth (a_buf s) ((a_wr s + dir * i) mod a_sz s) = Some old ->
     znth (a_buf s') ((a_wr s + dir * i) mod a_sz s) = Some (mix d old)) /\
  ((forall d o, mix d o = d) -> forall i d, znth data i = Some d -> zlen data - a_sz s <= i ->
     znth (a_buf s') ((a_wr s + dir * i) mod a_sz s) = Some d) /\
  (forall j, 0 <= j < a_sz s -> (forall i, 0 <= i < zlen data -> (a_wr s + dir * i) mod a_sz s <> j) ->
     znth (a_buf s') j = znth (a_buf s) j).

(** Positions set by the caller must be inside; block lengths are natural numbers. *)
Definition op_pos_ok {T} (sz : Z) (o : aop T) : Prop :=
  match o with
  | ASetRd p | ASetWr p => 0 <= p < sz
  | ARead n | AReadRev n | AReadCheck n _ | AReadRevCheck n _ => 0 <= n
  | _ => True
  end.
