(* What every call of CircularBufferAccess does to the buffer and the two positions. *)
From Verif.Common Require Import Base.
From Verif.Model Require Import CircularExt.
From Verif.Spec Require Import AccessSpec.

Section Calls.
Context {T : Type} (mix : T -> T -> T) (zero : T).
(** [ds] are the [n] elements at the read position and then in direction [dir], and the read position
    has moved by [n] in this direction, cyclically; nothing else has changed. *)
Definition reads_block (dir : Z) (s s' : acc T) (n : Z) (ds : list T) : Prop :=
  s' = Acc (a_buf s) (a_sz s) ((a_rd s + dir * n) mod a_sz s) (a_wr s) /\
  map Some ds = ztab n (fun i => znth (a_buf s) ((a_rd s + dir * i) mod a_sz s)).
(** The position [p] comes up among the first [n] from position [from] in direction [dir]. *)
Definition passes (sz dir from n p : Z) : Prop := exists i, 0 <= i < n /\ (from + dir * i) mod sz = p mod sz.
Definition acc_rel (s : acc T) (o : aop T) (r : aout T) (s' : acc T) : Prop :=
  let sz := a_sz s in
  match o with
  | ARead n => exists ds, r = AData ds (sz <=? a_rd s + n) /\ reads_block 1 s s' n ds
  | AReadRev n => exists ds, r = AData ds (a_rd s - n <? 0) /\ reads_block (-1) s s' n ds
  | AWrite d => r = AFlag (sz <=? a_wr s + zlen d) /\ writes_block mix 1 s s' d
  | AWriteRev d => r = AFlag (a_wr s - zlen d <? 0) /\ writes_block mix (-1) s s' d
  | AReadCheck n m => exists ds b, r = AData ds b /\ reads_block 1 s s' n ds /\ (n <= sz -> 0 <= m < sz -> (b = true <-> passes sz 1 (a_rd s) n m))
  | AReadRevCheck n m => exists ds b, r = AData ds b /\ reads_block (-1) s s' n ds /\ (n <= sz -> 0 <= m < sz -> (b = true <-> passes sz (-1) (a_rd s) n (m + 1)))
  | AWriteCheck d m => exists b, r = AFlag b /\ writes_block mix 1 s s' d /\ (zlen d <= sz -> 0 <= m <= sz -> (b = true <-> passes sz 1 (a_wr s) (zlen d) (m - 1)))
  | AClear => r = ANone /\ s' = Acc (zrepeat zero sz) sz (a_rd s) (a_wr s)
  | ASetRd p => r = ANone /\ s' = Acc (a_buf s) sz p (a_wr s)
  | ASetWr p => r = ANone /\ s' = Acc (a_buf s) sz (a_rd s) p
  | AGetRd => r = APos (a_rd s) /\ s' = s
  | AGetWr => r = APos (a_wr s) /\ s' = s
  end.
End Calls.
