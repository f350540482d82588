(* C162: arguments that refer into the object they are given to. *)
From Verif.Common Require Import Base.
From Verif.Spec Require Import BinarySpec StaticStringSpec.
From Verif.Model Require Import CompactBinary Maps OwnBuffer.
From Verif.Proofs Require OwnBuffer.

(** C162.  raw(key, data) of the compact binary writer, where data is the [n] bytes
    from offset [a] of the very buffer being written.  If they lie entirely before
    the write position, or start behind the record's key and size fields, the
    record written is the one for the bytes as they were before the call, clipped
    to the buffer; nothing else changes and size() grows by the whole record. *)
Theorem C162_raw_of_own_buffer :
  forall (W : Z) (KW SW : nat) (arr sgn : bool) (s : writer) (k : list Z) (a : Z) (n : nat),
    (0 < SW)%nat -> key_ok KW arr k -> 0 <= w_pos s -> 0 <= a -> a + Z.of_nat n <= zlen (w_buf s) ->
    w_pos s + (Z.of_nat KW + Z.of_nat SW) + Z.of_nat n < 2 ^ W ->
    (a + Z.of_nat n <= w_pos s \/ w_pos s + (Z.of_nat KW + Z.of_nat SW) <= a) ->
    exists b,
      w_raw_own W KW SW arr sgn s k a n =
        Ok (Writer b (w_pos s + (Z.of_nat KW + Z.of_nat SW) + Z.of_nat n) (w_stack s) (w_depth s)) /\
      zlen b = zlen (w_buf s) /\
      (forall i, i < w_pos s \/ w_pos s + (Z.of_nat KW + Z.of_nat SW) + Z.of_nat n <= i -> znth b i = znth (w_buf s) i) /\
      (forall i, 0 <= i < Z.of_nat KW + Z.of_nat SW + Z.of_nat n -> w_pos s + i < zlen (w_buf s) ->
         znth b (w_pos s + i) =
         znth (record SW (stored_key KW arr k) (firstn n (skipn (Z.to_nat a) (w_buf s)))) i).
Proof. intros. apply OwnBuffer.writer_own_record; assumption. Qed.
Print Assumptions C162_raw_of_own_buffer.

(** The same for the SpanWriter given to a serializer's description. *)
Theorem C162_span_raw_of_own_buffer :
  forall (W : Z) (KW SW : nat) (arr sgn : bool) (buf : list Z) (pos : Z) (k : list Z) (a : Z) (n : nat),
    (0 < SW)%nat -> key_ok KW arr k -> 0 <= pos -> 0 <= a -> a + Z.of_nat n <= zlen buf ->
    pos + (Z.of_nat KW + Z.of_nat SW) + Z.of_nat n < 2 ^ W ->
    (a + Z.of_nat n <= pos \/ pos + (Z.of_nat KW + Z.of_nat SW) <= a) ->
    exists b,
      span_raw_own W KW SW arr sgn (buf, pos) k a n = Ok (b, pos + (Z.of_nat KW + Z.of_nat SW) + Z.of_nat n) /\
      zlen b = zlen buf /\
      (forall i, i < pos \/ pos + (Z.of_nat KW + Z.of_nat SW) + Z.of_nat n <= i -> znth b i = znth buf i) /\
      (forall i, 0 <= i < Z.of_nat KW + Z.of_nat SW + Z.of_nat n -> pos + i < zlen buf ->
         znth b (pos + i) = znth (record SW (stored_key KW arr k) (firstn n (skipn (Z.to_nat a) buf))) i).
Proof. intros. apply OwnBuffer.own_record; assumption. Qed.
Print Assumptions C162_span_raw_of_own_buffer.

(** Otherwise (the bytes start before the end of the fields; in particular if they
    straddle the write position) the data written is not the given bytes: every
    data byte that fits repeats the byte that lies [pos + KW + SW - a] before it in
    the finished buffer, so that bytes of the record's own key and size are copied
    into its data.  Nothing outside the record changes in this case either. *)
Theorem C162_raw_of_overlapping_bytes_refuted :
  forall (W : Z) (KW SW : nat) (arr sgn : bool) (s : writer) (k : list Z) (a : Z) (n : nat),
    (0 < SW)%nat -> key_ok KW arr k -> 0 <= w_pos s -> 0 <= a < w_pos s + (Z.of_nat KW + Z.of_nat SW) ->
    a + Z.of_nat n <= zlen (w_buf s) -> w_pos s + (Z.of_nat KW + Z.of_nat SW) + Z.of_nat n < 2 ^ W ->
    exists b,
      w_raw_own W KW SW arr sgn s k a n =
        Ok (Writer b (w_pos s + (Z.of_nat KW + Z.of_nat SW) + Z.of_nat n) (w_stack s) (w_depth s)) /\
      zlen b = zlen (w_buf s) /\
      (forall i, i < w_pos s \/ w_pos s + (Z.of_nat KW + Z.of_nat SW) + Z.of_nat n <= i -> znth b i = znth (w_buf s) i) /\
      (forall i, 0 <= i < Z.of_nat KW + Z.of_nat SW -> w_pos s + i < zlen (w_buf s) ->
         znth b (w_pos s + i) = znth (stored_key KW arr k ++ le SW (Z.of_nat n)) i) /\
      (forall i, w_pos s + (Z.of_nat KW + Z.of_nat SW) <= i < w_pos s + (Z.of_nat KW + Z.of_nat SW) + Z.of_nat n ->
         i < zlen (w_buf s) -> znth b i = znth b (i - (w_pos s + (Z.of_nat KW + Z.of_nat SW) - a))).
Proof. intros. apply OwnBuffer.writer_own_header; assumption. Qed.
Print Assumptions C162_raw_of_overlapping_bytes_refuted.

(** copy(view) of a string of capacity [cap], where the view is a part of its own
    text, leaves exactly that part as the text. *)
Theorem C162_copy_of_own_text :
  forall (cap : Z) (d t : list Z) (off : Z) (n : nat),
    0 < cap -> zlen d = cap + 1 -> cstring d = Some t -> 0 <= off -> off + Z.of_nat n <= zlen t ->
    exists d', copy_sv_self cap n 0 off d = Ok d' /\ zlen d' = cap + 1 /\
               cstring d' = Some (firstn n (skipn (Z.to_nat off) t)).
Proof. exact OwnBuffer.copy_own. Qed.
Print Assumptions C162_copy_of_own_text.

(** insert and overwrite of the sequential map, given a reference to a value stored
    in the map (whatever slot it is in, even the one that is evicted), act as if
    given a separate copy of that value. *)
Theorem C162_stored_value_as_argument :
  forall (K V : Type) (keq : K -> K -> bool) (N : Z) (s : seqmap K V) (k : K) (j : Z) (v : V),
    znth (q_vals s) j = Some v ->
    q_insert_own N s k j = q_insert N s k v /\ q_overwrite_own keq N s k j = q_overwrite keq N s k v.
Proof. intros. split; [apply OwnBuffer.insert_own|apply OwnBuffer.overwrite_own]; assumption. Qed.
Print Assumptions C162_stored_value_as_argument.

(** printRaw(p, n) of a ByteBlock, where p points to byte [i] of the block's own data.  As long as at most
    one more byte is added than the vector has room for, the [n] bytes are appended as they were before
    the call; otherwise the vector moves before the last byte is read and the call reads freed memory,
    however the vector grows. *)
Theorem C162_print_own_bytes :
  forall (grow : Z -> Z) (n : nat) (i : Z) (data : list Z) (cap : Z),
    0 <= i -> i + Z.of_nat n <= zlen data -> zlen data <= cap ->
    (zlen data + Z.of_nat n <= cap + 1 ->
       exists cap', bb_raw_own grow n i false data cap = Ok (data ++ firstn n (skipn (Z.to_nat i) data), cap') /\
         (zlen data + Z.of_nat n <= cap -> cap' = cap) /\ (cap < zlen data + Z.of_nat n -> cap' = grow cap)) /\
    (cap + 1 < zlen data + Z.of_nat n -> bb_raw_own grow n i false data cap = UB BadDeref).
Proof. intros. split; intros; [apply OwnBuffer.raw_own_ok|apply OwnBuffer.raw_own_moved]; assumption. Qed.
Print Assumptions C162_print_own_bytes.

Example C162_hypotheses_met :
  let s := Writer [1; 2; 3; 4; 5; 6; 7; 8; 9; 10] 3 [] 0 in
  key_ok 1 false [77] /\
  w_raw_own 32 1 1 false false s [77] 0 3 = Ok (Writer [1; 2; 3; 77; 3; 1; 2; 3; 9; 10] 8 [] 0) /\
  w_raw_own 32 1 1 false false s [77] 7 3 = Ok (Writer [1; 2; 3; 77; 3; 8; 9; 10; 9; 10] 8 [] 0) /\
  w_raw_own 32 1 1 false false s [77] 3 4 = Ok (Writer [1; 2; 3; 77; 4; 77; 4; 77; 4; 10] 9 [] 0) /\
  copy_sv_self 5 2 0 2 [65; 66; 67; 68; 0; 0] = Ok [67; 68; 0; 68; 0; 0] /\
  cstring [65; 66; 67; 68; 0; 0] = Some [65; 66; 67; 68] /\
  q_overwrite_own Z.eqb 2 (SeqMap [5; 6] [50; 60] 2 0) 7 0 = Ok (SeqMap [7; 6] [50; 60] 2 1, 50) /\
  bb_raw_own (Z.mul 2) 2 0 false [1; 2; 3] 4 = Ok ([1; 2; 3; 1; 2], 8) /\
  bb_raw_own (Z.mul 2) 3 0 false [1; 2; 3] 4 = UB BadDeref.
Proof. vm_compute. repeat split. Qed.
