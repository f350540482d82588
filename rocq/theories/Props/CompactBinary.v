(* C22-C29, C86: the compact binary format. *)
From Verif.Common Require Import Base.
From Verif.Spec Require Import StaticStringSpec BinarySpec.
From Verif.Model Require Import CompactBinary.
From Verif.Proofs Require CompactBinary.

(** C22.  Any bytes, any usable key, an unsigned size field narrower than size_t: every
    lookup terminates without undefined behaviour and a node lies inside the blob. *)
Theorem C22_parser_is_safe_on_every_blob :
  forall (W : Z) (KW SW : nat) (arr : bool) (blob key : list Z) (n : nat),
    (0 < SW)%nat -> 8 * Z.of_nat SW < W -> zlen blob + 2 ^ (8 * Z.of_nat SW) <= 2 ^ (W - 1) -> key_ok KW arr key ->
    (exists r, get_size_and_offset W KW SW arr false blob key = Ok r) /\
    (exists r, get_size W KW SW arr false blob key = Ok r) /\
    (exists o, get W KW SW arr false n blob key = Ok o) /\
    (exists v, get_node W KW SW arr false blob key = Ok v /\ 0 <= fst v /\ 0 <= snd v /\ fst v + snd v <= zlen blob).
Proof. intros. apply CompactBinary.parser_safe; auto. Qed.
Print Assumptions C22_parser_is_safe_on_every_blob.
Example C22_hypotheses_met :
  (8 * Z.of_nat 2 < 32 /\ zlen [5; 0; 255; 255; 9] + 2 ^ 16 <= 2 ^ 31 /\ key_ok 2 false [5; 0]) /\
  get_node 32 2 2 false false [5; 0; 255; 255; 9] [5; 0] = Ok (0, 0) /\
  get_node 32 2 2 false false [5; 0; 1; 0; 9; 77] [5; 0] = Ok (4, 1).
Proof. vm_compute. repeat split; congruence. Qed.

(** C23.  A blob of records: lookups return the first record whose key is the given one. *)
Theorem C23_parser_returns_first_match :
  forall (W : Z) (KW SW : nat) (arr sgn : bool) (rs : list (list Z * list Z)) (key : list Z),
    0 < W -> (0 < SW)%nat -> key_ok KW arr key ->
    Forall (fun r => length (fst r) = KW /\
                     zlen (snd r) < (if sgn then 2 ^ (8 * Z.of_nat SW - 1) else 2 ^ (8 * Z.of_nat SW))) rs ->
    zlen (flat SW rs) < 2 ^ (W - 1) ->
    let found := first_record KW arr key rs in
    let bytes := match found with Some d => d | None => [] end in
    (exists v, get_node W KW SW arr sgn (flat SW rs) key = Ok v /\ view_bytes (flat SW rs) v = bytes) /\
    get_size W KW SW arr sgn (flat SW rs) key = Ok (zlen bytes) /\
    (forall n : nat, (0 < n)%nat ->
       get W KW SW arr sgn n (flat SW rs) key =
       Ok (match found with
           | Some d => if Nat.eqb (length d) n then Some d else None
           | None => None
           end)).
Proof. exact CompactBinary.parser_first_match. Qed.
Print Assumptions C23_parser_returns_first_match.
Example C23_hypotheses_met :
  let rs := [([1; 0], [10; 11]); ([2; 0], []); ([1; 0], [12]); ([3; 0], [13; 14; 15; 16])] in
  Forall (fun r => length (fst r) = 2%nat /\ zlen (snd r) < 2 ^ 16) rs /\ zlen (flat 2 rs) < 2 ^ 31 /\
  get 32 2 2 false false 4 (flat 2 rs) [3; 0] = Ok (Some [13; 14; 15; 16]) /\
  get 32 2 2 false false 1 (flat 2 rs) [1; 0] = Ok None /\
  get_size 32 2 2 false false (flat 2 rs) [1; 0] = Ok 2.
Proof. vm_compute. repeat split; repeat constructor; cbn; congruence. Qed.

(** C24.  Serializing into a large enough buffer produces the encoding, of the measured
    length; following a key path in it yields what the description has there. *)
Theorem C24_serializer_parser_round_trip :
  forall (W : Z) (KW SW : nat) (arr sgn : bool) (d : desc) (out : list Z),
    0 < W -> (0 < SW)%nat -> keys_ok KW arr d ->
    fits KW SW arr (if sgn then 2 ^ (8 * Z.of_nat SW - 1) else 2 ^ (8 * Z.of_nat SW)) d ->
    zlen (encode KW SW arr d) < 2 ^ (W - 1) -> zlen (encode KW SW arr d) <= zlen out ->
    exists blob rest,
      serialize W KW SW arr sgn out d = Ok (blob ++ rest, measure W KW SW d) /\
      measure W KW SW d = zlen blob /\
      (forall path bytes, Forall (key_ok KW arr) path -> at_path KW SW arr d path = Some bytes ->
         follow W KW SW arr sgn blob path = Ok bytes) /\
      (forall key n, key_ok KW arr key -> (0 < n)%nat ->
         get W KW SW arr sgn n blob key =
         Ok (match at_path KW SW arr d [key] with
             | Some v => if Nat.eqb (length v) n then Some v else None
             | None => None
             end)).
Proof. exact CompactBinary.round_trip. Qed.
Print Assumptions C24_serializer_parser_round_trip.
Definition sample : desc :=
  DField [7; 0] [1; 2; 3; 4] (DObject [9; 0] (DRaw [7; 0] [5] (DObject [8; 0] (DField [7; 0] [6; 7] DEnd) DEnd)) (DField [9; 0] [8] DEnd)).
Example C24_hypotheses_met :
  keys_ok 2 false sample /\ fits 2 2 false (2 ^ 16) sample /\ zlen (encode 2 2 false sample) < 2 ^ 31 /\
  at_path 2 2 false sample [[9; 0]; [8; 0]; [7; 0]] = Some [6; 7] /\
  follow 32 2 2 false false (encode 2 2 false sample) [[9; 0]; [8; 0]; [7; 0]] = Ok [6; 7] /\
  get 32 2 2 false false 4 (encode 2 2 false sample) [7; 0] = Ok (Some [1; 2; 3; 4]).
Proof. vm_compute. repeat split; congruence. Qed.

(** C25.  Any buffer length: the buffer keeps its length and receives the longest prefix of
    the encoding that fits, nothing else changes, and the count is the full length;
    streaming emits the same bytes. *)
Theorem C25_serialize_writes_a_prefix :
  forall (W : Z) (KW SW : nat) (arr sgn : bool) (d : desc) (out : list Z),
    (0 < SW)%nat -> keys_ok KW arr d -> zlen (encode KW SW arr d) < 2 ^ W ->
    let E := encode KW SW arr d in
    serialize W KW SW arr sgn out d = Ok (firstn (length out) E ++ skipn (length E) out, zlen E) /\
    length (firstn (length out) E ++ skipn (length E) out) = length out /\
    (exists chunks, stream W KW SW arr sgn d = Ok (chunks, zlen E) /\ concat chunks = E).
Proof. exact CompactBinary.serialize_prefix. Qed.
Print Assumptions C25_serialize_writes_a_prefix.
Example C25_hypotheses_met :
  keys_ok 2 false sample /\ zlen (encode 2 2 false sample) = 32 /\
  serialize 32 2 2 false false (repeat 170 6) sample = Ok ([7; 0; 4; 0; 1; 2], 32) /\
  serialize 32 2 2 false false (repeat 170 40) (DRaw [1; 2] [3] DEnd) = Ok ([1; 2; 1; 0; 3] ++ repeat 170 35, 5).
Proof. vm_compute. repeat split; congruence. Qed.

(** C26.  The back-patching writer, driven with the calls of a description nested at most
    MaxDepth deep, leaves exactly what the serializer leaves, in buffers of any length. *)
Theorem C26_writer_equals_serializer :
  forall (W : Z) (KW SW : nat) (arr sgn : bool) (MaxDepth : Z) (d : desc) (out : list Z),
    (0 < SW)%nat -> keys_ok KW arr d -> Z.of_nat (nesting d) <= MaxDepth -> MaxDepth < 2 ^ 32 ->
    zlen (encode KW SW arr d) < 2 ^ W ->
    exists s, w_run W KW SW arr sgn MaxDepth (writer_new MaxDepth out) (script d) = Ok s /\
      serialize W KW SW arr sgn out d = Ok (w_buf s, w_pos s) /\ w_pos s = measure W KW SW d /\ w_depth s = 0.
Proof. exact CompactBinary.writer_is_serializer. Qed.
Print Assumptions C26_writer_equals_serializer.
(** C26.  Deeper descriptions: the objects below MaxDepth get size 0, all else is the same. *)
Theorem C26_writer_below_max_depth :
  forall (W : Z) (KW SW : nat) (arr sgn : bool) (MaxDepth : Z) (d : desc) (out : list Z),
    (0 < SW)%nat -> 0 <= MaxDepth -> keys_ok KW arr d -> Z.of_nat (nesting d) < 2 ^ 32 ->
    zlen (encode KW SW arr d) < 2 ^ W ->
    let E := encode_to_depth KW SW arr (Z.to_nat MaxDepth) d in
    exists st, w_run W KW SW arr sgn MaxDepth (writer_new MaxDepth out) (script d)
      = Ok (Writer (firstn (length out) E ++ skipn (length E) out) (zlen (encode KW SW arr d)) st 0).
Proof. exact CompactBinary.writer_any_depth. Qed.
Print Assumptions C26_writer_below_max_depth.
(** C26.  Any calls in any order, balanced or not, stay inside the buffer and the stack. *)
Theorem C26_writer_is_safe :
  forall (W : Z) (KW SW : nat) (arr sgn : bool) (MaxDepth : Z) (out : list Z) (ops : list wop),
    0 <= W -> 0 <= MaxDepth ->
    Forall (fun o => match o with WField k _ | WRaw k _ | WBegin k => key_ok KW arr k | WEnd => True end) ops ->
    exists s, w_run W KW SW arr sgn MaxDepth (writer_new MaxDepth out) ops = Ok s /\ zlen (w_buf s) = zlen out.
Proof. exact CompactBinary.writer_safe. Qed.
Print Assumptions C26_writer_is_safe.
(** C26.  end_object without an open object changes nothing. *)
Theorem C26_unmatched_end_is_ignored :
  forall (W : Z) (KW SW : nat) (arr sgn : bool) (MaxDepth : Z) (d : desc) (out : list Z) (s : writer),
    (0 < SW)%nat -> 0 <= MaxDepth -> keys_ok KW arr d -> Z.of_nat (nesting d) < 2 ^ 32 -> zlen (encode KW SW arr d) < 2 ^ W ->
    w_run W KW SW arr sgn MaxDepth (writer_new MaxDepth out) (script d) = Ok s ->
    w_run W KW SW arr sgn MaxDepth (writer_new MaxDepth out) (WEnd :: script d ++ [WEnd; WEnd]) = Ok s.
Proof. exact CompactBinary.writer_extra_ends. Qed.
Print Assumptions C26_unmatched_end_is_ignored.
Example C26_hypotheses_met :
  (keys_ok 2 false sample /\ Z.of_nat (nesting sample) = 2) /\
  match w_run 32 2 2 false false 2 (writer_new 2 (repeat 0 32)) (script sample) with
  | Ok s => w_buf s = encode 2 2 false sample | _ => False end /\
  match w_run 32 2 2 false false 1 (writer_new 1 (repeat 0 32)) (script sample) with
  | Ok s => w_buf s = encode_to_depth 2 2 false 1 sample /\ w_buf s <> encode 2 2 false sample | _ => False end /\
  match w_run 32 2 2 false false 1 (writer_new 1 (repeat 0 3)) [WEnd; WBegin [1; 2]; WBegin [3; 4]; WEnd; WRaw [5; 6] [7]; WEnd; WEnd] with
  | Ok s => w_buf s = [1; 2; 9] /\ w_pos s = 13 | _ => False end.
Proof. vm_compute. repeat split; congruence. Qed.

(** C27.  One raw block: the size field holds its length modulo 2^bits, and the round trip
    succeeds exactly when the length fits. *)
Theorem C27_round_trip_iff_size_fits :
  forall (W : Z) (KW SW : nat) (arr : bool) (k d : list Z),
    0 < W -> (0 < SW)%nat -> key_ok KW arr k -> zlen (encode KW SW arr (DRaw k d DEnd)) < 2 ^ (W - 1) ->
    (exists v, get_node W KW SW arr false (encode KW SW arr (DRaw k d DEnd)) k = Ok v /\
       view_bytes (encode KW SW arr (DRaw k d DEnd)) v = firstn (Z.to_nat (zlen d mod 2 ^ (8 * Z.of_nat SW))) d) /\
    (follow W KW SW arr false (encode KW SW arr (DRaw k d DEnd)) [k] = Ok d <-> zlen d < 2 ^ (8 * Z.of_nat SW)).
Proof. intros; split; [apply CompactBinary.oversized|apply CompactBinary.round_trip_iff]; auto. Qed.
Print Assumptions C27_round_trip_iff_size_fits.
(** C27.  A block of exactly 2^bits bytes is parsed as records: its content decides what a
    later key [k2] returns ([x], not the [y] that was written for it). *)
Theorem C27_oversized_block_forges_a_later_key_refuted :
  forall (W : Z) (KW SW : nat) (arr : bool) (k k2 : list Z) (x y : Z) (junk : list Z),
    0 < W -> (1 < SW)%nat -> key_ok KW arr k -> key_ok KW arr k2 -> same_key KW arr k k2 = false ->
    let forged := stored_key KW arr k2 ++ le SW 1 ++ [x] ++ junk in
    zlen forged = 2 ^ (8 * Z.of_nat SW) ->
    zlen (encode KW SW arr (DRaw k forged (DRaw k2 [y] DEnd))) < 2 ^ (W - 1) ->
    follow W KW SW arr false (encode KW SW arr (DRaw k forged (DRaw k2 [y] DEnd))) [k2] = Ok [x].
Proof. intros. apply CompactBinary.misparse; auto. Qed.
Print Assumptions C27_oversized_block_forges_a_later_key_refuted.
Example C27_hypotheses_met :
  let d := repeat 9 258 in
  (key_ok 1 false [1] /\ zlen (encode 1 1 false (DRaw [1] d DEnd)) < 2 ^ 31) /\
  follow 32 1 1 false false (encode 1 1 false (DRaw [1] d DEnd)) [[1]] = Ok [9; 9].
Proof. vm_compute. repeat split. Qed.
Example C27_forged_hypotheses_met :
  let junk := zrepeat 0 (2 ^ 16 - 4) in
  (key_ok 1 false [1] /\ key_ok 1 false [2] /\ same_key 1 false [1] [2] = false) /\
  zlen (stored_key 1 false [2] ++ le 2 1 ++ [77] ++ junk) = 2 ^ 16.
Proof. vm_compute. repeat split. Qed.

(** C28.  A stored key of KW bytes matches a lookup key exactly when they agree on n non-zero
    characters and then either both have a terminator or the width is exhausted.  The lookup
    key may be any memory that is KW long or holds a terminator. *)
Theorem C28_string_keys_match_up_to_terminator :
  forall (KW : nat) (a b : list Z), length a = KW -> key_ok KW true b ->
    exists r, key_matches KW true a b = Ok r /\
    (r = true <->
     exists n, 0 <= n <= Z.of_nat KW /\
       (forall i, 0 <= i < n -> exists c, c <> 0 /\ znth a i = Some c /\ znth b i = Some c) /\
       (n = Z.of_nat KW \/ (znth a n = Some 0 /\ znth b n = Some 0))).
Proof. exact CompactBinary.array_keys_match. Qed.
Print Assumptions C28_string_keys_match_up_to_terminator.
(** C28.  What is written for a key given by a terminated string: the text, then zeros,
    whatever follows the terminator in memory; a key without terminator is copied whole. *)
Theorem C28_written_keys_are_zero_padded :
  forall (KW : nat) (text after : list Z), Forall (fun c => c <> 0) text ->
    (zlen text < Z.of_nat KW ->
     key_bytes KW true (text ++ 0 :: after) = Ok (text ++ zrepeat 0 (Z.of_nat KW - zlen text))) /\
    (zlen text = Z.of_nat KW -> key_bytes KW true (text ++ after) = Ok text).
Proof. exact CompactBinary.written_keys. Qed.
Print Assumptions C28_written_keys_are_zero_padded.
Example C28_hypotheses_met :
  (length [120; 0; 99; 98] = 4%nat /\ key_ok 4 true [120; 0]) /\
  key_matches 4 true [120; 0; 99; 98] [120; 0] = Ok true /\
  key_matches 4 true [120; 121; 122; 119] [120; 121; 0] = Ok false /\
  key_matches 3 true [120; 121; 122] [120; 121; 122] = Ok true /\
  key_bytes 4 true [120; 121; 0] = Ok [120; 121; 0; 0].
Proof. vm_compute. repeat split. left; reflexivity. Qed.

(** C29.  Size field as wide as size_t: the size 2^W-1 wraps the bounds check, and the view
    get_node computes ends outside the blob. *)
Theorem C29_wide_size_field_escapes_the_blob_refuted :
  forall (KW SW : nat) (arr : bool) (k : list Z) (y : Z),
    (0 < SW)%nat -> key_ok KW arr k ->
    let W := 8 * Z.of_nat SW in
    Z.of_nat KW + Z.of_nat SW + 1 < 2 ^ (W - 1) ->
    let blob := stored_key KW arr k ++ le SW (2 ^ W - 1) ++ [y] in
    exists v, get_node_view W KW SW arr false blob k = Ok v /\ zlen blob < fst v + snd v /\
      get_node W KW SW arr false blob k = UB OutOfBounds.
Proof. exact CompactBinary.get_node_escapes. Qed.
Print Assumptions C29_wide_size_field_escapes_the_blob_refuted.
Example C29_hypotheses_met :
  key_ok 2 false [5; 0] /\ Z.of_nat 2 + Z.of_nat 4 + 1 < 2 ^ (8 * Z.of_nat 4 - 1) /\
  get_node 32 2 4 false false [5; 0; 255; 255; 255; 255; 1] [5; 0] = UB OutOfBounds.
Proof. vm_compute. repeat split. Qed.

(** C86.  A signed size field (any width up to size_t): the size bytes FF..FF read as -1,
    pass the bounds check, and become a view of 2^W-1 bytes. *)
Theorem C86_signed_size_field_escapes_the_blob_refuted :
  forall (W : Z) (KW SW : nat) (arr : bool) (k : list Z) (y : Z),
    (0 < SW)%nat -> 8 * Z.of_nat SW <= W -> key_ok KW arr k ->
    Z.of_nat KW + Z.of_nat SW + 1 < 2 ^ (W - 1) ->
    let blob := stored_key KW arr k ++ le SW (2 ^ (8 * Z.of_nat SW) - 1) ++ [y] in
    exists v, get_node_view W KW SW arr true blob k = Ok v /\ zlen blob < fst v + snd v /\
      get_node W KW SW arr true blob k = UB OutOfBounds.
Proof. exact CompactBinary.get_node_escapes_signed. Qed.
Print Assumptions C86_signed_size_field_escapes_the_blob_refuted.
Example C86_hypotheses_met :
  key_ok 2 false [5; 0] /\ 8 * Z.of_nat 2 <= 32 /\
  get_node 32 2 2 false true [5; 0; 255; 255; 1] [5; 0] = UB OutOfBounds.
Proof. vm_compute. repeat split. congruence. Qed.
