(* util/compact_binary_{parser,serializer,writer}.hh.
   Simplifications.  A key is given by its bytes: for plain key types `==` is taken to be
   equality of those bytes; for char-array keys the list is the memory the argument points
   to.  A trivially copyable value is given by its bytes (std::bit_cast, little endian).
   A describing callable is the sequence of calls it makes (it is invoked more than once by
   object(); it is assumed to make the same calls each time). *)
From Verif.Common Require Import Base.
From Verif.Spec Require Import BinarySpec.

Section CompactBinary.
Variable W : Z.             (* bits of size_t *)
Variables (KW SW : nat).    (* sizeof(KeyT), sizeof(DataSizeT) *)
Variable arr : bool.        (* std::is_array_v<KeyT> *)
Variable sgn : bool.        (* DataSizeT is signed *)

Definition SWbits : Z := 8 * Z.of_nat SW.
(* conversion of an integer to DataSizeT *)
Definition to_size (x : Z) : Z := if sgn then sword SWbits x else word SWbits x.
(* sizeof(Header), packed; parser.hh 45-48 *)
Definition hsize : Z := Z.of_nat KW + Z.of_nat SW.

(* ---------------- parser ---------------- *)
(* A std::span<const uint8_t> into the blob: first index and length. *)
Definition view : Type := (Z * Z)%type.
Definition view_bytes (blob : list Z) (v : view) : list Z :=
  firstn (Z.to_nat (snd v)) (skipn (Z.to_nat (fst v)) blob).

(* as<T>(bytes); parser.hh 106-116 (the copy loop; bytes[i] needs i < bytes.size()) *)
Fixpoint as_loop (blob : list Z) (v : view) (n : nat) (i : Z) : outcome (list Z) :=
  match n with
  | O => Ok []
  | S n' =>
      if i <? snd v then
        let* b := rd blob (fst v + i) in
        let* r := as_loop blob v n' (i + 1) in Ok (b :: r)
      else UB OutOfBounds
  end.

(* advance(block, offset); parser.hh 118-124 *)
Definition advance (v : view) (offset : Z) : option view :=
  if offset >=? snd v then None else Some (fst v + offset, snd v - offset).

(* compare_nullterm_array(a, b, s); parser.hh 126-135 *)
Fixpoint compare_nullterm (s : nat) (i : Z) (a b : list Z) : outcome bool :=
  match s with
  | O => Ok true
  | S s' =>
      let* x := rd a i in
      let* y := (if x =? 0 then rd b i else Ok 0) in
      if (x =? 0) && (y =? 0) then Ok true
      else
        let* y := rd b i in
        if negb (x =? y) then Ok false else compare_nullterm s' (i + 1) a b
  end.

(* the comparison of parser.hh 85-89 *)
Fixpoint bytes_equal (a b : list Z) : bool :=
  match a, b with
  | [], [] => true
  | x :: a', y :: b' => (x =? y) && bytes_equal a' b'
  | _, _ => false
  end.
Definition key_matches (header_key key : list Z) : outcome bool :=
  if arr then compare_nullterm KW 0 header_key key else Ok (bytes_equal header_key key).

(* the loop of get_size_and_offset; parser.hh 76-100 *)
Fixpoint search (fuel : nat) (blob key : list Z) (parsing : view) : outcome (Z * Z) :=
  match fuel with
  | O => OutOfFuel
  | S fuel' =>
      if snd parsing >=? hsize then
        let* h := as_loop blob parsing (KW + SW) 0 in
        let header_key := firstn KW h in
        let header_size := to_size (unle (skipn KW h)) in
        match advance parsing hsize with
        | None => Ok (0, 0)
        | Some parsing =>
            let* cmp := key_matches header_key key in
            if cmp then Ok (header_size, fst parsing)
            else match advance parsing (word W header_size) with
                 | None => Ok (0, 0)
                 | Some parsing => search fuel' blob key parsing
                 end
        end
      else Ok (0, 0)
  end.
Definition get_size_and_offset (blob key : list Z) : outcome (Z * Z) :=
  search (S (length blob)) blob key (0, zlen blob).

(* size_t(offset + sz): ptrdiff_t + DataSizeT with the usual arithmetic conversions *)
Definition end_of (offset sz : Z) : outcome Z :=
  let wide := Z.max W SWbits in
  let* e := (if sgn || (SWbits <? W) then schk wide (offset + sz) else Ok (word wide (offset + sz))) in
  Ok (word W e).

(* the view get_node computes, before the precondition of subspan; parser.hh 68-74 *)
Definition get_node_view (blob key : list Z) : outcome view :=
  let* (sz, offset) := get_size_and_offset blob key in
  let* e := end_of offset sz in
  if e <=? zlen blob then Ok (offset, word W sz) else Ok (0, 0).
(* get_node(key): blob.subspan(offset, sz) needs offset + sz <= blob.size() *)
Definition get_node (blob key : list Z) : outcome view :=
  let* v := get_node_view blob key in
  if fst v + snd v <=? zlen blob then Ok v else UB OutOfBounds.

(* get<T>(key) with sizeof(T) = n; parser.hh 56-66 *)
Definition get (n : nat) (blob key : list Z) : outcome (option (list Z)) :=
  let* (sz, offset) := get_size_and_offset blob key in
  if word W sz =? Z.of_nat n then
    let* e := end_of offset sz in
    if e <=? zlen blob then
      if offset <=? zlen blob then   (* precondition of subspan(offset) *)
        let* t := as_loop blob (offset, zlen blob - offset) n 0 in Ok (Some t)
      else UB OutOfBounds
    else Ok None
  else Ok None.

(* get_size(key); parser.hh 102-104 *)
Definition get_size (blob key : list Z) : outcome Z :=
  let* (sz, _) := get_size_and_offset blob key in Ok (word W sz).

(* a user following a path: CompactBinaryParser{p.get_node(k1)}.get_node(k2)... *)
Fixpoint follow (blob : list Z) (path : list (list Z)) : outcome (list Z) :=
  match path with
  | [] => Ok blob
  | k :: r => let* v := get_node blob k in follow (view_bytes blob v) r
  end.

(* ---------------- serializer ---------------- *)
(* Measurer; serializer.hh 33-52 (count is size_t) *)
Fixpoint measure_from (count : Z) (d : desc) : Z :=
  match d with
  | DEnd => count
  | DField _ v r => measure_from (word W (count + (Z.of_nat KW + Z.of_nat SW + zlen v))) r
  | DRaw _ v r => measure_from (word W (count + (Z.of_nat KW + Z.of_nat SW + zlen v))) r
  | DObject _ s r => measure_from (word W (count + (Z.of_nat KW + Z.of_nat SW + measure_from 0 s))) r
  end.
(* measure(describe); serializer.hh 138-143 *)
Definition measure (d : desc) : Z := measure_from 0 d.

(* The bytes of a key; serializer.hh 60-74, writer.hh 105-119: copy up to and including the
   terminator into a zeroed buffer of sizeof(KeyT) bytes *)
Fixpoint key_copy (n : nat) (i : Z) (key buf : list Z) : outcome (list Z) :=
  match n with
  | O => Ok buf
  | S n' =>
      let* c := rd key i in
      let* buf := wr buf i c in
      if c =? 0 then Ok buf else key_copy n' (i + 1) key buf
  end.
Definition key_bytes (key : list Z) : outcome (list Z) :=
  if arr then key_copy KW 0 key (zrepeat 0 (Z.of_nat KW)) else Ok key.
(* write_size(size): the bytes of the size converted to DataSizeT; serializer.hh 76-79 *)
Definition size_bytes (n : Z) : list Z := le SW (to_size n).

(* WriterBase::field/raw/object over an emit function; serializer.hh 81-103 *)
Section WriterBase.
Context {St : Type} (emit : list Z -> St -> outcome St).
Definition write_key (k : list Z) (s : St) : outcome St :=
  let* kb := key_bytes k in emit kb s.
Definition write_size (n : Z) (s : St) : outcome St := emit (size_bytes n) s.
Fixpoint write_desc (d : desc) (s : St) : outcome St :=
  match d with
  | DEnd => Ok s
  | DField k v r =>
      let* s := write_key k s in
      let* s := write_size (zlen v) s in
      let* s := emit v s in write_desc r s
  | DRaw k v r =>
      let* s := write_key k s in
      let* s := write_size (zlen v) s in
      let* s := emit v s in write_desc r s
  | DObject k sub r =>
      let m := measure_from 0 sub in
      let* s := write_key k s in
      let* s := write_size m s in
      let* s := write_desc sub s in write_desc r s
  end.
End WriterBase.

(* SpanWriter::emit; serializer.hh 114-120, writer.hh 90-96 *)
Fixpoint span_emit (bytes : list Z) (s : list Z * Z) : outcome (list Z * Z) :=
  match bytes with
  | [] => Ok s
  | b :: r =>
      let (buf, pos) := s in
      let* buf := (if pos <? zlen buf then wr buf pos b else Ok buf) in
      span_emit r (buf, word W (pos + 1))
  end.
(* serialize(output, describe): resulting buffer and returned count; serializer.hh 145-151 *)
Definition serialize (output : list Z) (d : desc) : outcome (list Z * Z) :=
  write_desc span_emit d (output, 0).

(* SinkWriter::emit: the chunks the sink received, oldest first; serializer.hh 132-135 *)
Definition sink_emit (bytes : list Z) (s : list (list Z) * Z) : outcome (list (list Z) * Z) :=
  Ok (fst s ++ [bytes], word W (snd s + zlen bytes)).
(* stream(describe, sink); serializer.hh 153-158 *)
Definition stream (d : desc) : outcome (list (list Z) * Z) := write_desc sink_emit d ([], 0).

(* ---------------- writer ---------------- *)
Variable MaxDepth : Z.
(* writer.hh 33-44; depth is a 32-bit unsigned *)
Record writer := Writer { w_buf : list Z; w_pos : Z; w_stack : list Z; w_depth : Z }.
Definition writer_new (output : list Z) : writer := Writer output 0 (zrepeat 0 MaxDepth) 0.

Inductive wop :=
| WField (k v : list Z) | WRaw (k v : list Z) | WBegin (k : list Z) | WEnd.

Definition w_emit (bytes : list Z) (s : writer) : outcome writer :=
  let* (b, p) := span_emit bytes (w_buf s, w_pos s) in
  Ok (Writer b p (w_stack s) (w_depth s)).

(* write_at(position, bytes); writer.hh 98-103 *)
Fixpoint write_at (buf : list Z) (position i : Z) (bytes : list Z) : outcome (list Z) :=
  match bytes with
  | [] => Ok buf
  | b :: r =>
      let p := word W (position + i) in
      let* buf := (if p <? zlen buf then wr buf p b else Ok buf) in
      write_at buf position (i + 1) r
  end.

Definition w_step (s : writer) (o : wop) : outcome writer :=
  match o with
  | WField k v =>                                             (* writer.hh 46-52 *)
      let* s := write_key w_emit k s in
      let* s := write_size w_emit (zlen v) s in w_emit v s
  | WRaw k v =>                                               (* writer.hh 54-58 *)
      let* s := write_key w_emit k s in
      let* s := write_size w_emit (zlen v) s in w_emit v s
  | WBegin k =>                                               (* writer.hh 60-66 *)
      let* s := write_key w_emit k s in
      let* st := (if w_depth s <? MaxDepth then wr (w_stack s) (w_depth s) (w_pos s) else Ok (w_stack s)) in
      write_size w_emit 0 (Writer (w_buf s) (w_pos s) st (word 32 (w_depth s + 1)))
  | WEnd =>                                                   (* writer.hh 68-78 *)
      if w_depth s =? 0 then Ok s
      else
        let depth := w_depth s - 1 in
        if depth <? MaxDepth then
          let* size_pos := rd (w_stack s) depth in
          let data_start := word W (size_pos + Z.of_nat SW) in
          let data_size := word W (w_pos s - data_start) in
          let* b := write_at (w_buf s) size_pos 0 (size_bytes data_size) in
          Ok (Writer b (w_pos s) (w_stack s) depth)
        else Ok (Writer (w_buf s) (w_pos s) (w_stack s) depth)
  end.
Fixpoint w_run (s : writer) (ops : list wop) : outcome writer :=
  match ops with
  | [] => Ok s
  | o :: r => let* s := w_step s o in w_run s r
  end.
End CompactBinary.

(* The calls a user makes to write a description with the writer. *)
Fixpoint script (d : desc) : list wop :=
  match d with
  | DEnd => []
  | DField k v r => WField k v :: script r
  | DRaw k v r => WRaw k v :: script r
  | DObject k s r => WBegin k :: script s ++ WEnd :: script r
  end.
