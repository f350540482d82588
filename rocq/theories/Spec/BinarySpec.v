(* The compact binary format: records [key][size][data], little endian. *)
From Verif.Common Require Import Base.
From Verif.Spec Require Import StaticStringSpec.

(** The [n] low-order bytes of [x], least significant first, and back. *)
Fixpoint le (n : nat) (x : Z) : list Z :=
  match n with O => [] | S n' => x mod 256 :: le n' (x / 256) end.
Fixpoint unle (l : list Z) : Z :=
  match l with [] => 0 | b :: r => b + 256 * unle r end.
Definition is_byte (b : Z) : Prop := 0 <= b < 256.

Section Format.
Variables (KW SW : nat).  (* bytes of a key, bytes of a size field *)
Variable arr : bool.      (* keys are char arrays (true) or plain values (false) *)

(** The text of a char-array key: up to the terminator, at most KW characters. *)
Definition key_text (k : list Z) : list Z := until_nul (firstn KW k).
(** Two keys are the same key. *)
Definition same_key (a b : list Z) : bool :=
  if arr then same_text (key_text a) (key_text b) else same_text a b.
(** A usable key: a value of KW bytes, or a C string / full-width char array. *)
Definition key_ok (k : list Z) : Prop :=
  if arr then zlen (key_text k) < zlen k \/ Z.of_nat KW <= zlen k else length k = KW.
(** What is stored for a key: the value's bytes, or the text padded with zeros. *)
Definition stored_key (k : list Z) : list Z :=
  if arr then key_text k ++ zrepeat 0 (Z.of_nat KW - zlen (key_text k)) else k.

(** The encoding of one record whose stored key is [k]. *)
Definition record (k d : list Z) : list Z := k ++ le SW (zlen d) ++ d.
(** A flat blob. *)
Fixpoint flat (rs : list (list Z * list Z)) : list Z :=
  match rs with [] => [] | (k, d) :: r => record k d ++ flat r end.
Fixpoint first_record (k : list Z) (rs : list (list Z * list Z)) : option (list Z) :=
  match rs with
  | [] => None
  | (k', d) :: r => if same_key k' k then Some d else first_record k r
  end.

(** Descriptions: a sequence of fields, raw blocks and nested objects. *)
Inductive desc :=
| DEnd
| DField (k v : list Z) (rest : desc)       (* value given by its bytes *)
| DRaw (k v : list Z) (rest : desc)
| DObject (k : list Z) (sub rest : desc).

(** Encoding in which objects nested more than [depth] deep get size 0. *)
Fixpoint encode_to_depth (depth : nat) (d : desc) : list Z :=
  match d with
  | DEnd => []
  | DField k v r | DRaw k v r => record (stored_key k) v ++ encode_to_depth depth r
  | DObject k s r =>
      match depth with
      | O => stored_key k ++ le SW 0 ++ encode_to_depth O s
      | S depth' => record (stored_key k) (encode_to_depth depth' s)
      end ++ encode_to_depth depth r
  end.
(** The encoding of a description. *)
Fixpoint encode (d : desc) : list Z :=
  match d with
  | DEnd => []
  | DField k v r | DRaw k v r => record (stored_key k) v ++ encode r
  | DObject k s r => record (stored_key k) (encode s) ++ encode r
  end.
Fixpoint nesting (d : desc) : nat :=
  match d with
  | DEnd => O
  | DField _ _ r | DRaw _ _ r => nesting r
  | DObject _ s r => Nat.max (S (nesting s)) (nesting r)
  end.
(** Every size is expressible in the size field. *)
Fixpoint fits (lim : Z) (d : desc) : Prop :=
  match d with
  | DEnd => True
  | DField _ v r | DRaw _ v r => zlen v < lim /\ fits lim r
  | DObject _ s r => zlen (encode s) < lim /\ fits lim s /\ fits lim r
  end.
Fixpoint keys_ok (d : desc) : Prop :=
  match d with
  | DEnd => True
  | DField k _ r | DRaw k _ r => key_ok k /\ keys_ok r
  | DObject k s r => key_ok k /\ keys_ok s /\ keys_ok r
  end.

Inductive entry := Leaf (v : list Z) | Node (sub : desc).
Fixpoint first_entry (k : list Z) (d : desc) : option entry :=
  match d with
  | DEnd => None
  | DField k' v r | DRaw k' v r => if same_key k' k then Some (Leaf v) else first_entry k r
  | DObject k' s r => if same_key k' k then Some (Node s) else first_entry k r
  end.
(** The bytes a key path denotes: empty when a key is absent; unspecified (None) when the
    path continues below a field or raw block. *)
Fixpoint at_path (d : desc) (path : list (list Z)) : option (list Z) :=
  match path with
  | [] => Some (encode d)
  | k :: rest =>
      match first_entry k d with
      | None => Some []
      | Some (Leaf v) => match rest with [] => Some v | _ => None end
      | Some (Node s) => at_path s rest
      end
  end.
End Format.
