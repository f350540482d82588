(* C44, C45, C88, C89: version strings and their order. *)
From Verif.Common Require Import Base.
From Verif.Spec Require Import Digits VersionSpec.
From Verif.Model Require Import Version.
From Verif.Proofs Require Version.

(** C44.  Memory holds [pre], the text viewed, then [rest]; what follows the last number is not
    a digit. *)
Theorem C44_parse_recovers_the_fields :
  forall (L : Z) (pre suffix rest : list Z) (fs : list (list Z)),
    9 < L -> fs <> [] -> Forall field_ok fs -> Forall (fun f => value 10 f <= 255) fs ->
    (suffix = [] \/ exists s, suffix = 45 :: s) -> ~ In 46 suffix ->
    (exists c r, suffix ++ rest = c :: r /\ not_digit c) ->
    parse L (pre ++ (dotted fs ++ suffix) ++ rest) (length pre) (length (dotted fs ++ suffix))
    = Ok (Ver (field_value fs 0) (field_value fs 1) (field_value fs 2) (match suffix with [] => true | _ => false end)).
Proof. intros. apply Version.parse_spec; assumption. Qed.
Print Assumptions C44_parse_recovers_the_fields.
(** Any NUL-terminated text is parsed without undefined behaviour. *)
Theorem C44_parse_terminated_is_safe :
  forall (L : Z) (pre text post : list Z), exists v, parse L (pre ++ text ++ 0 :: post) (length pre) (length text) = Ok v.
Proof.
  intros L pre text post. rewrite app_assoc. apply Version.parse_total; [apply Nat.lt_succ_diag_r|rewrite app_length; apply Nat.le_refl].
Qed.
Print Assumptions C44_parse_terminated_is_safe.
(** A dotted pre-release suffix makes a pre-release look like a release. *)
Theorem C44_dotted_prerelease_is_normal_refuted :
  forall (L : Z) (pre a b c s t rest : list Z),
    9 < L -> Forall field_ok [a; b; c] -> Forall (fun f => value 10 f <= 255) [a; b; c] ->
    ~ In 46 s -> ~ In 46 t -> ~ In 45 t ->
    (exists x, strtol L ((pre ++ dotted [a; b; c] ++ 45 :: s ++ [46]) ++ t ++ rest) (length (pre ++ dotted [a; b; c] ++ 45 :: s ++ [46])) = Ok x) ->
    let text := dotted [a; b; c] ++ 45 :: s ++ 46 :: t in
    parse L (pre ++ text ++ rest) (length pre) (length text) = Ok (Ver (value 10 a) (value 10 b) (value 10 c) true).
Proof. exact Version.parse_dotted_prerelease. Qed.
Print Assumptions C44_dotted_prerelease_is_normal_refuted.
Example C44_hypotheses_met :
  (* "1.02.255-rc1", "7", "1.0.0-rc.1" *)
  parse 32 [49; 46; 48; 50; 46; 50; 53; 53; 45; 114; 99; 49; 0] 0 12 = Ok (Ver 1 2 255 false) /\
  parse 64 [9; 55; 0] 1 1 = Ok (Ver 7 0 0 true) /\
  parse 64 [49; 46; 48; 46; 48; 45; 114; 99; 46; 49; 0] 0 10 = Ok (Ver 1 0 0 true) /\
  dotted [[1]; [0; 2]; [2; 5; 5]] ++ [45; 114; 99; 49] = [49; 46; 48; 50; 46; 50; 53; 53; 45; 114; 99; 49] /\
  Forall field_ok [[1]; [0; 2]; [2; 5; 5]].
Proof. repeat split; try discriminate; repeat constructor; discriminate. Qed.

(** C45. *)
Theorem C45_comparison_is_a_total_order :
  forall u v w : version,
    (ver_cmp v w = Eq <-> v = w) /\ (ver_eq v w = true <-> v = w) /\
    ver_cmp w v = CompOpp (ver_cmp v w) /\
    (ver_cmp u v = Lt -> ver_cmp v w = Lt -> ver_cmp u w = Lt) /\
    (is_later v w = true <-> ver_cmp w v = Lt).
Proof.
  intros u v w. split; [apply Version.ver_cmp_eq|]. split; [apply Version.ver_eq_iff|].
  split; [apply Version.ver_cmp_opp|]. split; [apply Version.ver_cmp_trans|apply Version.is_later_iff].
Qed.
Print Assumptions C45_comparison_is_a_total_order.
Theorem C45_order_is_major_minor_revision_release :
  forall v w : version, ver_cmp v w = Lt <->
    major v < major w \/ (major v = major w /\ (minor v < minor w \/ (minor v = minor w /\
    (revision v < revision w \/ (revision v = revision w /\ is_normal v = false /\ is_normal w = true))))).
Proof. exact Version.ver_cmp_lt. Qed.
Print Assumptions C45_order_is_major_minor_revision_release.
Theorem C45_can_host_is_a_preorder :
  forall u v w : version,
    (can_host_version v w = true <-> major v = major w /\ minor w <= minor v) /\
    can_host_version v v = true /\
    (can_host_version u v = true -> can_host_version v w = true -> can_host_version u w = true).
Proof.
  intros u v w. rewrite !Version.can_host_iff. split; [reflexivity|]. split; [split; [reflexivity|apply Z.le_refl]|].
  intros [-> H1] [-> H2]. split; [reflexivity|exact (Z.le_trans _ _ _ H2 H1)].
Qed.
Print Assumptions C45_can_host_is_a_preorder.
Example C45_hypotheses_met :
  ver_cmp (Ver 1 2 3 false) (Ver 1 2 3 true) = Lt /\ is_later (Ver 1 10 0 false) (Ver 1 9 200 true) = true /\
  can_host_version (Ver 1 10 0 true) (Ver 1 9 200 true) = true.
Proof. vm_compute. auto. Qed.

(** C88.  The number is read to its end in memory, not to the end of the view. *)
Theorem C88_digits_after_the_view_are_taken_refuted :
  forall (L : Z) (pre f e : list Z) (c : Z) (r : list Z),
    9 < L -> field_ok f -> Forall (fun d => 0 <= d < 10) e -> value 10 (f ++ e) <= 255 -> not_digit c ->
    parse L (pre ++ field_text f ++ (field_text e ++ c :: r)) (length pre) (length (field_text f)) = Ok (Ver (value 10 (f ++ e)) 0 0 true).
Proof. exact Version.parse_overread. Qed.
Print Assumptions C88_digits_after_the_view_are_taken_refuted.
(** A view that ends where its memory ends is read past the end. *)
Theorem C88_view_at_the_end_of_memory_refuted :
  forall (L : Z) (pre f : list Z), field_ok f ->
    parse L (pre ++ field_text f) (length pre) (length (field_text f)) = UB OutOfBounds.
Proof. exact Version.parse_unterminated. Qed.
Print Assumptions C88_view_at_the_end_of_memory_refuted.
Example C88_hypotheses_met :
  (* the view "1" of "12x" gives 12; of "1" with nothing after, undefined *)
  parse 64 [49; 50; 120] 0 1 = Ok (Ver 12 0 0 true) /\ parse 64 [49] 0 1 = UB OutOfBounds /\ field_ok [1] /\ not_digit 120.
Proof. repeat split; try discriminate; repeat constructor; discriminate. Qed.

(** C89.  What an arbitrarily large number in the first field becomes: clipped to the range of
    long, then cut to 32 bits, then dropped if above 255. *)
Theorem C89_large_field :
  forall (L : Z) (pre f : list Z) (c : Z) (r : list Z), 9 < L -> field_ok f -> not_digit c ->
    let n := Z.min (value 10 f) (2 ^ (L - 1) - 1) mod 2 ^ 32 in
    parse L (pre ++ field_text f ++ c :: r) (length pre) (length (field_text f)) = Ok (Ver (if n <=? 255 then n else 0) 0 0 true).
Proof. exact Version.parse_big_field. Qed.
Print Assumptions C89_large_field.
(** So with a 64-bit long a number congruent to k modulo 2^32 is accepted as k. *)
Theorem C89_wraps_with_64_bit_long_refuted :
  forall (pre f : list Z) (c k m : Z) (r : list Z), field_ok f -> not_digit c ->
    value 10 f = 2 ^ 32 * m + k -> 0 <= k <= 255 -> 0 <= m < 2 ^ 31 ->
    parse 64 (pre ++ field_text f ++ c :: r) (length pre) (length (field_text f)) = Ok (Ver k 0 0 true).
Proof. exact Version.parse_wraps. Qed.
Print Assumptions C89_wraps_with_64_bit_long_refuted.
(** White space and a sign before the number are accepted; a minus sign negates the number and marks the
    version as a pre-release. *)
Theorem C89_sign_and_white_space :
  forall (L : Z) (pre ws f : list Z) (c : Z) (r : list Z), 9 < L -> Forall white ws -> field_ok f -> not_digit c ->
    (let n := Z.min (value 10 f) (2 ^ (L - 1) - 1) mod 2 ^ 32 in let text := ws ++ 43 :: field_text f in
     parse L (pre ++ text ++ c :: r) (length pre) (length text) = Ok (Ver (if n <=? 255 then n else 0) 0 0 true)) /\
    (let n := (- Z.min (value 10 f) (2 ^ (L - 1))) mod 2 ^ 32 in let text := ws ++ 45 :: field_text f in
     parse L (pre ++ text ++ c :: r) (length pre) (length text) = Ok (Ver (if n <=? 255 then n else 0) 0 0 false)).
Proof. exact Version.parse_signed. Qed.
Print Assumptions C89_sign_and_white_space.
Example C89_hypotheses_met : (* "4294967303" *)
  parse 64 [52; 50; 57; 52; 57; 54; 55; 51; 48; 51; 0] 0 10 = Ok (Ver 7 0 0 true) /\
  parse 32 [52; 50; 57; 52; 57; 54; 55; 51; 48; 51; 0] 0 10 = Ok (Ver 0 0 0 true) /\
  value 10 [4; 2; 9; 4; 9; 6; 7; 3; 0; 3] = 2 ^ 32 * 1 + 7 /\
  (* " +7", "-4294967295" *)
  parse 64 [32; 43; 55; 0] 0 3 = Ok (Ver 7 0 0 true) /\
  parse 64 [45; 52; 50; 57; 52; 57; 54; 55; 50; 57; 53; 0] 0 11 = Ok (Ver 1 0 0 false).
Proof. vm_compute. auto 10. Qed.
