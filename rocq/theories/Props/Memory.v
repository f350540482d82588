(* C68-C70, C72, C73, C109, C110: memory helpers. *)
From Verif.Common Require Import Base.
From Verif.Spec Require Import MemorySpec BinarySpec.
From Verif.Model Require Import Memory.
From Verif.Proofs Require Memory.
Open Scope Z_scope.

(** C68. *)
Theorem C68_blocks :
  forall sz ops, Forall (fun o => match o with MAlloc n => 0 <= n | _ => True end) ops -> 0 <= sz ->
    let r := srun (mono_step sz) 0 ops in
    let bs := granted_after ops (snd r) in
    Forall (fun b => 0 <= fst b /\ fst b + snd b <= sz) bs /\ ForallOrdPairs disjoint bs /\
    (bs <> [] -> zsum (map snd bs) < sz) /\
    snd (mono_step sz (fst r) MFree) = MNum (sz - zsum (map snd bs)) /\
    forall n, 0 <= n -> (snd (mono_step sz (fst r) (MAlloc n)) = MBlock None <-> sz - zsum (map snd bs) <= n).
Proof. exact Memory.mono_blocks. Qed.
Print Assumptions C68_blocks.
Theorem C68_exact_fit_refuted : forall sz, 0 <= sz -> snd (mono_step sz 0 (MAlloc sz)) = MBlock None.
Proof. exact Memory.mono_exact_fit. Qed.
Print Assumptions C68_exact_fit_refuted.
Example C68_hypotheses_met :
  Forall (fun o => match o with MAlloc n => 0 <= n | _ => True end) [MAlloc 3; MAlloc 6; MAlloc 5] /\
  snd (srun (mono_step 10) 0 [MAlloc 3; MAlloc 6; MAlloc 5; MFree; MReset; MAlloc 5; MTotal]) =
    [MBlock (Some 0); MBlock (Some 3); MBlock None; MNum 1; MUnit; MBlock (Some 0); MNum 10].
Proof. split; [repeat constructor; lia|reflexivity]. Qed.

(** C69.  [w] is the width of std::size_t, [T] is sizeof(T), [A] the alignment. *)
Theorem C69_request :
  forall w T A n, 0 < w -> 0 < T -> 0 < A -> 0 < n -> n * T + A - 1 < 2 ^ w ->
    exists r, aligned_request w T A n = Some r /\ least_multiple A (n * T) r.
Proof. exact Memory.aligned_ok. Qed.
Print Assumptions C69_request.
Theorem C69_overflow_asks_too_little_refuted :
  forall w T A n, 0 < w -> 0 < T -> 0 < A < 2 ^ w -> 0 < n ->
    (2 ^ w <= n * T -> exists r, aligned_request w T A n = Some r /\ r < n * T) /\
    (n * T < 2 ^ w <= n * T + A - 1 -> aligned_request w T A n = Some 0).
Proof.
  intros. split; [apply Memory.aligned_short; assumption|]. intros []. apply Memory.aligned_zero; assumption.
Qed.
Print Assumptions C69_overflow_asks_too_little_refuted.
(** When sizeof(T) divides 2^w, one element more than fits asks for room for a single element. *)
Theorem C69_tiny_block_refuted :
  forall w T A q, 0 < w -> 0 < T -> 0 < A -> T * q = 2 ^ w -> T + A - 1 < 2 ^ w ->
    exists r, aligned_request w T A (q + 1) = Some r /\ least_multiple A T r.
Proof. exact Memory.aligned_tiny. Qed.
Print Assumptions C69_tiny_block_refuted.
Example C69_hypotheses_met : 10 * 12 + 64 - 1 < 2 ^ 32 /\ aligned_request 32 12 64 10 = Some 128 /\ aligned_request 32 12 64 0 = None /\
  4 * 2 ^ 62 = 2 ^ 64 /\ aligned_request 64 4 64 (2 ^ 62 + 1) = Some 64.
Proof. repeat split; reflexivity. Qed.

(** C70. *)
Theorem C70_unsigned :
  forall v, fits_unsigned 64 v ->
    let b := smallest_unsigned v in
    standard_width b /\ fits_unsigned b v /\ forall b', standard_width b' -> fits_unsigned b' v -> b <= b'.
Proof. exact Memory.smallest_unsigned_ok. Qed.
Print Assumptions C70_unsigned.
Theorem C70_signed :
  forall lo hi, fits_signed 64 lo -> fits_signed 64 hi ->
    match smallest_signed lo hi with
    | Some b => lo <= hi /\ standard_width b /\ (forall v, lo <= v <= hi -> fits_signed b v) /\
        forall b', standard_width b' -> (forall v, lo <= v <= hi -> fits_signed b' v) -> b <= b'
    | None => hi < lo \/ 2 ^ 62 <= hi \/ lo < - 2 ^ 62
    end.
Proof. exact Memory.smallest_signed_ok. Qed.
Print Assumptions C70_signed.
(** Every wider range is refused, although int64_t would hold it. *)
Theorem C70_wide_ranges_refuted :
  forall lo hi, fits_signed 64 lo -> fits_signed 64 hi -> lo <= hi -> 2 ^ 62 <= hi \/ lo < - 2 ^ 62 ->
    smallest_signed lo hi = None.
Proof. exact Memory.smallest_signed_refuses. Qed.
Print Assumptions C70_wide_ranges_refuted.
Example C70_hypotheses_met :
  fits_unsigned 64 256 /\ smallest_unsigned 256 = 16 /\ fits_signed 64 (-129) /\ smallest_signed (-129) 127 = Some 16 /\
  smallest_signed (-128) 127 = Some 8 /\ smallest_signed (-128) 128 = Some 16.
Proof. unfold fits_unsigned, fits_signed. repeat split; first [reflexivity | discriminate | lia]. Qed.

(** C72. *)
Theorem C72_good_memory :
  forall {M : Type} (rdm : M -> Z -> Z) (wrm : M -> Z -> Z -> M) fuel m start stop,
    good_memory rdm wrm -> stop - start <= 4 * Z.of_nat fuel ->
    exists m', check rdm wrm fuel m start stop = Ok (m', true) /\
      (forall i, start + 4 * Z.of_nat i < stop -> rdm m' (start + 4 * Z.of_nat i) = Nat.iter i encode initseed) /\
      (forall a, (forall i, start + 4 * Z.of_nat i < stop -> a <> start + 4 * Z.of_nat i) -> rdm m' a = rdm m a).
Proof. intros M rdm wrm. exact (Memory.check_good rdm wrm). Qed.
Print Assumptions C72_good_memory.
Theorem C72_any_bad_word_is_reported :
  forall {M : Type} (rdm : M -> Z -> Z) (wrm : M -> Z -> Z -> M) fuel m start stop, stop - start <= 4 * Z.of_nat fuel ->
    exists m' r, check rdm wrm fuel m start stop = Ok (m', r) /\
      (r = true <-> forall i, start + 4 * Z.of_nat i < stop -> rdm m' (start + 4 * Z.of_nat i) = Nat.iter i encode initseed).
Proof. intros M rdm wrm. exact (Memory.check_iff rdm wrm). Qed.
Print Assumptions C72_any_bad_word_is_reported.
Theorem C72_shared_storage_is_reported :
  forall fuel phys m start stop i j, stop - start <= 4 * Z.of_nat fuel ->
    (i < j)%nat -> Z.of_nat j - Z.of_nat i < 2 ^ 32 -> start + 4 * Z.of_nat j < stop ->
    phys (start + 4 * Z.of_nat i) = phys (start + 4 * Z.of_nat j) ->
    exists m', check (wired_rd phys) (wired_wr phys) fuel m start stop = Ok (m', false).
Proof. exact Memory.check_alias_far. Qed.
Print Assumptions C72_shared_storage_is_reported.
Theorem C72_injective_wiring_passes :
  forall fuel phys m start stop, stop - start <= 4 * Z.of_nat fuel -> (forall a b, phys a = phys b -> a = b) ->
    exists m', check (wired_rd phys) (wired_wr phys) fuel m start stop = Ok (m', true).
Proof. exact Memory.check_injective. Qed.
Print Assumptions C72_injective_wiring_passes.
Theorem C72_pattern_period :
  forall i j, Nat.iter i encode initseed = Nat.iter j encode initseed <-> (Z.of_nat i - Z.of_nat j) mod 2 ^ 32 = 0.
Proof. exact Memory.pat_eq_iff. Qed.
Print Assumptions C72_pattern_period.
Theorem C72_address_order :
  forall {M : Type} (rdm : M -> Z -> Z) (wrm : M -> Z -> Z -> M) fuel m start stop,
    (stop < start -> check_addr rdm wrm fuel m start stop = Ok (m, false)) /\
    (start <= stop -> check_addr rdm wrm fuel m start stop = check rdm wrm fuel m start stop).
Proof. intros M. exact Memory.check_addr_order. Qed.
Print Assumptions C72_address_order.
(* address line 4 not connected *)
Example C72_hypotheses_met :
  (fun a => Z.land a (Z.lnot 16)) (0 + 4 * Z.of_nat 0) = (fun a => Z.land a (Z.lnot 16)) (0 + 4 * Z.of_nat 4) /\
  match check (wired_rd (fun a => Z.land a (Z.lnot 16))) (wired_wr (fun a => Z.land a (Z.lnot 16))) 10 (fun _ => 0) 0 32 with
  | Ok (_, r) => r = false | _ => False end /\
  match check (wired_rd (fun a => a)) (wired_wr (fun a => a)) 10 (fun _ => 0) 0 32 with Ok (_, r) => r = true | _ => False end.
Proof. repeat split; reflexivity. Qed.

(** C73. *)
Theorem C73_decodes :
  forall x,
    (0 <= x < 2 ^ 8 -> bb_step [] (BU8 x) = [x]) /\
    (0 <= x < 2 ^ 16 -> zlen (bb_step [] (BU16 x)) = 2 /\ unle (bb_step [] (BU16 x)) = x) /\
    (0 <= x < 2 ^ 32 -> zlen (bb_step [] (BU32 x)) = 4 /\ unle (bb_step [] (BU32 x)) = x).
Proof. exact Memory.bb_round_trip. Qed.
Print Assumptions C73_decodes.
Theorem C73_appends :
  forall ops data,
    fold_left bb_step ops data =
    data ++ concat (map (fun o => match o with BU8 x => le 1 x | BU16 x => le 2 x | BU32 x => le 4 x | BRaw l => l end) ops).
Proof. exact Memory.bb_history. Qed.
Print Assumptions C73_appends.
Example C73_hypotheses_met :
  0 <= 0x12345678 < 2 ^ 32 /\ fold_left bb_step [BU32 0x12345678; BRaw [9; 8]; BU16 258; BU8 7] [] = [0x78; 0x56; 0x34; 0x12; 9; 8; 2; 1; 7].
Proof. repeat split; first [reflexivity | discriminate | lia]. Qed.

(** C109.  The last word starts before [stop] and may end after it. *)
Theorem C109_last_word :
  forall start stop, start < stop ->
    let a := start + 4 * ((stop - start - 1) / 4) in
    a < stop <= a + 4 /\ ((stop - start) mod 4 <> 0 -> stop < a + 4) /\
    forall (M : Type) (rdm : M -> Z -> Z) wrm fuel m, good_memory rdm wrm -> stop - start <= 4 * Z.of_nat fuel ->
      exists m' k, check rdm wrm fuel m start stop = Ok (m', true) /\ a = start + 4 * Z.of_nat k /\
        rdm m' a = Nat.iter k encode initseed.
Proof. exact Memory.last_word_beyond. Qed.
Print Assumptions C109_last_word.
Example C109_hypotheses_met :
  (9 - 0) mod 4 <> 0 /\ 9 < 0 + 4 * ((9 - 0 - 1) / 4) + 4 /\
  match check (wired_rd (fun a => a)) (wired_wr (fun a => a)) 3 (fun _ => 0) 0 9 with
  | Ok (m, r) => r = true /\ m 8 = Nat.iter 2 encode initseed | _ => False end.
Proof. repeat split; first [reflexivity | discriminate]. Qed.

(** C110.  [w] is the width of std::size_t, [d] is sizeof(T), the alignment is 2^k. *)
Theorem C110_padding :
  forall w d k, 0 <= k < w -> 0 <= d -> d + 2 ^ k - 1 < 2 ^ w ->
    least_multiple (2 ^ k) d (padded_aligned_sz w d (2 ^ k)) /\
    d + padded_pad_sz w d (2 ^ k) = padded_aligned_sz w d (2 ^ k) /\
    0 <= padded_pad_sz w d (2 ^ k) < 2 ^ k.
Proof. exact Memory.padded_ok. Qed.
Print Assumptions C110_padding.
Example C110_hypotheses_met : 100 + 2 ^ 6 - 1 < 2 ^ 32 /\ padded_aligned_sz 32 100 (2 ^ 6) = 128 /\ padded_pad_sz 32 128 (2 ^ 6) = 0.
Proof. repeat split; reflexivity. Qed.
