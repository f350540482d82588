(* C153: a string shared by a main program and an interrupt handler. *)
From Verif.Common Require Import Base Lists.
From Verif.Spec Require Import IrqSpec StaticStringSpec StringIrqSpec.
From Verif.Model Require Import StaticString Irq StringIrq.
From Verif.Proofs Require StringIrq Uninterrupted.

(** C153.  The main program copies a text into the string or clears it; the handler interrupts it
    anywhere, any number of times, and only looks.  If the last character of the array is NUL, as in a
    zero-initialised string, the text becomes the one asked for, nothing is undefined, the last
    character stays NUL, and every look is answered for a text that consists of the characters stored
    so far followed by those the array held behind them, or for the new text. *)
Theorem C153_interrupted_copy :
  forall cap, 0 < cap -> forall d t m gaps, zlen d = cap + 1 -> znth d cap = Some 0 -> cstring d = Some t ->
    ~ s_reads m -> sop_ok t m -> Forall s_reads (concat gaps) ->
    exists d' q, iexec (ss_step cap) (s_main cap m) d gaps = Ok (d', SoUnit, q) /\ zlen d' = cap + 1 /\ znth d' cap = Some 0 /\ cstring d' = Some (fst (ss_spec cap t m)) /\
      Forall2 (fun o r => exists x, shows d (s_stores cap t m) x /\ r = snd (ss_spec cap x o)) (concat gaps) q.
Proof. exact StringIrq.copy_interrupted. Qed.
Print Assumptions C153_interrupted_copy.
(** The main program looks and the handler copies and clears: for every terminated array nothing is
    undefined, and the text the main program sees has at most [cap] characters, the character number
    [i] being that of the array at some moment, each no earlier than the one before. *)
Theorem C153_interrupted_look :
  forall cap, 0 < cap -> forall d t m gaps, zlen d = cap + 1 -> cstring d = Some t -> s_reads m -> Forall s_writes (concat gaps) ->
    exists d' r q x, iexec (ss_step cap) (s_main cap m) d gaps = Ok (d', r, q) /\ run (ss_step cap) d (concat gaps) = Ok (d', q) /\
      Forall (fun c => c <> 0) x /\ zlen x <= cap /\
      (let at_moment n e := exists q, run (ss_step cap) d (firstn n (concat gaps)) = Ok (e, q) in read_in_passing at_moment x /\ answers cap at_moment m x r).
Proof. exact StringIrq.read_interrupted. Qed.
Print Assumptions C153_interrupted_look.
(** What does not hold.  The text seen is neither the old nor the new one: after copying [a] and then
    [b], a look during the copying of [c] shows [c] followed by the rest of [a], which had been
    overwritten before. *)
Theorem C153_look_sees_one_text_refuted :
  forall cap, 0 < cap -> forall raw a b c, zlen raw = cap + 1 -> Forall (fun x => x <> 0) a -> Forall (fun x => x <> 0) b -> Forall (fun x => x <> 0) c ->
    zlen b < zlen c -> zlen c <= zlen a -> zlen a <= cap ->
    exists d q gaps d', run (ss_step cap) raw [SCopyC (a ++ [0]); SCopyC (b ++ [0])] = Ok (d, q) /\ cstring d = Some b /\ concat gaps = [SText] /\
      iexec (ss_step cap) (s_main cap (SCopyC (c ++ [0]))) d gaps = Ok (d', SoUnit, [SoText (c ++ skipn (Z.to_nat (zlen c)) a)]) /\ cstring d' = Some c.
Proof. exact StringIrq.stale. Qed.
Print Assumptions C153_look_sees_one_text_refuted.
(** Without the NUL at the end of the array, that is in a string made by the default constructor on
    memory full of other characters, a look during the first copy of any text reads beyond the array. *)
Theorem C153_always_terminated_refuted :
  forall cap, 0 < cap -> forall raw w, zlen raw = cap + 1 -> Forall (fun x => x <> 0) raw -> Forall (fun x => x <> 0) w -> 0 < zlen w <= cap ->
    exists d q gaps, run (ss_step cap) raw [SClear] = Ok (d, q) /\ cstring d = Some [] /\ concat gaps = [SText] /\
      iexec (ss_step cap) (s_main cap (SCopyC (w ++ [0]))) d gaps = UB OutOfBounds.
Proof. exact StringIrq.unterminated. Qed.
Print Assumptions C153_always_terminated_refuted.
(** A look of the main program during which the handler replaces the text by another one of the same
    length can show any first part of the old text followed by the rest of the new one. *)
Theorem C153_look_in_one_piece_refuted :
  forall cap, 0 < cap -> forall d t u j, zlen d = cap + 1 -> cstring d = Some t -> Forall (fun x => x <> 0) u -> zlen u = zlen t -> 0 <= j <= zlen t ->
    exists gaps d', concat gaps = [SCopyC (u ++ [0])] /\
      iexec (ss_step cap) (s_main cap SText) d gaps = Ok (d', SoText (firstn (Z.to_nat j) t ++ skipn (Z.to_nat j) u), [SoUnit]) /\ cstring d' = Some u.
Proof. exact StringIrq.torn. Qed.
Print Assumptions C153_look_in_one_piece_refuted.
(** A call that is not interrupted does what the call does. *)
Theorem C153_uninterrupted :
  forall cap s o, 0 <= cap -> zlen s = cap + 1 ->
    irun (ss_step cap) (s_main cap) s [Call o []] = let* (s', r) := ss_step cap s o in Ok (s', [r], []).
Proof. exact Uninterrupted.uninterrupted_string. Qed.
Print Assumptions C153_uninterrupted.
Example C153_hypotheses_met :
  let d := [1; 2; 3; 4; 0] in
  zlen d = 4 + 1 /\ znth d 4 = Some 0 /\ cstring d = Some [1; 2; 3; 4] /\ ~ s_reads (SCopyC [7; 8; 0]) /\ sop_ok [1; 2; 3; 4] (SCopyC [7; 8; 0]) /\
  Forall s_reads (concat [[SText]; [SLength; SText]; [SText; SEqual [7; 8; 3; 4; 0]]; [SText]]) /\
  iexec (ss_step 4) (s_main 4 (SCopyC [7; 8; 0])) d [[SText]; [SLength; SText]; [SText; SEqual [7; 8; 3; 4; 0]]; [SText]] =
    Ok ([7; 8; 0; 4; 0], SoUnit, [SoText [1; 2; 3; 4]; SoNum 4; SoText [7; 2; 3; 4]; SoText [7; 8; 3; 4]; SoBool true; SoText [7; 8]]) /\
  Forall s_writes (concat [[]; [SCopyC [7; 8; 0]; SClear]; [SCopySV [9; 9; 9; 9]]]) /\
  iexec (ss_step 4) (s_main 4 SText) d [[]; [SCopyC [7; 8; 0]; SClear]; [SCopySV [9; 9; 9; 9]]] = Ok ([9; 9; 9; 9; 0], SoText [1; 8; 9; 9], [SoUnit; SoUnit; SoUnit]).
Proof.
  cbn zeta. repeat split; try (vm_compute; reflexivity); cbn; try lia; try tauto; try discriminate. all: repeat constructor; cbn; discriminate.
Qed.
