(* Little-endian byte strings. *)
From Verif.Common Require Import Base Lemmas Lists.
From Verif.Spec Require Import BinarySpec.

Lemma pow256 n : 256 ^ Z.of_nat n = 2 ^ (8 * Z.of_nat n).
Proof. rewrite Z.pow_mul_r by lia. reflexivity. Qed.
Lemma le_length n x : length (le n x) = n.
Proof. revert x; induction n; intros x; cbn [le length]; auto. Qed.
Lemma zlen_le n x : zlen (le n x) = Z.of_nat n.
Proof. unfold zlen. rewrite le_length. reflexivity. Qed.
Lemma unle_le n x : unle (le n x) = x mod 256 ^ Z.of_nat n.
Proof.
  revert x; induction n as [|n IH]; intros x; cbn [le unle].
  - rewrite Z.mod_1_r. reflexivity.
  - rewrite IH. replace (Z.of_nat (S n)) with (Z.succ (Z.of_nat n)) by lia.
    rewrite Z.pow_succ_r by lia.
    rewrite Z.rem_mul_r by (pose proof (Z.pow_pos_nonneg 256 (Z.of_nat n)); lia). reflexivity.
Qed.
Lemma le_mod n x : le n (x mod 256 ^ Z.of_nat n) = le n x.
Proof.
  revert x; induction n as [|n IH]; intros x; cbn [le]; [reflexivity|].
  replace (Z.of_nat (S n)) with (Z.succ (Z.of_nat n)) by lia.
  rewrite Z.pow_succ_r by lia.
  pose proof (Z.pow_pos_nonneg 256 (Z.of_nat n) ltac:(lia) ltac:(lia)) as Hp.
  rewrite Z.rem_mul_r by lia. f_equal.
  - rewrite Z.mul_comm, Z_mod_plus_full. apply Zmod_mod.
  - rewrite Z.mul_comm, Z_div_plus_full by lia.
    rewrite Z.div_small by (apply Z.mod_pos_bound; lia). rewrite Z.add_0_l. apply IH.
Qed.
Lemma le_congr n x y : x mod 256 ^ Z.of_nat n = y mod 256 ^ Z.of_nat n -> le n x = le n y.
Proof. intros H. rewrite <- (le_mod n x), H. apply le_mod. Qed.
Lemma le_bytes n x : Forall is_byte (le n x).
Proof. revert x; induction n; intros x; cbn [le]; constructor; auto. unfold is_byte. apply Z.mod_pos_bound; lia. Qed.
Lemma unle_range l : Forall is_byte l -> 0 <= unle l < 256 ^ zlen l.
Proof.
  induction 1 as [|b l Hb Hl IH]; [cbn; lia|]. rewrite zlen_cons. cbn [unle].
  rewrite Z.pow_add_r by (try apply zlen_nonneg; lia). unfold is_byte in Hb. change (256 ^ 1) with 256. nia.
Qed.
Lemma le_unle l : Forall is_byte l -> le (length l) (unle l) = l.
Proof.
  induction 1 as [|b l Hb Hl IH]; [reflexivity|]. cbn [length le unle]. unfold is_byte in Hb. f_equal.
  - rewrite Z.mul_comm, Z_mod_plus_full. apply Z.mod_small; lia.
  - rewrite Z.mul_comm, Z_div_plus_full by lia. rewrite Z.div_small by lia. rewrite Z.add_0_l. exact IH.
Qed.
