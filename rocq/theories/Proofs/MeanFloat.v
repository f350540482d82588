(* The oversamplers' means in single precision. *)
From Coq Require Import ZArith Reals Lra Lia List Floats.SpecFloat.
From Flocq Require Import Core.
From Verif.Common Require Import Base Lemmas Lists F32 F32Order F32Real F32Arith F32Err.
From Verif.Spec Require Import History Sums FilterSpec RealMean.
From Verif.Model Require Import Filter.
From Verif.Proofs Require Import MathFloat FilterFloat.
From Verif.Proofs Require Filter.
Import ListNotations.
Open Scope R_scope.

Notation u := (/ 16777216).
Lemma rsum_snoc l x : rsum (l ++ [x]) = rsum l + fval x.
Proof. induction l as [|a l IH]; cbn in *; [lra|]. unfold rsum in IH. rewrite IH. ring. Qed.
Lemma E_small e : (-60 <= e)%Z -> 10 * feta <= u * bpow radix2 e.
Proof.
  intros He. assert (EB : / 10 ^ 19 <= bpow radix2 e). { apply Rle_trans with (bpow radix2 (-60)); [|apply bpow_le; lia]. change (bpow radix2 (-60)) with (/ IZR (2 ^ 60)). apply Rinv_le_contravar; [apply IZR_lt; reflexivity|]. rewrite pow_IZR. apply IZR_le. vm_compute. discriminate. }
  pose proof feta_small. lra.
Qed.
Section Mean.
Variable e : Z.
Hypothesis He : (-60 <= e <= 100)%Z.
Notation E := (bpow radix2 e).
Lemma rsum_bound l : samples e l -> Rabs (rsum l) <= INR (length l) * E.
Proof. induction l as [|a l IH]; intros H; [cbn; rewrite Rabs_R0; lra|]. inversion H as [|? ? [_ B] HR]; subst. change (rsum (a :: l)) with (fval a + rsum l). change (length (a :: l)) with (S (length l)). rewrite S_INR. apply Rle_trans with (1 := Rabs_triang _ _). specialize (IH HR). lra. Qed.
Lemma sum_acc l : samples e l -> INR (length l) <= 1048576 -> let s := fold_left fadd l f32_zero in finite_f32 s /\ Rabs (fval s - rsum l) <= INR (length l) * INR (length l) * (u * E).
Proof.
  induction l as [|x l IH] using rev_ind; intros H HL; cbn zeta.
  - split; [split; reflexivity|]. change (fval (fold_left fadd [] f32_zero)) with 0. change (rsum []) with 0. rewrite Rminus_0_r, Rabs_R0. cbn. lra.
  - apply Forall_app in H. destruct H as [Hl Hx]. inversion Hx as [|? ? [Fx Bx] _]; subst. rewrite app_length, plus_INR in *. cbn [length INR] in *. specialize (IH Hl ltac:(lra)). cbn zeta in IH. destruct IH as [Fs Es].
    rewrite fold_left_app. cbn [fold_left]. rewrite rsum_snoc. set (s := fold_left fadd l f32_zero) in *. set (k := INR (length l)) in *. pose proof (bpow_gt_0 radix2 e) as EP. pose proof (E_small e ltac:(lia)) as ES. pose proof feta_pos as EQ. pose proof (rsum_bound l Hl) as SB. fold k in SB.
    destruct l as [|y l'].
    + cbn in s. unfold s. destruct (zero_add x false Fx) as [F V]. split; [exact F|]. change f32_zero with (S754_zero false). rewrite V. cbn. replace (fval x - (0 + fval x)) with 0 by ring. rewrite Rabs_R0. unfold k. cbn. lra.
    + assert (K1 : 1 <= k) by (unfold k; change (length (y :: l')) with (S (length l')); rewrite S_INR; pose proof (pos_INR (length l')); lra). clearbody k s.
      assert (KK : k * k <= 1048576 * k) by (apply Rmult_le_compat_r; lra). assert (KE : k * k * (u * E) <= 1048576 * k * (u * E)) by (apply Rmult_le_compat_r; lra). assert (KB : k * E <= 1048576 * E) by (apply Rmult_le_compat_r; lra).
      assert (A : Rabs (fval s + fval x - (rsum (y :: l') + fval x)) <= k * k * (u * E)) by (replace (fval s + fval x - (rsum (y :: l') + fval x)) with (fval s - rsum (y :: l')) by ring; exact Es).
      assert (MB : Rabs (fval s + fval x) <= (k + 1) * E + / 16 * (k * E)). { replace (fval s + fval x) with ((fval s - rsum (y :: l')) + (rsum (y :: l') + fval x)) by ring. apply Rle_trans with (1 := Rabs_triang _ _). pose proof (Rabs_triang (rsum (y :: l')) (fval x)). lra. }
      assert (B : Rabs (fval s + fval x) <= bpow radix2 127). { apply (le_127 (e + 21)); [lia|]. rewrite pow_up. change (bpow radix2 21) with (IZR (2 ^ 21)). change (2 ^ 21)%Z with 2097152%Z. lra. }
      destruct (fadd_b s x Fs Fx B) as [F V]. split; [exact F|]. rewrite V. pose proof (RN_any (fval s + fval x)) as R. rewrite fu_val in R.
      replace (RN (fval s + fval x) - (rsum (y :: l') + fval x)) with ((RN (fval s + fval x) - (fval s + fval x)) + (fval s + fval x - (rsum (y :: l') + fval x))) by ring. apply Rle_trans with (1 := Rabs_triang _ _).
      assert (1 * E <= k * E) by (apply Rmult_le_compat_r; lra). lra.
Qed.
Lemma mean_acc l : samples e l -> (1 <= zlen l <= 2 ^ 20)%Z -> finite_f32 (fmean l) /\ Rabs (fval (fmean l) - rmean l) <= (IZR (zlen l) + 2) * bpow radix2 (e - 24).
Proof.
  intros H HN. assert (EN : INR (length l) = IZR (zlen l)) by (rewrite INR_IZR_INZ; reflexivity). assert (N : 1 <= IZR (zlen l) <= 1048576) by (split; apply IZR_le; [lia|change 1048576%Z with (2 ^ 20)%Z; lia]).
  destruct (sum_acc l H ltac:(lra)) as [Fs Es]. cbn zeta in *. pose proof (rsum_bound l H) as SB. rewrite EN in *. unfold fmean, rmean. set (s := fold_left fadd l f32_zero) in *. destruct (int_b (zlen l) ltac:(lia)) as [Fn Vn]. set (n := IZR (zlen l)) in *.
  pose proof (bpow_gt_0 radix2 e) as EP. pose proof (E_small e ltac:(lia)) as ES. pose proof feta_pos as EQ. assert (I : 0 < / n) by (apply Rinv_0_lt_compat; lra).
  assert (D : Rabs (fval s / n - rsum l / n) <= n * (u * E)). { replace (fval s / n - rsum l / n) with ((fval s - rsum l) * / n) by (unfold Rdiv; ring). rewrite Rabs_mult, (Rabs_pos_eq (/ n)) by lra. apply Rmult_le_reg_r with n; [lra|]. rewrite Rmult_assoc, Rinv_l by lra. lra. }
  assert (M : Rabs (rsum l / n) <= E). { unfold Rdiv. rewrite Rabs_mult, (Rabs_pos_eq (/ n)) by lra. apply Rmult_le_reg_r with n; [lra|]. rewrite Rmult_assoc, Rinv_l by lra. lra. }
  assert (NE : n * (u * E) <= / 16 * E). { apply Rle_trans with (1048576 * (u * E)); [apply Rmult_le_compat_r; lra|lra]. }
  assert (MS : Rabs (fval s / n) <= E + / 16 * E). { replace (fval s / n) with ((fval s / n - rsum l / n) + rsum l / n) by ring. apply Rle_trans with (1 := Rabs_triang _ _). lra. }
  destruct (fdiv_b s _ Fs Fn) as [F V]; [rewrite Vn; lra|rewrite Vn; apply (le_127 (e + 1)); [lia|rewrite pow_step; lra]|]. rewrite Vn in V. split; [exact F|]. rewrite V. pose proof (RN_any (fval s / n)) as R. rewrite fu_val in R.
  replace (e - 24)%Z with (e + (-24))%Z by lia. rewrite pow_up. change (bpow radix2 (-24)) with u.
  replace (RN (fval s / n) - rsum l / n) with ((RN (fval s / n) - fval s / n) + (fval s / n - rsum l / n)) by ring. apply Rle_trans with (1 := Rabs_triang _ _). lra.
Qed.
End Mean.
(* where the blocks come from *)
Lemma blocks_inv e h s : Forall (op_ok e) h -> (1 <= b_size s <= 2 ^ 20)%Z /\ samples e (b_cur s) /\ (zlen (b_cur s) < b_size s)%Z /\ (forall l, b_done s = Some l -> samples e l /\ (1 <= zlen l <= 2 ^ 20)%Z) ->
  let r := fold_left blocks_step h s in forall l, b_done r = Some l -> samples e l /\ (1 <= zlen l <= 2 ^ 20)%Z.
Proof.
  revert s. induction h as [|o h IH]; intros s H (A & B & C & D); [exact D|]. inversion H as [|? ? Ho HR]; subst. cbn zeta. cbn [fold_left]. apply IH; [exact HR|]. destruct o as [n|x]; cbn [op_ok blocks_step] in *.
  - destruct (Z.geb_spec (zlen (b_cur s)) n); cbn.
    + split; [lia|]. split; [constructor|]. split; [unfold zlen; cbn; lia|]. intros l [= <-]. split; [exact B|lia].
    + repeat split; auto; try lia; apply D; assumption.
  - assert (B' : samples e (b_cur s ++ [x])) by (apply Forall_app; split; [exact B|constructor; [exact Ho|constructor]]). assert (L : zlen (b_cur s ++ [x]) = (zlen (b_cur s) + 1)%Z) by (unfold zlen; rewrite app_length; cbn; lia). pose proof (zlen_nonneg (b_cur s)).
    destruct (Z.geb_spec (zlen (b_cur s ++ [x])) (b_size s)); cbn.
    + split; [lia|]. split; [constructor|]. split; [unfold zlen; cbn; lia|]. intros l [= <-]. split; [exact B'|lia].
    + repeat split; auto; try lia; apply D; assumption.
Qed.
Lemma resizing_mean e size h l : (-60 <= e <= 100)%Z -> (1 <= size <= 2 ^ 20)%Z -> Forall (op_ok e) h -> b_done (fold_left blocks_step h (Blocks size [] None)) = Some l ->
  let r := ro_val (fold_left ro_step h (ro0 size)) in finite_f32 r /\ Rabs (fval r - rmean l) <= (IZR (zlen l) + 2) * bpow radix2 (e - 24).
Proof.
  intros He Hs Hh Hl r. destruct (blocks_inv e h (Blocks size [] None) Hh) with (l := l) as [A B]; [cbn; split; [lia|]; split; [constructor|]; split; [unfold zlen; cbn; lia|discriminate]|exact Hl|].
  unfold r. rewrite Filter.ro_history; [unfold last_mean; rewrite Hl; apply mean_acc; assumption|lia|]. intros n Hn. rewrite Forall_forall in Hh. specialize (Hh _ Hn). cbn in Hh. lia.
Qed.
(* SmoothOversampler *)
Lemma smooth_mean sum Size : (0 <= sum < 2 ^ 32)%Z -> (1 <= Size <= 2 ^ 24)%Z -> let r := fdiv (f32_of_int sum) (f32_of_int Size) in finite_f32 r /\ Rabs (fval r - IZR sum / IZR Size) <= 21 / 10 * u * (IZR sum / IZR Size).
Proof.
  intros H0 H1 r. destruct (int_b Size ltac:(lia)) as [Fn Vn]. assert (N : 1 <= IZR Size <= 16777216) by (split; apply IZR_le; [lia|change 16777216%Z with (2 ^ 24)%Z; lia]). assert (I : 0 < / IZR Size <= 1) by (split; [apply Rinv_0_lt_compat; lra|rewrite <- Rinv_1; apply Rinv_le_contravar; lra]).
  assert (S0 : 0 <= IZR sum <= IZR (2 ^ 32)) by (split; apply IZR_le; lia).
  destruct (Z.eq_dec sum 0) as [->|NZ].
  { destruct (int_b 0 ltac:(lia)) as [F0 V0]. destruct (fdiv_b _ _ F0 Fn) as [F V]; [rewrite Vn; lra|rewrite V0; unfold Rdiv; rewrite Rmult_0_l, Rabs_R0; apply bpow_ge_0|]. split; [exact F|]. unfold r. rewrite V, V0, Vn. unfold Rdiv. rewrite Rmult_0_l, RN_0, Rminus_0_r, Rabs_R0. lra. }
  assert (S1 : 1 <= IZR sum) by (apply IZR_le; lia).
  assert (G : bpow radix2 (-126) <= Rabs (IZR sum)) by (rewrite Rabs_pos_eq by lra; apply Rle_trans with (bpow radix2 0); [apply bpow_le; lia|exact S1]).
  pose proof (RN_rel _ G) as R. change (bpow radix2 (-24)) with u in R. rewrite (Rabs_pos_eq (IZR sum)) in R by lra.
  assert (BS : Rabs (IZR sum) <= bpow radix2 127) by (apply (small_le_127 32); [lia|rewrite Rabs_pos_eq; lra]).
  destruct (f32_of_val sum 0) as [VS FS]; [change (bpow radix2 0) with 1; rewrite Rmult_1_r; apply RN_pow_bound; exact BS|]. change (bpow radix2 0) with 1 in VS. rewrite Rmult_1_r in VS. fold (f32_of_int sum) in VS, FS.
  assert (FI : finite_f32 (f32_of_int sum)) by (split; [apply f32_of_int_valid|exact FS]). apply Rabs_le_inv in R. rewrite <- VS in R. set (a := fval (f32_of_int sum)) in *.
  assert (Q : Rabs (a / IZR Size - IZR sum / IZR Size) <= u * (IZR sum / IZR Size)). { replace (a / IZR Size - IZR sum / IZR Size) with ((a - IZR sum) * / IZR Size) by (unfold Rdiv; ring). rewrite Rabs_mult, (Rabs_pos_eq (/ IZR Size)) by lra. unfold Rdiv. rewrite <- Rmult_assoc. apply Rmult_le_compat_r; [lra|]. apply Rabs_le. lra. }
  assert (QL : u <= IZR sum / IZR Size <= IZR (2 ^ 32)). { unfold Rdiv. split; [apply Rle_trans with (1 * / IZR Size); [rewrite Rmult_1_l; apply Rinv_le_contravar; lra|apply Rmult_le_compat_r; lra]|]. pose proof (Rmult_le_compat_l (IZR sum) (/ IZR Size) 1 ltac:(lra) ltac:(lra)). lra. }
  pose proof (proj1 (Rabs_le_inv _ _ Q)) as Q1. pose proof (proj2 (Rabs_le_inv _ _ Q)) as Q2. set (m := IZR sum / IZR Size) in *. assert (AP : 0 <= a / IZR Size) by lra.
  destruct (fdiv_b _ _ FI Fn) as [F V]; [rewrite Vn; lra|rewrite Vn; fold a; apply (small_le_127 33); [lia|]; change (IZR (2 ^ 33)) with (2 * IZR (2 ^ 32)); rewrite Rabs_pos_eq; lra|]. rewrite Vn in V. split; [exact F|]. unfold r. rewrite V. fold a.
  assert (G2 : bpow radix2 (-126) <= Rabs (a / IZR Size)). { rewrite Rabs_pos_eq by lra. apply Rle_trans with (bpow radix2 (-25)); [apply bpow_le; lia|]. change (bpow radix2 (-25)) with (/ 33554432). lra. }
  pose proof (RN_rel _ G2) as R2. change (bpow radix2 (-24)) with u in R2. rewrite (Rabs_pos_eq (a / IZR Size)) in R2 by lra.
  replace (RN (a / IZR Size) - m) with ((RN (a / IZR Size) - a / IZR Size) + (a / IZR Size - m)) by ring. apply Rle_trans with (1 := Rabs_triang _ _). lra.
Qed.
Lemma smooth_block Size bound h x : (1 <= Size <= 2 ^ 24)%Z -> (Size * (bound - 1) < 2 ^ 32)%Z -> Forall (fun v => (0 <= v < bound)%Z) (h ++ [x]) -> (Size <= zlen (h ++ [x]))%Z ->
  let m := IZR (zsum (block Size (zlen (h ++ [x]) / Size - 1) (h ++ [x]))) / IZR Size in
  let r := answer (smooth_add Size) smooth0 h x in finite_f32 r /\ Rabs (fval r - m) <= 21 / 10 * u * m.
Proof.
  intros HS HB HF HL m r. unfold r. rewrite (Filter.smooth_correct Size bound) by (assumption || lia). unfold last_block_value. destruct (Z.ltb_spec (zlen (h ++ [x])) Size); [lia|]. apply smooth_mean; [|exact HS].
  set (b := block _ _ _). assert (Hb : Forall (fun v => (0 <= v < bound)%Z) b).
  { unfold b, block. rewrite Forall_forall in HF |- *. intros y Hy. apply HF. rewrite <- (firstn_skipn (Z.to_nat ((zlen (h ++ [x]) / Size - 1) * Size)) (h ++ [x])). apply in_or_app. right. rewrite <- (firstn_skipn (Z.to_nat Size)). apply in_or_app. left. exact Hy. }
  pose proof (Filter.zsum_bound b bound Hb) as ZB. assert (LB : (zlen b <= Size)%Z) by (unfold b, block; rewrite zlen_firstn_min by lia; lia).
  assert (0 < bound)%Z by (destruct (h ++ [x]) as [|y t] eqn:E; [rewrite zlen_nil in HL; lia|inversion HF; lia]).
  assert (zlen b * (bound - 1) <= Size * (bound - 1))%Z by (apply Z.mul_le_mono_nonneg_r; lia). lia.
Qed.
