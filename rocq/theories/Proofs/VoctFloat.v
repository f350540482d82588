(* VoctCalibrator<float>: the recorded points, the slope and the offset. *)
From Coq Require Import ZArith Reals Lra Lia List Floats.SpecFloat.
From Flocq Require Import Core.
From Verif.Common Require Import Base Lemmas Lists F32 F32Order F32Real F32Arith F32Err.
From Verif.Spec Require Import VoctSpec.
From Verif.Model Require Import VoctF.
From Verif.Proofs Require Import MathFloat TableAcc CalibFloat.
Import ListNotations.
Open Scope R_scope.

Definition slope_of (p q : Z * f32) : f32 := fdiv (fsub (snd p) (snd q)) (f32_of_int (fst p - fst q)).
Definition offset_of (sl : f32) (p q : Z * f32) : f32 :=
  fdiv (fadd (fsub (snd p) (fmul sl (f32_of_int (fst p)))) (fsub (snd q) (fmul sl (f32_of_int (fst q))))) (f32_of_int 2).
Definition differ (p q : Z * f32) : Prop := fst p <> fst q /\ SFeqb (fsub (snd p) (snd q)) f32_zero = false.
Record vfinv (s : voctf) (h : list (Z * f32)) : Prop := {
  f_num : vf_num s = Z.min 2 (zlen h);
  f_len : exists a b, vf_pts s = [a; b] /\ (forall l p, h = l ++ [p] -> if (vf_num s =? 2)%Z then b = p else a = p) /\ (forall l p q, h = l ++ [p; q] -> a = p /\ b = q);
  f_c0 : vf_c0 s = existsb (fun p => (fst p =? 0)%Z) h;
  f_off0 : forall l m r, h = l ++ (0%Z, m) :: r -> Forall (fun p => fst p <> 0%Z) r -> vf_offset s = m;
  f_slope : forall l p q, h = l ++ [p; q] -> differ p q -> vf_slope s = slope_of p q;
  f_off : forall l p q, h = l ++ [p; q] -> Forall (fun p => fst p <> 0%Z) h -> vf_offset s = offset_of (vf_slope s) p q }.
Lemma snoc_inj {A} (l l' : list A) x y : l ++ [x] = l' ++ [y] -> l = l' /\ x = y. Proof. apply app_inj_tail. Qed.
Definition next_state (s : voctf) (p q : Z * f32) : voctf :=
  let c0 := if (fst q =? 0)%Z then true else vf_c0 s in
  let slope := if negb (fst p - fst q =? 0)%Z && negb (SFeqb (fsub (snd p) (snd q)) f32_zero) then slope_of p q else vf_slope s in
  VF (if c0 then (if (fst q =? 0)%Z then snd q else vf_offset s) else offset_of slope p q) slope [p; q] 2 c0.
Lemma rec_first s n m a b : n <> 11%Z -> vf_num s = 0%Z -> vf_pts s = [a; b] -> voctf_record s n m = Ok (VF (if (n =? 0)%Z then m else vf_offset s) (vf_slope s) [(n, m); b] 1 (if (n =? 0)%Z then true else vf_c0 s)).
Proof. intros Hn H0 HP. unfold voctf_record. rewrite (proj2 (Z.eqb_neq n 11) Hn), H0, HP. reflexivity. Qed.
Lemma rec_next s n m a b x : n <> 11%Z -> vf_pts s = [a; b] -> vf_num s = 1%Z /\ a = x \/ vf_num s = 2%Z /\ b = x -> voctf_record s n m = Ok (next_state s x (n, m)).
Proof. intros Hn HP H. unfold voctf_record. rewrite (proj2 (Z.eqb_neq n 11) Hn), HP. destruct H as [[-> ->]|[-> ->]]; reflexivity. Qed.
Lemma snoc_or_nil {A} (h : list A) : h = [] \/ exists l x, h = l ++ [x].
Proof. destruct h as [|y t] using rev_ind; [left; reflexivity|right; eauto]. Qed.
Lemma existsb_snoc {A} (f : A -> bool) l x : existsb f (l ++ [x]) = existsb f l || f x.
Proof. induction l as [|y l IH]; cbn; [destruct (f x); reflexivity|]. rewrite IH. apply orb_assoc. Qed.
Lemma no_c0 h : Forall (fun p : Z * f32 => fst p <> 0%Z) h -> existsb (fun p => (fst p =? 0)%Z) h = false.
Proof. induction 1 as [|y h Hy HF IH]; [reflexivity|]. cbn. rewrite IH, (proj2 (Z.eqb_neq _ _) Hy). reflexivity. Qed.
Lemma has_c0 l m r : existsb (fun p : Z * f32 => (fst p =? 0)%Z) (l ++ (0%Z, m) :: r) = true.
Proof. rewrite existsb_app. cbn. apply orb_true_r. Qed.
Lemma last_c0 h n m l v r : h ++ [(n, m)] = l ++ (0%Z, v) :: r -> Forall (fun p : Z * f32 => fst p <> 0%Z) r ->
  (n = 0%Z /\ v = m) \/ (n <> 0%Z /\ exists r', h = l ++ (0%Z, v) :: r' /\ Forall (fun p : Z * f32 => fst p <> 0%Z) r').
Proof.
  intros E HF. destruct (snoc_or_nil r) as [->|(r' & x & ->)].
  - apply app_inj_tail in E. destruct E as [_ E]. injection E as -> ->. auto.
  - rewrite app_comm_cons, app_assoc in E. apply app_inj_tail in E. destruct E as [E <-]. apply Forall_app in HF. destruct HF as [HF HX]. inversion HX; subst. right. split; [assumption|]. exists r'. auto.
Qed.
Lemma two_snoc {A} (h : list A) x l p q : h ++ [x] = l ++ [p; q] -> h = l ++ [p] /\ x = q.
Proof. change [p; q] with ([p] ++ [q]). rewrite app_assoc. apply app_inj_tail. Qed.
Lemma vf_step s h n m : (0 <= n <= 11)%Z -> vfinv s h -> exists s', voctf_record s n m = Ok s' /\ vfinv s' (vf_measured h (VFRec n m)).
Proof.
  intros Hn HI. cbn [vf_measured]. destruct (Z.eqb_spec n 11) as [->|N]. { exists s. split; [reflexivity|exact HI]. }
  destruct HI as [HN (a & b & HP & HL1 & HL2) HC HO HS HF]. destruct (snoc_or_nil h) as [->|(l & x & ->)].
  - rewrite (rec_first s n m a b N HN HP). eexists. split; [reflexivity|]. split; cbn [vf_num vf_pts vf_c0 vf_offset vf_slope app].
    + reflexivity.
    + exists (n, m), b. split; [reflexivity|]. split; [intros l p E; change [(n, m)] with ([] ++ [(n, m)]) in E; apply app_inj_tail in E; cbn; tauto|]. intros l p q E. apply (f_equal (@length _)) in E. rewrite app_length in E. cbn in E. lia.
    + rewrite HC. cbn. destruct (n =? 0)%Z; reflexivity.
    + intros l v r E HR. change [(n, m)] with ([] ++ [(n, m)]) in E. destruct (last_c0 _ _ _ _ _ _ E HR) as [[-> ->]|(_ & r' & E' & _)]; [reflexivity|destruct l; discriminate].
    + intros l p q E. apply (f_equal (@length _)) in E. rewrite app_length in E. cbn in E. lia.
    + intros l p q E. apply (f_equal (@length _)) in E. rewrite app_length in E. cbn in E. lia.
  - assert (LX : (1 <= zlen (l ++ [x]))%Z) by (rewrite zlen_app, zlen_cons, zlen_nil; pose proof (zlen_nonneg l); lia).
    rewrite (rec_next s n m a b x N HP). 2: { specialize (HL1 l x eq_refl). destruct (Z.eqb_spec (vf_num s) 2); [right; auto|left; split; [lia|exact HL1]]. }
    eexists. split; [reflexivity|]. unfold next_state. cbn [fst snd]. split; cbn [vf_num vf_pts vf_c0 vf_offset vf_slope].
    + rewrite zlen_app, zlen_cons, zlen_nil. lia.
    + exists x, (n, m). split; [reflexivity|]. split; [intros l' p E; apply app_inj_tail in E; cbn; tauto|]. intros l' p q E. apply two_snoc in E. destruct E as [E <-]. apply app_inj_tail in E. tauto.
    + rewrite existsb_snoc, HC. cbn [fst]. destruct (n =? 0)%Z; [rewrite orb_true_r|rewrite orb_false_r]; reflexivity.
    + intros l' v r E HR. destruct (last_c0 _ _ _ _ _ _ E HR) as [[-> ->]|(N0 & r' & E' & HR')]; [reflexivity|]. rewrite (proj2 (Z.eqb_neq n 0) N0), HC, E', has_c0. apply (HO _ _ _ E' HR').
    + intros l' p q E [D1 D2]. apply two_snoc in E. destruct E as [E <-]. apply app_inj_tail in E. destruct E as [_ ->]. cbn [fst snd] in D1, D2. rewrite D2. destruct (Z.eqb_spec (fst p - n) 0); [lia|]. reflexivity.
    + intros l' p q E HR. apply two_snoc in E. destruct E as [E <-]. apply app_inj_tail in E. destruct E as [_ ->]. apply Forall_app in HR. destruct HR as [HR1 HR2]. inversion HR2 as [|? ? N0 _]; subst. cbn [fst] in N0. rewrite (proj2 (Z.eqb_neq n 0) N0), HC, (no_c0 _ HR1). reflexivity.
Qed.
Lemma vf_run ops : forall s h, Forall vf_valid ops -> vfinv s h -> exists s', voctf_run s ops = Ok s' /\ vfinv s' (fold_left vf_measured ops h).
Proof.
  induction ops as [|o ops IH]; intros s h HF HI; [exists s; split; [reflexivity|exact HI]|]. inversion HF as [|? ? HO HF']; subst. cbn [voctf_run fold_left]. destruct o as [|n m]; cbn [voctf_step].
  - cbn [bind]. apply IH; [exact HF'|]. destruct HI as [_ (a & b & HP & _) _ _ _ _]. split; cbn; auto; try (intros; destruct l; discriminate). exists a, b. split; [exact HP|]. split; intros; destruct l; discriminate.
  - destruct (vf_step s h n m HO HI) as (s' & -> & HI'). cbn [bind]. apply IH; assumption.
Qed.
Lemma vf_init : vfinv voctf0 [].
Proof. split; cbn; auto; try (intros; destruct l; discriminate). do 2 eexists. split; [reflexivity|]. split; intros; destruct l; discriminate. Qed.

Section Acc.
Variables (p q : Z * f32).
Notation m0 := (fval (snd p)).
Notation m1 := (fval (snd q)).
Notation n0 := (IZR (fst p)).
Notation n1 := (IZR (fst q)).
Notation S := ((m0 - m1) / (n0 - n1)).
Notation M := (Rabs m0 + Rabs m1).
Hypotheses (Fp : finite_f32 (snd p)) (Fq : finite_f32 (snd q)) (Bp : Rabs m0 <= bpow radix2 100) (Bq : Rabs m1 <= bpow radix2 100)
  (Np : (0 <= fst p <= 10)%Z) (Nq : (0 <= fst q <= 10)%Z) (Hn : fst p <> fst q) (Hm : m0 <> m1).
Lemma m_pos : 0 <= Rabs m0 /\ 0 <= Rabs m1. Proof. split; apply Rabs_pos. Qed.
Lemma span : 1 <= Rabs (n0 - n1) <= 10.
Proof. rewrite <- minus_IZR, <- abs_IZR. split; apply IZR_le; lia. Qed.
Lemma diff_b : finite_f32 (fsub (snd p) (snd q)) /\ fval (fsub (snd p) (snd q)) = RN (m0 - m1) /\ Rabs (RN (m0 - m1) - (m0 - m1)) <= u * Rabs (m0 - m1) /\ RN (m0 - m1) <> 0.
Proof.
  destruct (fsub_b _ _ Fp Fq) as [F V]. { apply (le_127 101); [lia|]. change 101%Z with (100 + 1)%Z. rewrite pow_step. apply Rabs_le_inv in Bp, Bq. apply Rabs_le. lra. }
  split; [exact F|]. split; [exact V|]. split; [|apply sub_ne; auto; apply fval_in; [apply Fp|apply Fq]]. pose proof (sub_rel _ _ (fval_in _ (proj1 Fp)) (fval_in _ (proj1 Fq))) as R. rewrite fu_val in R. exact R.
Qed.
Lemma differ_b : differ p q.
Proof.
  split; [exact Hn|]. destruct diff_b as ([_ F] & V & _ & NZ). rewrite <- V in NZ. destruct (fsub (snd p) (snd q)) as [s|s| |s mm ex]; try discriminate; [exfalso; apply NZ; reflexivity|]. unfold SFeqb. destruct s; reflexivity.
Qed.
Lemma S_bound : Rabs S <= M /\ Rabs (m0 - m1) <= M.
Proof.
  assert (D : Rabs (m0 - m1) <= M) by apply abs_sub. destruct span as [S1 S2]. split; [|exact D]. unfold Rdiv. rewrite Rabs_mult, Rabs_inv. apply Rle_trans with (Rabs (m0 - m1) * 1); [|lra]. apply Rmult_le_compat_l; [apply Rabs_pos|]. rewrite <- Rinv_1. apply Rinv_le_contravar; lra.
Qed.
Lemma slope_acc : finite_f32 (slope_of p q) /\ Rabs (fval (slope_of p q) - S) <= 21 / 10 * u * Rabs S + feta.
Proof.
  destruct diff_b as (Fd & Vd & Rd & _). destruct (int_b (fst p - fst q) ltac:(lia)) as [Fi Vi]. rewrite minus_IZR in Vi. destruct span as [S1 S2]. assert (NZ : n0 - n1 <> 0) by (intros E; rewrite E, Rabs_R0 in S1; lra). destruct S_bound as [SB DB].
  set (d := RN (m0 - m1)) in *. assert (Q : Rabs (d / (n0 - n1) - S) <= u * Rabs S).
  { replace (d / (n0 - n1) - S) with ((d - (m0 - m1)) * / (n0 - n1)) by (unfold Rdiv; ring). unfold Rdiv. rewrite !Rabs_mult, <- Rmult_assoc. apply Rmult_le_compat_r; [apply Rabs_pos|exact Rd]. }
  pose proof (near_abs _ _ _ Q) as NQ. assert (SP : 0 <= Rabs S) by apply Rabs_pos.
  destruct (fdiv_b _ _ Fd Fi) as [F V]; [rewrite Vi; exact NZ|rewrite Vd, Vi; apply (le_127 102); [lia|]; change 102%Z with (100 + 1 + 1)%Z; rewrite !pow_step; lra|]. split; [exact F|]. unfold slope_of. rewrite V, Vd, Vi.
  pose proof (any (d / (n0 - n1))) as A. replace (RN (d / (n0 - n1)) - S) with ((RN (d / (n0 - n1)) - d / (n0 - n1)) + (d / (n0 - n1) - S)) by ring. apply Rle_trans with (1 := Rabs_triang _ _). lra.
Qed.
(* one of the two offsets *)
Lemma offset_part n (x : f32) : (0 <= n <= 10)%Z -> finite_f32 x -> Rabs (fval x) <= M -> let r := fsub x (fmul (slope_of p q) (f32_of_int n)) in
  finite_f32 r /\ Rabs (fval r - (fval x - S * IZR n)) <= 44 * u * M + 14 * feta.
Proof.
  intros Nn Fx Bx r. destruct slope_acc as [Fs Es]. destruct (int_b n ltac:(lia)) as [Fi Vi]. destruct S_bound as [SB _]. assert (N10 : 0 <= IZR n <= 10) by (split; apply IZR_le; lia). pose proof feta_pos as EP. pose proof feta_small as ES. assert (SP : 0 <= Rabs S) by apply Rabs_pos.
  set (sl := fval (slope_of p q)) in *. assert (MB : M <= bpow radix2 101) by (change 101%Z with (100 + 1)%Z; rewrite pow_step; lra). assert (B1 : 1 <= bpow radix2 101) by (change 1 with (bpow radix2 0); apply bpow_le; lia).
  assert (T : Rabs (sl * IZR n - S * IZR n) <= 21 * u * M + 10 * feta). { replace (sl * IZR n - S * IZR n) with ((sl - S) * IZR n) by ring. rewrite Rabs_mult, (Rabs_pos_eq (IZR n)) by lra. apply Rle_trans with ((21 / 10 * u * Rabs S + feta) * 10); [apply Rmult_le_compat; try lra; apply Rabs_pos|lra]. }
  assert (SN : Rabs (S * IZR n) <= 10 * M). { rewrite Rabs_mult, (Rabs_pos_eq (IZR n)) by lra. rewrite Rmult_comm. apply Rmult_le_compat; lra. }
  pose proof (near_abs _ _ _ T) as NT. destruct (fmul_b _ _ Fs Fi) as [Fm Vm]. { rewrite Vi. fold sl. apply (le_127 105); [lia|]. change 105%Z with (101 + 1 + 1 + 1 + 1)%Z. rewrite !pow_step. lra. }
  rewrite Vi in Vm. fold sl in Vm. pose proof (any (sl * IZR n)) as A1. set (t := RN (sl * IZR n)) in *.
  assert (T2 : Rabs (t - S * IZR n) <= 32 * u * M + 12 * feta). { replace (t - S * IZR n) with ((t - sl * IZR n) + (sl * IZR n - S * IZR n)) by ring. apply Rle_trans with (1 := Rabs_triang _ _). lra. }
  pose proof (near_abs _ _ _ T2) as NT2. assert (XT : Rabs (fval x - t) <= 11 * M + 32 * u * M + 12 * feta) by (apply Rle_trans with (1 := abs_sub _ _); lra).
  destruct (fsub_b _ _ Fx Fm) as [F V]. { rewrite Vm. apply (le_127 105); [lia|]. change 105%Z with (101 + 1 + 1 + 1 + 1)%Z. rewrite !pow_step. lra. }
  split; [exact F|]. unfold r. rewrite V, Vm. pose proof (any (fval x - t)) as A2. replace (RN (fval x - t) - (fval x - S * IZR n)) with ((RN (fval x - t) - (fval x - t)) - (t - S * IZR n)) by ring. apply Rle_trans with (1 := abs_sub _ _). lra.
Qed.
Lemma offset_acc : let r := offset_of (slope_of p q) p q in finite_f32 r /\ Rabs (fval r - (m0 - S * n0)) <= 68 * u * M + bpow radix2 (-140).
Proof.
  intros r. pose proof m_pos as [MP1 MP2]. destruct (offset_part (fst p) (snd p) Np Fp ltac:(lra)) as [F0 E0]. destruct (offset_part (fst q) (snd q) Nq Fq ltac:(lra)) as [F1 E1]. cbn zeta in *. destruct S_bound as [SB _].
  assert (SAME : m1 - S * n1 = m0 - S * n0). { destruct span as [S1 _]. assert (NZ : n0 - n1 <> 0) by (intros E; rewrite E, Rabs_R0 in S1; lra). field. exact NZ. }
  rewrite SAME in E1. set (b := m0 - S * n0) in *. assert (BB : Rabs b <= 11 * M). { unfold b. apply Rle_trans with (1 := abs_sub _ _). assert (N10 : 0 <= n0 <= 10) by (split; apply IZR_le; lia). rewrite Rabs_mult, (Rabs_pos_eq n0) by lra. assert (Rabs S * n0 <= M * 10) by (apply Rmult_le_compat; try lra; apply Rabs_pos). lra. }
  assert (MB : M <= bpow radix2 101) by (change 101%Z with (100 + 1)%Z; rewrite pow_step; lra). assert (B1 : 1 <= bpow radix2 101) by (change 1 with (bpow radix2 0); apply bpow_le; lia). pose proof feta_pos as EP. pose proof feta_small as ES.
  set (o0 := fval (fsub (snd p) _)) in *. set (o1 := fval (fsub (snd q) _)) in *.
  assert (SE : Rabs (o0 + o1 - 2 * b) <= 88 * u * M + 28 * feta). { replace (o0 + o1 - 2 * b) with ((o0 - b) + (o1 - b)) by ring. apply Rle_trans with (1 := Rabs_triang _ _). lra. }
  pose proof (near_abs _ _ _ SE) as NS. rewrite Rabs_mult, (Rabs_pos_eq 2) in NS by lra.
  destruct (fadd_b _ _ F0 F1) as [Fa Va]. { fold o0 o1. apply (le_127 106); [lia|]. change 106%Z with (101 + 1 + 1 + 1 + 1 + 1)%Z. rewrite !pow_step. lra. }
  fold o0 o1 in Va. pose proof (any (o0 + o1)) as A1. set (t := RN (o0 + o1)) in *. assert (TE : Rabs (t - 2 * b) <= 111 * u * M + 30 * feta). { replace (t - 2 * b) with ((t - (o0 + o1)) + (o0 + o1 - 2 * b)) by ring. apply Rle_trans with (1 := Rabs_triang _ _). lra. }
  pose proof (near_abs _ _ _ TE) as NT. rewrite Rabs_mult, (Rabs_pos_eq 2) in NT by lra. destruct (int_b 2 ltac:(lia)) as [F2 V2]. assert (HT : Rabs (t / 2) = Rabs t / 2) by (unfold Rdiv; rewrite Rabs_mult, (Rabs_pos_eq (/ 2)); lra).
  destruct (fdiv_b _ _ Fa F2) as [F V]; [rewrite V2; lra|rewrite Va, V2; apply (le_127 106); [lia|]; rewrite HT; change 106%Z with (101 + 1 + 1 + 1 + 1 + 1)%Z; rewrite !pow_step; lra|]. rewrite Va, V2 in V. split; [exact F|]. unfold r, offset_of. rewrite V. pose proof (any (t / 2)) as A2. rewrite HT in A2.
  assert (TINY : 30 * feta <= bpow radix2 (-140)). { change (bpow radix2 (-140)) with (bpow radix2 (10 + -150)). rewrite bpow_plus. change (bpow radix2 10) with 1024. change (bpow radix2 (-150)) with feta. lra. }
  replace (RN (t / 2) - b) with ((RN (t / 2) - t / 2) + / 2 * (t - 2 * b)) by field. apply Rle_trans with (1 := Rabs_triang _ _). rewrite (Rabs_mult (/ 2)), (Rabs_pos_eq (/ 2)) by lra. lra.
Qed.
End Acc.
Lemma history ops : Forall vf_valid ops -> exists s, voctf_run voctf0 ops = Ok s /\
  (forall l m r, vf_measurements ops = l ++ (0%Z, m) :: r -> Forall (fun p => fst p <> 0%Z) r -> vf_offset s = m) /\
  (forall l n0 m0 n1 m1, vf_measurements ops = l ++ [(n0, m0); (n1, m1)] -> finite_f32 m0 -> finite_f32 m1 -> Rabs (fval m0) <= bpow radix2 100 -> Rabs (fval m1) <= bpow radix2 100 -> n0 <> n1 -> fval m0 <> fval m1 ->
    let S := (fval m0 - fval m1) / (IZR n0 - IZR n1) in
    finite_f32 (vf_slope s) /\ Rabs (fval (vf_slope s) - S) <= 21 / 10 * u * Rabs S + bpow radix2 (-150) /\
    (Forall (fun p => fst p <> 0%Z) (vf_measurements ops) -> finite_f32 (vf_offset s) /\ Rabs (fval (vf_offset s) - (fval m0 - S * IZR n0)) <= 68 * u * (Rabs (fval m0) + Rabs (fval m1)) + bpow radix2 (-140))).
Proof.
  intros HV. destruct (vf_run ops voctf0 [] HV vf_init) as (s & E & HI). fold (vf_measurements ops) in HI. exists s. split; [exact E|]. destruct HI as [_ _ _ HO HS HF]. split; [exact HO|]. intros l n0 m0 n1 m1 EM F0 F1 B0 B1 Hn Hm S.
  assert (NB : (0 <= n0 <= 10)%Z /\ (0 <= n1 <= 10)%Z).
  { assert (G : forall os h, Forall vf_valid os -> Forall (fun p : Z * f32 => (0 <= fst p <= 10)%Z) h -> Forall (fun p : Z * f32 => (0 <= fst p <= 10)%Z) (fold_left vf_measured os h)).
    { clear. induction os as [|o os IH]; intros h HV Hh; [exact Hh|]. inversion HV as [|? ? HO HV']; subst. cbn [fold_left]. apply IH; [exact HV'|]. destruct o as [|n m]; cbn [vf_measured]; [constructor|]. cbn in HO. destruct (Z.eqb_spec n 11); [exact Hh|]. apply Forall_app. split; [exact Hh|]. repeat constructor; cbn; lia. }
    specialize (G ops [] HV (Forall_nil _)). fold (vf_measurements ops) in G. rewrite EM in G. apply Forall_app in G. destruct G as [_ G]. inversion G as [|? ? G0 G']; subst. inversion G' as [|? ? G1 _]; subst. auto. }
  destruct NB as [N0 N1]. pose proof (differ_b (n0, m0) (n1, m1) F0 F1 B0 B1 Hn Hm) as HD. rewrite (HS l _ _ EM HD). destruct (slope_acc (n0, m0) (n1, m1) F0 F1 B0 B1 N0 N1 Hn Hm) as [A B]. split; [exact A|]. split; [exact B|]. intros HC. rewrite (HF l _ _ EM HC), (HS l _ _ EM HD). exact (offset_acc (n0, m0) (n1, m1) F0 F1 B0 B1 N0 N1 Hn Hm).
Qed.
