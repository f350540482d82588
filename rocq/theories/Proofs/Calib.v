From Coq Require Import QArith Lqa Bool Floats.SpecFloat.
From Verif.Common Require Import Base Lemmas Lists F32 F32Order.
From Verif.Spec Require Import CalibSpec.
From Verif.Model Require Import Calib.
From Verif.Proofs Require Import Filter.
Open Scope Z_scope.

(** calibrator, exact arithmetic *)
Notation Qadjust := (adjust Qminus Qmult).
Notation Qreverse := (reverse_calibrate Qdiv Qplus).
Notation Qcalibrate := (calibrate_chan Qminus Qdiv).
Lemma cal_inverse c x : ~ (cal_slope c == 0)%Q ->
  (Qreverse c (Qadjust c x) == x)%Q /\ (Qadjust c (Qreverse c x) == x)%Q.
Proof. intros H. unfold adjust, reverse_calibrate. split; field; exact H. Qed.
Lemma cal_hits tl th ml mh : ~ (tl == th)%Q -> ~ (ml == mh)%Q ->
  let c := Qcalibrate tl th ml mh in
  ~ (cal_slope c == 0)%Q /\ (Qadjust c ml == tl)%Q /\ (Qadjust c mh == th)%Q.
Proof.
  intros Ht Hm c. assert (Hd : ~ (mh - ml == 0)%Q) by (intros E; apply Hm; lra). assert (Hn : ~ (th - tl == 0)%Q) by (intros E; apply Ht; lra).
  assert (HS : ~ ((th - tl) / (mh - ml) == 0)%Q).
  { intros E. apply Hn. assert (EQ : (th - tl == (th - tl) / (mh - ml) * (mh - ml))%Q) by (field; exact Hd). rewrite EQ, E. ring. }
  unfold c, calibrate_chan, adjust. cbn [cal_slope cal_offset]. split; [exact HS|]. split; field; auto.
Qed.
Lemma cal_reverse_hits tl th ml mh : ~ (tl == th)%Q -> ~ (ml == mh)%Q ->
  let c := Qcalibrate tl th ml mh in (Qreverse c tl == ml)%Q /\ (Qreverse c th == mh)%Q.
Proof.
  intros Ht Hm c. destruct (cal_hits tl th ml mh Ht Hm) as (H0 & H1 & H2). fold c in H0, H1, H2.
  unfold reverse_calibrate. split.
  - rewrite <- H1. apply (cal_inverse c ml H0).
  - rewrite <- H2. apply (cal_inverse c mh H0).
Qed.
(** calibrator, single precision *)
Lemma cal_float_degenerate : let c := calibrate_chan fsub fdiv f32_one f32_one f32_zero (f32_of_int 5) in
  forall raw, valid_f32 raw -> adjust fsub fmul c raw = S754_nan.
Proof.
  intros c raw _. assert (E : c = Cal f32_zero (S754_infinity true)) by reflexivity. rewrite E. unfold adjust. cbn [cal_offset cal_slope].
  destruct raw as [[]|[]| |[] m e]; reflexivity.
Qed.
Lemma cal_float_inexact : exists raw, valid_f32 raw /\
  let c := Cal (fdiv (f32_of_int 105) (f32_of_int 100)) (fdiv (f32_of_int (-3)) (f32_of_int 1000)) in
  reverse_calibrate fdiv fadd c (adjust fsub fmul c raw) <> raw.
Proof. exists (f32_of 1 (-40)). split; [reflexivity|]. vm_compute. discriminate. Qed.

(** volt per octave *)
Record vinv (s : voct) (h : list (Z * Q)) : Prop := {
  v_num : vc_num s = Z.min 2 (zlen h);
  v_len : zlen (vc_pts s) = 2;
  v_one : forall p, h = [p] -> znth (vc_pts s) 0 = Some p;
  v_two : forall l p q, h = l ++ [p; q] -> vc_pts s = [p; q];
  v_notes : Forall (fun p => 0 <= fst p <= 10) h;
  v_c0 : vc_c0 s = true <-> exists m, In (0, m) h;
  v_zero : zlen h < 2 -> vc_slope s = 0%Q /\ (vc_c0 s = false -> vc_offset s = 0%Q);
  v_last0 : forall l m r, h = l ++ (0, m) :: r -> Forall (fun p => fst p <> 0) r -> vc_offset s = m;
  v_slope : forall l p q, h = l ++ [p; q] -> fst p <> fst q -> ~ (snd p == snd q)%Q ->
      (vc_slope s == (snd p - snd q) / inject_Z (fst p - fst q))%Q;
  v_offset : forall l p q, h = l ++ [p; q] -> vc_c0 s = false ->
      (vc_offset s == ((snd p - vc_slope s * inject_Z (fst p)) + (snd q - vc_slope s * inject_Z (fst q))) / 2)%Q }.
Lemma two_inj {A} (l : list A) p q l' p' q' : l ++ [p; q] = l' ++ [p'; q'] -> l = l' /\ p = p' /\ q = q'.
Proof.
  intros H. change (l ++ [p; q]) with (l ++ ([p] ++ [q])) in H. change (l' ++ [p'; q']) with (l' ++ ([p'] ++ [q'])) in H. rewrite !app_assoc in H.
  apply app_inj_tail in H as [H ->]. apply app_inj_tail in H as [-> ->]. auto.
Qed.
Lemma znth2 {A} (l : list A) : zlen l = 2 -> exists a b, l = [a; b].
Proof. destruct l as [|a [|b [|c l]]]; intros H; rewrite ?zlen_cons in H; try (change (@zlen A []) with 0 in H; lia); [eauto|]. pose proof (zlen_nonneg l). lia. Qed.
Lemma last0_snoc_zero h m : forall l m' r, h ++ [(0, m)] = l ++ (0, m') :: r -> Forall (fun p : Z * Q => fst p <> 0) r -> m = m'.
Proof.
  intros l m' r E HF. destruct r as [|x r _] using rev_ind.
  - change (l ++ [(0, m')]) with (l ++ [(0, m')]) in E. apply app_inj_tail in E as [_ E]. congruence.
  - change ((0, m') :: r ++ [x]) with (((0, m') :: r) ++ [x]) in E. rewrite app_assoc in E. apply app_inj_tail in E as [_ E]. subst x.
    apply Forall_app in HF as [_ HF]. inversion HF as [|? ? HX _]; subst. cbn in HX. congruence.
Qed.
Lemma last0_snoc_other h n m : n <> 0 -> forall l m' r, h ++ [(n, m)] = l ++ (0, m') :: r -> Forall (fun p : Z * Q => fst p <> 0) r ->
  exists r', h = l ++ (0, m') :: r' /\ Forall (fun p : Z * Q => fst p <> 0) r'.
Proof.
  intros Hn l m' r E HF. destruct r as [|x r _] using rev_ind.
  - apply app_inj_tail in E as [_ E]. congruence.
  - change ((0, m') :: r ++ [x]) with (((0, m') :: r) ++ [x]) in E. rewrite app_assoc in E. apply app_inj_tail in E as [E _].
    apply Forall_app in HF as [HF _]. exists r. auto.
Qed.
Lemma voct_step_inv s h o : valid_note o -> vinv s h -> exists s', voct_step s o = Ok s' /\ vinv s' (measured h o).
Proof.
  intros Ho HI. destruct o as [|note m]; cbn [voct_step measured].
  - exists (voct_reset s). split; [reflexivity|]. destruct HI. split; cbn; auto; try (intros; discriminate); try (intros; destruct l; discriminate).
    + split; [discriminate|]. intros [m []].
  - cbn in Ho. unfold voct_record. destruct (Z.eqb_spec note 11) as [->|Hn]; [exists s; split; [reflexivity|exact HI]|].
    destruct HI as [H1 H2 H3 H4 H5 H6 H7 H8 H9 H10].
    assert (HN' : Forall (fun p : Z * Q => 0 <= fst p <= 10) (h ++ [(note, m)])) by (apply Forall_app; split; [exact H5|repeat constructor; cbn; lia]).
    assert (HC : (if note =? 0 then true else vc_c0 s) = true <-> exists m', In (0, m') (h ++ [(note, m)])).
    { destruct (Z.eqb_spec note 0) as [->|Hn0].
      - split; [|reflexivity]. intros _. exists m. apply in_or_app. right. left. reflexivity.
      - rewrite H6. split; intros [m' Hm].
        + exists m'. apply in_or_app. auto.
        + apply in_app_or in Hm as [Hm|[Hm|[]]]; [eauto|congruence]. }
    assert (HOff : forall l m' r, h ++ [(note, m)] = l ++ (0, m') :: r -> Forall (fun p : Z * Q => fst p <> 0) r ->
      (if note =? 0 then m else vc_offset s) = m').
    { intros l m' r E HF. destruct (Z.eqb_spec note 0) as [->|Hn0]; [eapply last0_snoc_zero; eauto|].
      destruct (last0_snoc_other h note m Hn0 l m' r E HF) as (r' & E' & HF'). eauto. }
    destruct h as [|p0 h0] using rev_ind; [|clear IHh0].
    + (* first point *)
      change (Z.min 2 (zlen (@nil (Z * Q)))) with 0 in H1. rewrite H1. cbn [Z.geb Z.compare bind]. rewrite wr_ok by lia. cbn [bind]. cbn [Z.add Z.geb Z.compare].
      eexists. split; [reflexivity|]. destruct (znth2 _ H2) as (a & b & EP). rewrite EP in *. destruct (H7 ltac:(cbn; lia)) as [Hs Ho0].
      split; cbn [vc_num vc_pts vc_c0 vc_slope vc_offset]; auto; cbn [app] in *.
      * intros p E. injection E as <-. reflexivity.
      * intros l p q E. destruct l as [|? [|? ?]]; discriminate.
      * intros _. split; [exact Hs|]. destruct (note =? 0); [discriminate|exact Ho0].
      * intros l p q E. destruct l as [|? [|? ?]]; discriminate.
      * intros l p q E. destruct l as [|? [|? ?]]; discriminate.
    + (* later points: the last one was p0 *)
      assert (EP : exists pts num, (if vc_num s >=? 2 then let* p1 := rd (vc_pts s) 1 in let* pts := wr (vc_pts s) 0 p1 in Ok (pts, 1) else Ok (vc_pts s, vc_num s)) = Ok (pts, num) /\
        num = 1 /\ zlen pts = 2 /\ znth pts 0 = Some p0).
      { rewrite H1, zlen_app. change (zlen [p0]) with 1. pose proof (zlen_nonneg h0). destruct h0 as [|p1 h1 _] using rev_ind.
        - cbn [zlen length Z.of_nat]. exists (vc_pts s), 1. splits; auto.
        - rewrite zlen_app. change (zlen [p1]) with 1. replace (Z.min 2 (zlen h1 + 1 + 1)) with 2 by (pose proof (zlen_nonneg h1); lia). cbn [Z.geb Z.compare].
          pose proof (H4 h1 p1 p0 ltac:(rewrite <- app_assoc; reflexivity)) as E. rewrite E. exists [p0; p0], 1. splits; reflexivity. }
      destruct EP as (pts & num & -> & -> & L2 & E0). cbn [bind]. destruct (znth2 _ L2) as (a & b & EP). subst pts. cbn in E0. injection E0 as ->.
      rewrite wr_ok by (cbn; lia). cbn [bind]. cbn [Z.add Pos.add Z.geb Z.compare Pos.compare Pos.compare_cont].
      change (zupd [p0; b] 1 (note, m)) with [p0; (note, m)]. change (rd [p0; (note, m)] 0) with (Ok p0). change (rd [p0; (note, m)] 1) with (Ok (note, m)). cbn [bind fst snd].
      eexists. split; [reflexivity|]. set (c0' := if note =? 0 then true else vc_c0 s) in *.
      assert (HL : zlen ((h0 ++ [p0]) ++ [(note, m)]) = zlen h0 + 2) by (rewrite !zlen_app; change (zlen [p0]) with 1; change (zlen [(note, m)]) with 1; lia). pose proof (zlen_nonneg h0).
      split; cbn [vc_num vc_pts vc_c0 vc_slope vc_offset]; auto.
      * rewrite HL. lia.
      * intros p E. apply (f_equal zlen) in E. rewrite HL in E. change (zlen [p]) with 1 in E. lia.
      * intros l p q E. rewrite <- app_assoc in E. apply two_inj in E as (_ & <- & <-). reflexivity.
      * rewrite HL. lia.
      * intros l m' r E HF. assert (HT : c0' = true) by (apply HC; exists m'; rewrite E; apply in_or_app; right; left; reflexivity). rewrite HT. eauto.
      * intros l p q E Hd Hm. rewrite <- app_assoc in E. apply two_inj in E as (_ & <- & <-). cbn [fst snd] in *.
        destruct (Z.eqb_spec (fst p0 - note) 0); [lia|]. cbn [negb andb]. destruct (Qeq_bool (snd p0 - m) 0) eqn:EQ; cbn [negb]; [|reflexivity].
        apply Qeq_bool_iff in EQ. exfalso. apply Hm. lra.
      * intros l p q E Hf. rewrite <- app_assoc in E. apply two_inj in E as (_ & <- & <-). cbn [fst snd]. rewrite Hf. reflexivity.
Qed.
Lemma voct_run_inv ops : forall s h, Forall valid_note ops -> vinv s h -> exists s', voct_run s ops = Ok s' /\ vinv s' (fold_left measured ops h).
Proof.
  induction ops as [|o ops IH]; intros s h HF HI; [exists s; split; [reflexivity|exact HI]|]. inversion HF; subst. cbn [voct_run fold_left].
  destruct (voct_step_inv s h o H1 HI) as (s1 & E & HI1). rewrite E. cbn [bind]. apply IH; assumption.
Qed.
Lemma vinv0 : vinv voct0 [].
Proof.
  split; cbn; auto; try (intros; discriminate); try (intros; destruct l; discriminate). split; [discriminate|]. intros [m []].
Qed.
Lemma voct_last_two ops : Forall valid_note ops -> exists s, voct_run voct0 ops = Ok s /\
  (forall l m r, measurements ops = l ++ (0, m) :: r -> Forall (fun p => fst p <> 0) r -> vc_offset s = m) /\
  (forall l p q, measurements ops = l ++ [p; q] -> fst p <> fst q -> ~ (snd p == snd q)%Q ->
     (vc_slope s == (snd p - snd q) / inject_Z (fst p - fst q))%Q /\
     ((forall m, ~ In (0, m) (measurements ops)) ->
        (vc_offset s + vc_slope s * inject_Z (fst p) == snd p)%Q /\ (vc_offset s + vc_slope s * inject_Z (fst q) == snd q)%Q)).
Proof.
  intros HF. destruct (voct_run_inv ops voct0 [] HF vinv0) as (s & E & HI). exists s. split; [exact E|]. fold (measurements ops) in HI. destruct HI. split; [exact v_last1|].
  intros l p q EM Hd Hm. pose proof (v_slope0 l p q EM Hd Hm) as HS. split; [exact HS|]. intros HN.
  assert (HC : vc_c0 s = false). { apply not_true_is_false. intros EC. apply v_c1 in EC as [m Hi]. destruct (HN m Hi). }
  pose proof (v_offset0 l p q EM HC) as HO.
  assert (HZ : ~ (inject_Z (fst p - fst q) == 0)%Q) by (intros EZ; change 0%Q with (inject_Z 0) in EZ; apply (proj1 (inject_Z_injective _ _)) in EZ; lia).
  assert (HK : (vc_slope s * (inject_Z (fst p) - inject_Z (fst q)) == snd p - snd q)%Q).
  { rewrite HS. unfold Zminus in *. rewrite inject_Z_plus, inject_Z_opp in *. field. exact HZ. }
  clear HS. set (X := (vc_slope s * inject_Z (fst p))%Q) in *. set (Y := (vc_slope s * inject_Z (fst q))%Q) in *.
  assert (HK' : (X - Y == snd p - snd q)%Q) by (rewrite <- HK; unfold X, Y; ring).
  assert (HO' : (vc_offset s * 2 == (snd p - X) + (snd q - Y))%Q) by (rewrite HO; field).
  clearbody X Y. split; lra.
Qed.
(** a linear response *)
Lemma voct_linear a b ops : Forall valid_note ops -> on_line a b (measurements ops) -> two_notes (measurements ops) ->
  exists s, voct_run voct0 ops = Ok s /\ (vc_slope s == a)%Q /\ (vc_offset s == b)%Q.
Proof.
  intros HF HL HT.
  assert (HI : forall ops s h, Forall valid_note ops -> vinv s h ->
    ((on_line a b h -> (vc_slope s == a \/ vc_slope s == 0)%Q /\ (two_notes h -> (vc_slope s == a)%Q))) ->
    exists s', voct_run s ops = Ok s' /\ vinv s' (fold_left measured ops h) /\
      (on_line a b (fold_left measured ops h) -> two_notes (fold_left measured ops h) -> (vc_slope s' == a)%Q)).
  { clear. induction ops as [|o ops IH]; intros s h HF HI HA; [exists s; split; [reflexivity|]; split; [exact HI|]; intros HL; apply (HA HL)|].
    inversion HF; subst. cbn [voct_run fold_left]. destruct (voct_step_inv s h o H1 HI) as (s1 & E & HI1). rewrite E. cbn [bind]. apply IH; auto. clear IH.
    intros HL. destruct o as [|note m]; cbn [voct_step measured] in *.
    - injection E as <-. cbn. split; [right; reflexivity|]. intros (l & p & q & r & EQ & _). destruct l; discriminate.
    - unfold voct_record in E. destruct (Z.eqb_spec note 11) as [->|Hn]; [injection E as <-; auto|].
      assert (HLh : on_line a b h) by (apply Forall_app in HL; apply HL). destruct (HA HLh) as [B1 B2].
      assert (Hm : (m == a * inject_Z note + b)%Q) by (apply Forall_app in HL as [_ HL]; inversion HL; assumption).
      destruct h as [|p0 h0 _] using rev_ind.
      + (* one point *) destruct HI1. destruct (v_zero0 ltac:(cbn; lia)) as [-> _]. split; [right; reflexivity|]. intros (l & p & q & r & EQ & _). apply (f_equal (@length _)) in EQ. rewrite (app_length l) in EQ. cbn in EQ. lia.
      + assert (HP0 : (snd p0 == a * inject_Z (fst p0) + b)%Q) by (apply Forall_app in HLh as [_ HLh]; inversion HLh; assumption).
        assert (HSl : (vc_slope s1 == (if negb (fst p0 - note =? 0)%Z && negb (Qeq_bool (snd p0 - m) 0) then (snd p0 - m) / inject_Z (fst p0 - note) else vc_slope s))%Q).
        { destruct HI1. pose proof (v_two0 h0 p0 (note, m) ltac:(rewrite <- app_assoc; reflexivity)) as EPT.
          assert (EN : exists pts num, (if vc_num s >=? 2 then let* p1 := rd (vc_pts s) 1 in let* pts := wr (vc_pts s) 0 p1 in Ok (pts, 1) else Ok (vc_pts s, vc_num s)) = Ok (pts, num)).
          { destruct (vc_num s >=? 2); [|eauto]. destruct HI. destruct (znth2 _ v_len1) as (x & y & ->). exists [y; y], 1; reflexivity. }
          destruct EN as (pts & num & EN). rewrite EN in E. cbn [bind] in E. apply bind_inv in E as (pts' & EW & E).
          pose proof v_num0 as VN. rewrite !zlen_app in VN. change (zlen [p0]) with 1 in VN. change (zlen [(note, m)]) with 1 in VN. pose proof (zlen_nonneg h0).
          destruct (Z.geb_spec (num + 1) 2).
          - apply bind_inv in E as (q0 & E0 & E). apply bind_inv in E as (q1 & E1 & E). injection E as <-. cbn [vc_pts vc_slope] in *. subst pts'.
            cbn in E0, E1. injection E0 as <-. injection E1 as <-. cbn [fst snd]. reflexivity.
          - injection E as <-. cbn [vc_num] in VN. lia. }
        assert (HD : fst p0 <> note -> (vc_slope s1 == a)%Q).
        { intros Hne. rewrite HSl. destruct (Z.eqb_spec (fst p0 - note) 0); [lia|]. cbn [negb andb].
          assert (HZ : ~ (inject_Z (fst p0 - note) == 0)%Q) by (intros EZ; change 0%Q with (inject_Z 0) in EZ; apply (proj1 (inject_Z_injective _ _)) in EZ; lia).
          assert (HDf : (snd p0 - m == a * inject_Z (fst p0 - note))%Q) by (unfold Zminus; rewrite inject_Z_plus, inject_Z_opp, HP0, Hm; ring).
          destruct (Qeq_bool (snd p0 - m) 0) eqn:EQ; cbn [negb].
          - apply Qeq_bool_iff in EQ. rewrite EQ in HDf. assert (HA0 : (a == 0)%Q). { symmetry in HDf. apply Qmult_integral in HDf as [?|?]; [assumption|contradiction]. }
            destruct B1 as [B1|B1]; [exact B1|]. rewrite B1, HA0. reflexivity.
          - rewrite HDf. field. exact HZ. }
        destruct (Z.eq_dec (fst p0) note) as [Heq|Hne].
        * assert (HK : (vc_slope s1 == vc_slope s)%Q) by (rewrite HSl; destruct (Z.eqb_spec (fst p0 - note) 0); [reflexivity|lia]). rewrite HK. split; [exact B1|].
          intros (l & p & q & r & EQ & Hpq). apply B2. destruct r as [|x r _] using rev_ind.
          -- exfalso. rewrite <- app_assoc in EQ. apply two_inj in EQ as (_ & <- & <-). cbn in Hpq. congruence.
          -- exists l, p, q, r. change (p :: q :: r ++ [x]) with ((p :: q :: r) ++ [x]) in EQ. rewrite app_assoc in EQ. apply app_inj_tail in EQ as [EQ _]. auto.
        * specialize (HD Hne). split; [left; exact HD|]. intros _. exact HD. }
  destruct (HI ops voct0 [] HF vinv0) as (s & E & HV & HS); [intros _; split; [right; reflexivity|]; intros (l & p & q & r & EQ & _); destruct l; discriminate|].
  exists s. split; [exact E|]. specialize (HS HL HT). split; [exact HS|]. fold (measurements ops) in HV. destruct HV.
  destruct (bool_dec (vc_c0 s) true) as [EC|EC].
  - apply v_c1 in EC as [m Hm].
    assert (HX : exists l m r, measurements ops = l ++ (0, m) :: r /\ Forall (fun p => fst p <> 0) r).
    { clear - Hm. induction (measurements ops) as [|[n x] h IH] using rev_ind; [destruct Hm|]. destruct (Z.eq_dec n 0) as [->|Hn].
      - exists h, x, []. auto.
      - apply in_app_or in Hm as [Hm|[Hm|[]]]; [|congruence]. destruct (IH Hm) as (l & m' & r & -> & HF). exists l, m', (r ++ [(n, x)]). split; [rewrite <- app_assoc; reflexivity|].
        apply Forall_app. split; [exact HF|repeat constructor; exact Hn]. }
    destruct HX as (l & m' & r & EQ & HFr). rewrite (v_last1 l m' r EQ HFr). rewrite EQ in HL. apply Forall_app in HL as [_ HL]. inversion HL; subst. cbn [fst snd] in H1. rewrite H1. ring.
  - destruct HT as (l & p & q & r & EQ & _).
    assert (HX : exists l p q, measurements ops = l ++ [p; q]).
    { rewrite EQ. clear. destruct r as [|x r _] using rev_ind; [eauto|]. destruct r as [|y r _] using rev_ind; [exists (l ++ [p]), q, x; rewrite <- app_assoc; reflexivity|].
      exists (l ++ p :: q :: r), y, x. rewrite <- !app_assoc. reflexivity. }
    destruct HX as (l' & p' & q' & EQ'). rewrite (v_offset0 l' p' q' EQ' (not_true_is_false _ EC)), HS. rewrite EQ' in HL. apply Forall_app in HL as [_ HL]. inversion HL as [|? ? Hp HL']; subst. inversion HL' as [|? ? Hq _]; subst.
    rewrite Hp, Hq. field.
Qed.

(** meters *)
Section Meter.
Context {A : Type} (lt : A -> A -> bool) (key : A -> Z) (ok : A -> bool) (valid : A -> Prop).
Hypothesis lt_key : forall x y, valid x -> valid y -> lt x y = ok x && ok y && (key x <? key y).
Lemma pm_fold l : forall mn mx, valid mn -> valid mx -> ok mn = true -> ok mx = true -> Forall valid l ->
  let r := fold_left (pm_update lt) l (mn, mx) in
  is_extreme (fun x y => key x <= key y) (fst r) (mn :: filter ok l) /\
  is_extreme (fun x y => key y <= key x) (snd r) (mx :: filter ok l).
Proof using lt_key.
  induction l as [|v l IH]; intros mn mx Vn Vx On Ox HF; cbn [fold_left].
  - cbn. split; (split; [left; reflexivity|intros y [<-|[]]; lia]).
  - inversion HF as [|? ? Vv HF']; subst. cbn [pm_update fst snd]. unfold pm_update. cbn [fst snd]. rewrite !lt_key by assumption. rewrite On, Ox. cbn [filter].
    destruct (ok v) eqn:Ov; cbn [andb]; [|apply IH; assumption].
    specialize (IH (if key v <? key mn then v else mn) (if key mx <? key v then v else mx)).
    assert (V1 : valid (if key v <? key mn then v else mn)) by (destruct (key v <? key mn); assumption).
    assert (V2 : valid (if key mx <? key v then v else mx)) by (destruct (key mx <? key v); assumption).
    assert (O1 : ok (if key v <? key mn then v else mn) = true) by (destruct (key v <? key mn); assumption).
    assert (O2 : ok (if key mx <? key v then v else mx) = true) by (destruct (key mx <? key v); assumption).
    specialize (IH V1 V2 O1 O2 HF'). cbn zeta in *. set (r := fold_left _ _ _) in *. clearbody r. destruct IH as [[A1 A2] [B1 B2]]. split; split.
    + destruct A1 as [E|A1]; [|right; right; exact A1]. destruct (key v <? key mn); [right; left; exact E|left; exact E].
    + intros y [<-|[<-|Hy]]; [| |apply A2; right; exact Hy]; specialize (A2 _ (or_introl eq_refl)); destruct (Z.ltb_spec (key v) (key mn)); cbn in A2; lia.
    + destruct B1 as [E|B1]; [|right; right; exact B1]. destruct (key mx <? key v); [right; left; exact E|left; exact E].
    + intros y [<-|[<-|Hy]]; [| |apply B2; right; exact Hy]; specialize (B2 _ (or_introl eq_refl)); destruct (Z.ltb_spec (key mx) (key v)); cbn in B2; lia.
Qed.
End Meter.
Lemma pm_history {A} (lt : A -> A -> bool) tmax tmin ops :
  fold_left (pm_step lt tmax tmin) ops (tmax, tmin) = fold_left (pm_update lt) (seen ops) (tmax, tmin).
Proof.
  induction ops as [|o ops IH] using rev_ind; [reflexivity|]. unfold seen. rewrite !fold_left_app. fold (seen ops). rewrite IH. cbn [fold_left].
  destruct o as [x|]; cbn [pm_step seen_since]; [rewrite fold_left_app; reflexivity|reflexivity].
Qed.
Lemma filter_true {A} (l : list A) : filter (fun _ => true) l = l.
Proof. induction l as [|x l IH]; cbn; [reflexivity|rewrite IH; reflexivity]. Qed.
Lemma peak_int lo hi ops : Forall (fun x => lo <= x <= hi) (seen ops) -> seen ops <> [] ->
  let s := fold_left (pm_step Z.ltb hi lo) ops (hi, lo) in
  is_extreme Z.le (fst s) (seen ops) /\ is_extreme Z.ge (snd s) (seen ops).
Proof.
  intros HF HN. cbn zeta. rewrite pm_history.
  destruct (pm_fold Z.ltb (fun x => x) (fun _ => true) (fun _ => True) (fun x y _ _ => eq_refl) (seen ops) hi lo I I eq_refl eq_refl) as [[A1 A2] [B1 B2]]; [apply Forall_forall; auto|].
  rewrite filter_true in *. set (r := fold_left _ _ _) in *. clearbody r. destruct (seen ops) as [|x l]; [congruence|]. inversion HF as [|? ? Hx _]; subst. split; split.
  - destruct A1 as [E|A1]; [|exact A1]. left. specialize (A2 x (or_intror (or_introl eq_refl))). lia.
  - intros y Hy. apply A2. right. exact Hy.
  - destruct B1 as [E|B1]; [|exact B1]. left. specialize (B2 x (or_intror (or_introl eq_refl))). lia.
  - intros y Hy. specialize (B2 y (or_intror Hy)). lia.
Qed.
Definition not_nan (x : f32) : bool := negb (is_nan_f32 x).
Lemma SFltb_full x y : valid_f32 x -> valid_f32 y -> SFltb x y = not_nan x && not_nan y && (fkey x <? fkey y).
Proof.
  intros Hx Hy. unfold not_nan. destruct (is_nan_f32 x) eqn:Nx; [destruct x; try discriminate; apply SFltb_nan_l|].
  destruct (is_nan_f32 y) eqn:Ny; [destruct y; try discriminate; apply SFltb_nan_r|]. rewrite SFltb_key by assumption. reflexivity.
Qed.
Lemma fold_valid l : forall mn mx, valid_f32 mn -> valid_f32 mx -> Forall valid_f32 l ->
  valid_f32 (fst (fold_left (pm_update SFltb) l (mn, mx))) /\ valid_f32 (snd (fold_left (pm_update SFltb) l (mn, mx))).
Proof.
  induction l as [|v l IH]; intros mn mx H1 H2 HF; [split; assumption|]. inversion HF; subst. cbn [fold_left]. unfold pm_update at 2 4. cbn [fst snd]. apply IH; [destruct (SFltb v mn); assumption|destruct (SFltb mx v); assumption|assumption].
Qed.
Lemma meter_float mn mx l : valid_f32 mn -> valid_f32 mx -> not_nan mn = true -> not_nan mx = true -> Forall valid_f32 l ->
  let s := fold_left (pm_update SFltb) l (mn, mx) in
  is_extreme (fun x y => SFleb x y = true) (fst s) (mn :: filter not_nan l) /\
  is_extreme (fun x y => SFleb y x = true) (snd s) (mx :: filter not_nan l).
Proof.
  intros Vn Vx On Ox HF s. destruct (pm_fold SFltb fkey not_nan valid_f32 SFltb_full l mn mx Vn Vx On Ox HF) as [[A1 A2] [B1 B2]]. fold s in A1, A2, B1, B2.
  assert (HV : forall x, valid_f32 x -> not_nan x = true -> forall y l', In y (x :: filter not_nan l') -> Forall valid_f32 l' -> valid_f32 y /\ is_nan_f32 y = false).
  { intros x V O y l' [<-|Hy] HF'; [split; [assumption|apply negb_true_iff; exact O]|]. apply filter_In in Hy as [Hy Hn]. split; [exact (proj1 (Forall_forall _ _) HF' y Hy)|apply negb_true_iff; exact Hn]. }
  split; split; auto.
  - intros y Hy. destruct (HV _ Vn On _ _ A1 HF), (HV _ Vn On _ _ Hy HF). rewrite SFleb_key by assumption. apply Z.leb_le. auto.
  - intros y Hy. destruct (HV _ Vx Ox _ _ B1 HF), (HV _ Vx Ox _ _ Hy HF). rewrite SFleb_key by assumption. apply Z.leb_le. auto.
Qed.
Lemma peak_float ops : Forall valid_f32 (seen ops) ->
  let s := fold_left (pm_step SFltb FLT_MAX FLT_MIN) ops (FLT_MAX, FLT_MIN) in
  is_extreme (fun x y => SFleb x y = true) (fst s) (FLT_MAX :: filter not_nan (seen ops)) /\
  is_extreme (fun x y => SFleb y x = true) (snd s) (FLT_MIN :: filter not_nan (seen ops)).
Proof. intros HF. cbn zeta. rewrite pm_history. apply meter_float; try reflexivity. exact HF. Qed.
Lemma fkey_max x : valid_f32 x -> x <> S754_infinity false -> fkey x <= fkey FLT_MAX.
Proof.
  intros V N. replace (fkey FLT_MAX) with ((2 ^ 24 - 1) * 2 ^ 253) by reflexivity. destruct x as [s|[]| |s m e]; try (cbn [fkey]; lia); [congruence|].
  destruct (valid_finite _ _ _ V) as (A & B & _). cbn [fkey]. assert (0 < 2 ^ (e + 149)) by (apply Z.pow_pos_nonneg; lia). assert (2 ^ (e + 149) <= 2 ^ 253) by (apply Z.pow_le_mono_r; lia). destruct s; nia.
Qed.
Lemma fkey_max_inj x : valid_f32 x -> x <> S754_infinity false -> fkey FLT_MAX <= fkey x -> x = FLT_MAX.
Proof.
  intros V N H. replace (fkey FLT_MAX) with ((2 ^ 24 - 1) * 2 ^ 253) in H by reflexivity. destruct x as [s|[]| |s m e]; try (cbn [fkey] in H; lia); [congruence|].
  destruct (valid_finite _ _ _ V) as (A & B & _). cbn [fkey] in H. assert (0 < 2 ^ (e + 149)) by (apply Z.pow_pos_nonneg; lia). destruct s; [nia|].
  assert (e = 104). { destruct (Z.eq_dec e 104); [assumption|]. assert (2 * 2 ^ (e + 149) <= 2 ^ 253). { rewrite <- Z.pow_succ_r by lia. apply Z.pow_le_mono_r; lia. } nia. }
  subst e. change (104 + 149) with 253 in *. assert (E : Z.pos m = 2 ^ 24 - 1) by nia. change (2 ^ 24 - 1) with 16777215 in E. injection E as ->. reflexivity.
Qed.
Lemma float_limits x : valid_f32 x -> is_nan_f32 x = false ->
  (SFleb x FLT_MAX = true <-> x <> S754_infinity false) /\
  (SFltb f32_zero x = true -> SFltb x FLT_MIN = true -> exists m, x = S754_finite false m (-149) /\ Z.pos m < 2 ^ 23).
Proof.
  intros V N. split.
  - rewrite SFleb_key by (try assumption; reflexivity). rewrite Z.leb_le. split; [intros H ->; vm_compute in H; congruence|apply fkey_max; exact V].
  - intros H1 H2. rewrite SFltb_key in H1, H2 by (try assumption; reflexivity). apply Z.ltb_lt in H1, H2. change (fkey f32_zero) with 0 in H1. change (fkey FLT_MIN) with (2 ^ 23) in H2.
    destruct x as [s|[]| |s m e]; cbn [fkey] in H1, H2; try lia. destruct (valid_finite _ _ _ V) as (A & B & C). assert (0 < 2 ^ (e + 149)) by (apply Z.pow_pos_nonneg; lia). destruct s; [nia|]. exists m.
    assert (Z.pos m < 2 ^ 23) by nia. assert (e = -149) by lia. subst e. split; [reflexivity|assumption].
Qed.
Lemma peak_float_finite ops x : Forall valid_f32 (seen ops) -> In x (seen ops) -> is_nan_f32 x = false ->
  let s := fold_left (pm_step SFltb FLT_MAX FLT_MIN) ops (FLT_MAX, FLT_MIN) in
  let numbers := filter not_nan (seen ops) in
  (x <> S754_infinity false -> is_extreme (fun x y => SFleb x y = true) (fst s) numbers) /\
  (SFleb FLT_MIN x = true -> is_extreme (fun x y => SFleb y x = true) (snd s) numbers).
Proof.
  intros HF Hx N s numbers. destruct (peak_float ops HF) as [[A1 A2] [B1 B2]]. fold s in A1, A2, B1, B2. fold numbers in A1, A2, B1, B2.
  pose proof (proj1 (Forall_forall _ _) HF x Hx) as V. assert (HI : In x numbers) by (apply filter_In; split; [exact Hx|unfold not_nan; rewrite N; reflexivity]).
  split; intros H; (split; [|intros y Hy; (apply A2 || apply B2); right; exact Hy]).
  - destruct A1 as [E|A1]; [|exact A1]. rewrite <- E in *. specialize (A2 x (or_intror HI)). rewrite SFleb_key in A2 by (try assumption; reflexivity). apply Z.leb_le in A2. rewrite (fkey_max_inj x V H A2) in HI. exact HI.
  - destruct B1 as [E|B1]; [|exact B1]. rewrite <- E in *. specialize (B2 x (or_intror HI)). rewrite SFleb_key in B2, H by (try assumption; reflexivity). apply Z.leb_le in B2, H.
    assert (EK : fkey x = 2 ^ 23) by (change (fkey FLT_MIN) with (2 ^ 23) in *; lia). assert (x = FLT_MIN); [|subst x; exact HI].
    destruct x as [t|[]| |t m e]; cbn [fkey] in EK; try lia. destruct (valid_finite _ _ _ V) as (A & B & C). assert (0 < 2 ^ (e + 149)) by (apply Z.pow_pos_nonneg; lia). destruct t; [nia|].
    assert (e = -149). { destruct (Z.eq_dec e (-149)); [assumption|]. assert (2 <= 2 ^ (e + 149)) by (change 2 with (2 ^ 1) at 1; apply Z.pow_le_mono_r; lia). nia. }
    subst e. change (2 ^ (-149 + 149)) with 1 in EK. assert (EM : Z.pos m = 8388608) by lia. injection EM as ->. reflexivity.
Qed.
Lemma peak_float_negative ops : Forall (fun x => valid_f32 x /\ SFltb x f32_zero = true) (seen ops) ->
  snd (fold_left (pm_step SFltb FLT_MAX FLT_MIN) ops (FLT_MAX, FLT_MIN)) = FLT_MIN /\ ~ In FLT_MIN (seen ops) /\ SFltb f32_zero FLT_MIN = true.
Proof.
  intros HF. rewrite (pm_history (A:=f32)). revert HF. generalize (seen ops) as l. intros l HF. split; [|split; [|reflexivity]].
  - generalize FLT_MAX as mn. induction l as [|x l IH]; intros mn; [reflexivity|]. inversion HF as [|? ? [Vx Hx] HF']; subst. cbn [fold_left]. unfold pm_update at 2. cbn [fst snd].
    assert (E : SFltb FLT_MIN x = false).
    { rewrite SFltb_full in Hx by (try reflexivity; exact Vx). apply andb_prop in Hx as [Hn Hk]. apply andb_prop in Hn as [Hn _]. rewrite SFltb_full by (try reflexivity; exact Vx). rewrite Hn.
      change (fkey f32_zero) with 0 in Hk. apply Z.ltb_lt in Hk. change (not_nan FLT_MIN) with true. cbn [andb]. apply Z.ltb_ge. assert (0 < fkey FLT_MIN) by reflexivity. lia. }
    rewrite E. apply IH. exact HF'.
  - intros Hi. pose proof (proj1 (Forall_forall _ _) HF _ Hi) as [_ HX]. discriminate HX.
Qed.

(** callables *)
Record finv (s : fstate) : Prop := {
  f_next : 0 <= fs_next s;
  f_held : forall v id, fs_vars s v = Holds id -> 0 <= id < fs_next s /\ In (EConstruct id) (fs_log s) /\ ~ In (EDestroy id) (fs_log s) /\ forall w, fs_vars s w = Holds id -> w = v;
  f_gone : forall id, In (EConstruct id) (fs_log s) -> In (EDestroy id) (fs_log s) \/ exists v, fs_vars s v = Holds id;
  f_old : forall id, In (EConstruct id) (fs_log s) \/ In (EDestroy id) (fs_log s) \/ In (ECall id) (fs_log s) -> id < fs_next s;
  f_use : no_use_after_destroy (fs_log s);
  f_first : constructed_first (fs_log s) }.
Lemma snoc_split {A} (log : list A) e l1 x l2 : log ++ [e] = l1 ++ x :: l2 -> (l2 = [] /\ log = l1 /\ e = x) \/ exists l2', l2 = l2' ++ [e] /\ log = l1 ++ x :: l2'.
Proof.
  intros E. destruct l2 as [|y l2 _] using rev_ind.
  - apply app_inj_tail in E as [-> ->]. auto.
  - change (x :: l2 ++ [y]) with ((x :: l2) ++ [y]) in E. rewrite app_assoc in E. apply app_inj_tail in E as [-> <-]. right. exists l2. auto.
Qed.
Lemma use_snoc log e : no_use_after_destroy log -> (forall id, e = ECall id \/ e = EDestroy id -> ~ In (EDestroy id) log) -> no_use_after_destroy (log ++ [e]).
Proof.
  intros H He l1 id l2 E. apply snoc_split in E as [(-> & <- & ->)|(l2' & -> & EL)]; [split; intros []|].
  destruct (H _ _ _ EL) as [H1 H2]. assert (HI : In (EDestroy id) log) by (rewrite EL; apply in_or_app; right; left; reflexivity).
  split; intros HH; apply in_app_or in HH as [HH|[HH|[]]]; try tauto; eapply He; eauto.
Qed.
Lemma first_snoc log e : constructed_first log -> (forall id, e = ECall id \/ e = EDestroy id -> In (EConstruct id) log) -> constructed_first (log ++ [e]).
Proof.
  intros H He l1 id l2 [E|E]; apply snoc_split in E as [(-> & <- & ->)|(l2' & -> & EL)].
  - apply He. auto.
  - apply (H l1 id l2'). auto.
  - apply He. auto.
  - apply (H l1 id l2'). auto.
Qed.
Lemma in_snoc {A} (x e : A) l : In x (l ++ [e]) <-> In x l \/ x = e.
Proof. rewrite in_app_iff. cbn. intuition. Qed.
Lemma fs_step_inv s o s' : no_copies o -> finv s -> fs_step s o = Ok s' -> finv s'.
Proof.
  intros Hn [H1 H2 H3 H4 H5 H6] E. destruct o as [v|v|v w|v w|v|v|v]; try destruct Hn; cbn [fs_step] in E.
  - destruct (fs_vars s v) eqn:EV; try discriminate. injection E as <-. split; cbn; auto.
    + intros u id. unfold set_var. destruct (Z.eqb_spec u v); [discriminate|]. intros Hu. destruct (H2 u id Hu) as (A1 & A2 & A3 & A4). splits; auto; try lia.
      intros w. destruct (Z.eqb_spec w v); [discriminate|]. auto.
    + intros id Hi. destruct (H3 id Hi) as [|(u & Hu)]; [auto|]. right. exists u. unfold set_var. destruct (Z.eqb_spec u v) as [->|]; [congruence|exact Hu].
  - destruct (fs_vars s v) eqn:EV; try discriminate. injection E as <-.
    assert (NF : forall e, e = EConstruct (fs_next s) \/ e = EDestroy (fs_next s) \/ e = ECall (fs_next s) -> ~ In e (fs_log s)).
    { intros e [->|[->| ->]] Hi; [specialize (H4 (fs_next s) (or_introl Hi))|specialize (H4 (fs_next s) (or_intror (or_introl Hi)))|specialize (H4 (fs_next s) (or_intror (or_intror Hi)))]; lia. }
    split; cbn.
    + lia.
    + intros u id. unfold set_var. destruct (Z.eqb_spec u v) as [->|Hu].
      * intros HH. injection HH as <-. split; [lia|]. split; [apply in_snoc; auto|]. split.
        -- intros HD. apply in_snoc in HD as [HD|HD]; [apply (NF (EDestroy (fs_next s))); auto|discriminate].
        -- intros w. destruct (Z.eqb_spec w v); [auto|]. intros HW. destruct (H2 w _ HW). lia.
      * intros HH. destruct (H2 u id HH) as (A1 & A2 & A3 & A4). split; [lia|]. split; [apply in_snoc; auto|]. split.
        -- intros HD. apply in_snoc in HD as [HD|HD]; [auto|discriminate].
        -- intros w. destruct (Z.eqb_spec w v); [|auto]. intros HW. injection HW as <-. lia.
    + intros id Hi. apply in_snoc in Hi as [Hi|Hi].
      * destruct (H3 id Hi) as [HD|(u & Hu)]; [left; apply in_snoc; auto|]. right. exists u. unfold set_var. destruct (Z.eqb_spec u v) as [->|]; [congruence|exact Hu].
      * injection Hi as ->. right. exists v. unfold set_var. rewrite Z.eqb_refl. reflexivity.
    + intros id Hi. rewrite !in_snoc in Hi. assert (HX : (In (EConstruct id) (fs_log s) \/ In (EDestroy id) (fs_log s) \/ In (ECall id) (fs_log s)) \/ id = fs_next s) by intuition congruence.
      destruct HX as [HX| ->]; [specialize (H4 id HX)|]; lia.
    + apply use_snoc; [exact H5|]. intros id [HH|HH]; discriminate.
    + apply first_snoc; [exact H6|]. intros id [HH|HH]; discriminate.
  - destruct (fs_vars s v) as [| |id] eqn:EV; try discriminate. injection E as <-. destruct (H2 v id EV) as (B1 & B2 & B3 & B4). split; cbn; auto.
    + intros u id' Hu. destruct (H2 u id' Hu) as (A1 & A2 & A3 & A4). split; [lia|]. split; [apply in_snoc; auto|]. split; [|exact A4]. intros HD. apply in_snoc in HD as [HD|HD]; [auto|discriminate].
    + intros id' Hi. apply in_snoc in Hi as [Hi|Hi]; [|discriminate]. destruct (H3 id' Hi); [left; apply in_snoc; auto|auto].
    + intros id' Hi. rewrite !in_snoc in Hi. assert (HX : (In (EConstruct id') (fs_log s) \/ In (EDestroy id') (fs_log s) \/ In (ECall id') (fs_log s)) \/ id' = id) by intuition congruence.
      destruct HX as [HX| ->]; [specialize (H4 id' HX)|]; lia.
    + apply use_snoc; [exact H5|]. intros id' [HH|HH]; [injection HH as <-; exact B3|discriminate].
    + apply first_snoc; [exact H6|]. intros id' [HH|HH]; [injection HH as <-; exact B2|discriminate].
  - destruct (fs_vars s v) as [| |id] eqn:EV; try discriminate; injection E as <-.
    + split; cbn; auto.
      * intros u id. unfold set_var. destruct (Z.eqb_spec u v); [discriminate|]. intros Hu. destruct (H2 u id Hu) as (A1 & A2 & A3 & A4). splits; auto; try lia.
        intros w. destruct (Z.eqb_spec w v); [discriminate|]. auto.
      * intros id Hi. destruct (H3 id Hi) as [|(u & Hu)]; [auto|]. right. exists u. unfold set_var. destruct (Z.eqb_spec u v) as [->|]; [congruence|exact Hu].
    + destruct (H2 v id EV) as (B1 & B2 & B3 & B4). split; cbn; auto.
      * intros u id'. unfold set_var. destruct (Z.eqb_spec u v) as [->|Hv]; [discriminate|]. intros Hu. destruct (H2 u id' Hu) as (A1 & A2 & A3 & A4). split; [lia|]. split; [apply in_snoc; auto|]. split.
        -- intros HD. apply in_snoc in HD as [HD|HD]; [auto|]. injection HD as ->. apply Hv. auto.
        -- intros w. destruct (Z.eqb_spec w v); [discriminate|]. auto.
      * intros id' Hi. apply in_snoc in Hi as [Hi|Hi]; [|discriminate]. destruct (H3 id' Hi) as [HD|(u & Hu)]; [left; apply in_snoc; auto|].
        destruct (Z.eq_dec u v) as [->|Hv].
        -- left. apply in_snoc. right. congruence.
        -- right. exists u. unfold set_var. destruct (Z.eqb_spec u v) as [->|]; [congruence|exact Hu].
      * intros id' Hi. rewrite !in_snoc in Hi. assert (HX : (In (EConstruct id') (fs_log s) \/ In (EDestroy id') (fs_log s) \/ In (ECall id') (fs_log s)) \/ id' = id) by intuition congruence.
        destruct HX as [HX| ->]; [specialize (H4 id' HX)|]; lia.
      * apply use_snoc; [exact H5|]. intros id' [HH|HH]; [discriminate|injection HH as <-; exact B3].
      * apply first_snoc; [exact H6|]. intros id' [HH|HH]; [discriminate|injection HH as <-; exact B2].
Qed.
Lemma fs_run_inv ops : forall s s', Forall no_copies ops -> finv s -> fs_run s ops = Ok s' -> finv s'.
Proof.
  induction ops as [|o ops IH]; intros s s' HF HI E; cbn [fs_run] in E; [injection E as <-; exact HI|]. inversion HF; subst.
  apply bind_inv in E as (s1 & E1 & E). eapply IH; [eassumption| |exact E]. eapply fs_step_inv; eauto.
Qed.
Lemma finv0 : finv fs0.
Proof. split; cbn; try lia; try tauto; try discriminate; intros l1 id l2; [|intros [|]]; destruct l1; discriminate. Qed.
Lemma callable_once ops s : Forall no_copies ops -> fs_run fs0 ops = Ok s ->
  no_use_after_destroy (fs_log s) /\ constructed_first (fs_log s) /\
  forall id, In (EConstruct id) (fs_log s) -> (In (EDestroy id) (fs_log s) <-> forall v, fs_vars s v <> Holds id).
Proof.
  intros HF E. destruct (fs_run_inv ops fs0 s HF finv0 E) as [H1 H2 H3 H4 H5 H6]. split; [exact H5|]. split; [exact H6|]. intros id Hi. split.
  - intros HD v Hv. destruct (H2 v id Hv) as (_ & _ & HN & _). auto.
  - intros HN. destruct (H3 id Hi) as [HD|(v & Hv)]; [exact HD|]. destruct (HN v Hv).
Qed.
Lemma set_var_eq f v x : set_var f v x v = x. Proof. unfold set_var. rewrite Z.eqb_refl. reflexivity. Qed.
Lemma set_var_ne f v w x : w <> v -> set_var f v x w = f w. Proof. intros H. unfold set_var. destruct (Z.eqb_spec w v); [congruence|reflexivity]. Qed.
Lemma copy_destroys_twice s v w id : fs_vars s v = Holds id -> fs_vars s w = Absent ->
  exists s', fs_run s [FCopy w v; FDestroy v; FCall w; FDestroy w] = Ok s' /\ fs_log s' = fs_log s ++ [EDestroy id; ECall id; EDestroy id].
Proof.
  intros Hv Hw. assert (v <> w) by congruence. cbn [fs_run fs_step]. rewrite Hw, Hv. cbn [bind fs_vars fs_next fs_log]. rewrite set_var_ne, Hv by auto. cbn [bind fs_vars fs_next fs_log].
  rewrite set_var_ne, set_var_eq by auto. cbn [bind fs_vars fs_next fs_log]. rewrite set_var_ne, set_var_eq by auto. cbn [bind fs_vars fs_next fs_log].
  eexists. split; [reflexivity|]. cbn [fs_log]. rewrite <- !app_assoc. reflexivity.
Qed.
Lemma assign_uses_destroyed s v : fs_vars s v <> Absent ->
  exists s', fs_run s [FAssignNew v; FCall v; FDestroy v] = Ok s' /\
    fs_log s' = fs_log s ++ [EConstruct (fs_next s); EDestroy (fs_next s); ECall (fs_next s); EDestroy (fs_next s)].
Proof.
  intros Hv. cbn [fs_run fs_step]. destruct (fs_vars s v) as [| |id] eqn:EV; [congruence| |];
    cbn [bind fs_vars fs_next fs_log]; rewrite !set_var_eq; cbn [bind fs_vars fs_next fs_log]; rewrite !set_var_eq; cbn [bind];
    (eexists; split; [reflexivity|]); cbn [fs_log]; rewrite <- !app_assoc; reflexivity.
Qed.

(** stream buffers *)
Lemma skipn_add {A} a b : forall l : list A, skipn (a + b) l = skipn b (skipn a l).
Proof. induction a as [|a IH]; intros l; [reflexivity|]. destruct l as [|x l]; [cbn; rewrite skipn_nil; reflexivity|]. cbn. apply IH. Qed.
Lemma overlay_len {A} N (base h : list A) : 0 <= N -> zlen base = N -> zlen (overlay N base h) = N.
Proof.
  intros HN HL. unfold overlay, zlen in *. rewrite app_length, skipn_length. rewrite firstn_length. lia.
Qed.
Lemma in_history {A} (N : Z) (dflt : A) ops : 0 <= N < 2 ^ 64 ->
  exists s, in_run N (stream0 N dflt) ops = Ok s /\ fst s = shown N (zrepeat dflt N) ops /\
    in_full N s = (N <=? zlen (items ops)) /\ in_size N s = N.
Proof.
  intros HN. 
  assert (HI : forall ops, exists s, in_run N (stream0 N dflt) ops = Ok s /\
    let p := fold_left (shown_since N) ops (zrepeat dflt N, []) in
    fst s = overlay N (fst p) (snd p) /\ snd s = Z.min N (zlen (snd p)) /\ zlen (fst p) = N /\ snd p = items ops).
  { clear ops. induction ops as [|o ops IH] using rev_ind.
    - exists (stream0 N dflt). split; [reflexivity|]. cbn. unfold overlay. rewrite firstn_nil. cbn. split; [reflexivity|]. change (@zlen A []) with 0. split; [lia|]. split; [apply zlen_zrepeat; lia|reflexivity].
    - destruct IH as (s & E & IH). cbn zeta in IH. destruct IH as (H1 & H2 & H3 & H4). set (p := fold_left (shown_since N) ops (zrepeat dflt N, [])) in *.
      assert (ER : forall (s0 : list A * Z) l1 l2, in_run N s0 (l1 ++ l2) = let* s1 := in_run N s0 l1 in in_run N s1 l2).
      { clear. intros s0 l1. revert s0. induction l1 as [|o l1 IH]; intros s0 l2; [reflexivity|]. cbn [app in_run]. destruct (in_step N s0 o); cbn [bind]; [apply IH|reflexivity|reflexivity]. }
      rewrite ER, E. cbn [bind in_run]. rewrite fold_left_app. fold p. cbn [fold_left]. unfold items in *. rewrite fold_left_app. cbn [fold_left]. rewrite <- H4.
      destruct o as [x|]; cbn [in_step shown_since fst snd put_since].
      + rewrite zlen_app. change (zlen [x]) with 1. pose proof (zlen_nonneg (snd p)). rewrite H2. destruct (Z.geb_spec (Z.min N (zlen (snd p))) N) as [HG|HG].
        * exists s. split; [reflexivity|]. split; [|split; [lia|split; [exact H3|reflexivity]]]. rewrite H1. unfold overlay. rewrite firstn_app. replace (Z.to_nat N - length (snd p))%nat with 0%nat by (unfold zlen in *; lia).
          cbn [firstn]. rewrite app_nil_r. reflexivity.
        * assert (HL : zlen (fst s) = N) by (rewrite H1; apply overlay_len; [lia|exact H3]).
          rewrite wr_ok by lia. cbn [bind]. eexists. split; [reflexivity|]. cbn [fst snd]. rewrite word_small by lia. split; [|split; [lia|split; [exact H3|reflexivity]]].
          rewrite Z.min_r in * by lia. rewrite H1. unfold overlay. rewrite !firstn_all2 by (rewrite ?app_length; unfold zlen in *; cbn; lia).
          destruct (skipn (length (snd p)) (fst p)) as [|y r] eqn:ES.
          { exfalso. apply (f_equal (@length A)) in ES. rewrite skipn_length in ES. unfold zlen in *. cbn in ES. lia. }
          rewrite zupd_mid by (unfold zlen; reflexivity). rewrite app_length. cbn [length]. rewrite <- app_assoc. cbn [app]. do 2 f_equal.
          rewrite skipn_add, ES. reflexivity.
      + eexists. split; [reflexivity|]. cbn [fst snd]. split; [unfold overlay at 1; rewrite firstn_nil; cbn; exact H1|]. change (@zlen A []) with 0. split; [lia|]. split; [apply overlay_len; [lia|exact H3]|reflexivity]. }
  destruct (HI ops) as (s & E & H1 & H2 & H3 & H4). exists s. split; [exact E|]. split; [exact H1|]. rewrite H4 in *. split; [|reflexivity]. unfold in_full. rewrite H2.
  destruct (Z.geb_spec (Z.min N (zlen (items ops))) N), (Z.leb_spec N (zlen (items ops))); try lia; reflexivity.
Qed.
Lemma out_history {A} (N : Z) (dflt : A) ops : 0 <= N < 2 ^ 64 -> Forall (fun o => match o with OutFill i _ => 0 <= i < N | _ => True end) ops ->
  exists s, run (out_step N dflt) (stream0 N dflt) ops = Ok (s, snd (srun (stream_step N dflt) (stream0 N dflt) ops)).
Proof.
  intros HN HF.
  assert (HI : forall ops s a, Forall (fun o => match o with OutFill i _ => 0 <= i < N | _ => True end) ops -> zlen (fst s) = N -> fst a = fst s -> snd s = Z.min N (snd a) -> 0 <= snd a ->
    exists s', run (out_step N dflt) s ops = Ok (s', snd (srun (stream_step N dflt) a ops))).
  { clear ops HF. induction ops as [|o ops IH]; intros [b h] [c k] HF HL H1 H2 H3; cbn [fst snd] in *; [eexists; reflexivity|]. subst c. inversion HF; subst. cbn [run srun].
    destruct o as [| |i x]; cbn [out_step stream_step fst snd].
    - destruct (Z.geb_spec (Z.min (zlen b) k) (zlen b)) as [HG|HG].
      + destruct (Z.ltb_spec k (zlen b)); [lia|]. cbn [bind]. destruct (IH (b, Z.min (zlen b) k) (b, k + 1) H4 eq_refl eq_refl) as (s' & E); [cbn; lia|cbn; lia|]. rewrite E. cbn [bind]. destruct (srun (stream_step (zlen b) dflt) (b, k + 1) ops). eexists; reflexivity.
      + destruct (Z.ltb_spec k (zlen b)); [|lia]. rewrite Z.min_r by lia. destruct (znth_some b k) as [x Hx]; [lia|]. rewrite (rd_ok _ _ _ Hx), Hx. cbn [bind]. rewrite word_small by lia.
        destruct (IH (b, k + 1) (b, k + 1) H4 eq_refl eq_refl) as (s' & E); [cbn; lia|cbn; lia|]. rewrite E. cbn [bind]. destruct (srun (stream_step (zlen b) dflt) (b, k + 1) ops). eexists; reflexivity.
    - cbn [bind]. destruct (IH (b, 0) (b, 0) H4 eq_refl eq_refl) as (s' & E); [cbn; lia|cbn; lia|]. rewrite E. cbn [bind]. destruct (srun (stream_step (zlen b) dflt) (b, 0) ops). eexists; reflexivity.
    - rewrite wr_ok by lia. cbn [bind]. pose proof (zlen_zupd b i x) as HZ. destruct (IH (zupd b i x, Z.min (zlen b) k) (zupd b i x, k) H4 HZ eq_refl) as (s' & E); [cbn; lia|cbn; lia|]. rewrite E. cbn [bind]. destruct (srun (stream_step (zlen b) dflt) (zupd b i x, k) ops). eexists; reflexivity. }
  apply HI; auto; cbn; [apply zlen_zrepeat; lia|lia|lia].
Qed.
Lemma analyzed_float c l : valid_f32 c -> is_nan_f32 c = false -> Forall valid_f32 l ->
  let s := fold_left (pm_update SFltb) l (c, c) in
  let numbers := filter (fun x => negb (is_nan_f32 x)) l in
  is_extreme (fun x y => SFleb x y = true) (fst s) (c :: numbers) /\
  is_extreme (fun x y => SFleb y x = true) (snd s) (c :: numbers).
Proof. intros Hc Hn HF. apply meter_float; auto; unfold not_nan; rewrite Hn; reflexivity. Qed.
Lemma call_forwards s v : match fs_vars s v with
    | Holds id => fs_step s (FCall v) = Ok (FS (fs_vars s) (fs_next s) (fs_log s ++ [ECall id]))
    | _ => fs_step s (FCall v) = UB BadDeref
    end.
Proof. cbn [fs_step]. destruct (fs_vars s v); reflexivity. Qed.
Lemma shown_items {A} N (init : list A) ops : snd (fold_left (shown_since N) ops (init, [])) = items ops.
Proof. induction ops as [|o ops IH] using rev_ind; [reflexivity|]. unfold items in *. rewrite !fold_left_app. cbn [fold_left]. destruct o; cbn [shown_since put_since snd]; [rewrite IH|]; reflexivity. Qed.
Lemma shown_base {A} N (init : list A) ops : 0 <= N -> zlen init = N -> zlen (fst (fold_left (shown_since N) ops (init, []))) = N.
Proof. intros HN HL. induction ops as [|o ops IH] using rev_ind; [exact HL|]. rewrite !fold_left_app. cbn [fold_left]. destruct o; cbn [shown_since fst]; [exact IH|apply overlay_len; assumption]. Qed.
Lemma in_first {A} N (dflt : A) ops : 0 <= N < 2 ^ 64 ->
    exists s, in_run N (stream0 N dflt) ops = Ok s /\ zlen (fst s) = N /\
      forall i, 0 <= i < N -> i < zlen (items ops) -> znth (fst s) i = znth (items ops) i.
Proof.
  intros HN. destruct (in_history N dflt ops HN) as (s & E & H1 & _). exists s. split; [exact E|]. rewrite H1. unfold shown. split.
  - apply overlay_len; [lia|]. apply shown_base; [lia|apply zlen_zrepeat; lia].
  - intros i Hi Hl. rewrite shown_items. unfold overlay. assert (HL : zlen (firstn (Z.to_nat N) (items ops)) = Z.min N (zlen (items ops))) by (unfold zlen; rewrite firstn_length; lia).
    rewrite znth_app_l by lia. transitivity (znth (firstn (Z.to_nat N) (items ops) ++ skipn (Z.to_nat N) (items ops)) i); [rewrite znth_app_l by lia; reflexivity|]. rewrite firstn_skipn. reflexivity.
Qed.
