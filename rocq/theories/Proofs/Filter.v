From Coq Require Import QArith Qabs Lqa Floats.SpecFloat.
From Verif.Common Require Import Base Lemmas Lists F32.
From Verif.Spec Require Import History FilterSpec.
From Verif.Model Require Import Filter.
From Verif.Proofs Require Import History.
Open Scope Z_scope.

Lemma zsum_cons x l : zsum (x :: l) = x + zsum l. Proof. reflexivity. Qed.
Lemma zsum_app l1 l2 : zsum (l1 ++ l2) = zsum l1 + zsum l2.
Proof. induction l1 as [|x l1 IH]; cbn [app]; rewrite ?zsum_cons; [reflexivity|]. rewrite IH. lia. Qed.
Lemma zsum_zrepeat n : zsum (zrepeat 0 n) = 0.
Proof. unfold zrepeat. induction (Z.to_nat n) as [|k IH]; cbn [repeat]; [reflexivity|]. rewrite zsum_cons, IH. reflexivity. Qed.
Lemma zsum_bound l b : Forall (fun v => 0 <= v < b) l -> 0 <= zsum l <= zlen l * (b - 1).
Proof.
  induction 1 as [|x l Hx Hl IH]; [cbn; lia|]. rewrite zlen_cons, zsum_cons. nia.
Qed.
Lemma lastn_all {A} n (l : list A) : zlen l <= n -> lastn n l = l.
Proof. intros H. unfold lastn. replace (length l - Z.to_nat n)%nat with 0%nat by (unfold zlen in H; lia). reflexivity. Qed.
Lemma zlen_lastn {A} n (l : list A) : 0 <= n <= zlen l -> zlen (lastn n l) = n.
Proof. intros H. unfold lastn, zlen in *. rewrite skipn_length. lia. Qed.
Lemma lastn_snoc {A} n (l : list A) x : 1 <= n <= zlen l -> exists y W, lastn n l = y :: W /\ lastn n (l ++ [x]) = W ++ [x].
Proof.
  intros H. assert (HL : zlen (lastn n l) = n) by (apply zlen_lastn; lia). destruct (lastn n l) as [|y W] eqn:E; [change (@zlen A []) with 0 in HL; lia|].
  exists y, W. split; [reflexivity|]. unfold lastn in *. unfold zlen in H. rewrite app_length. cbn [length].
  replace (length l + 1 - Z.to_nat n)%nat with (S (length l - Z.to_nat n)) by lia. rewrite skipn_app.
  replace (S (length l - Z.to_nat n) - length l)%nat with 0%nat by lia. cbn [skipn]. f_equal.
  remember (length l - Z.to_nat n)%nat as m. clear - E. revert l E. induction m as [|m IH]; intros [|z l] E; cbn in *; try discriminate; [congruence|].
  destruct l as [|a l]; [destruct m; discriminate|]. exact (IH (a :: l) E).
Qed.
(** the window over the zero-padded history *)
Definition padded (Size : Z) (h : list Z) : list Z := lastn Size (zrepeat 0 Size ++ h).
Lemma len_zrepeat {A} (x : A) n : length (zrepeat x n) = Z.to_nat n.
Proof. apply repeat_length. Qed.
Lemma zsum_skip_zeros n m : zsum (skipn m (zrepeat 0 n)) = 0.
Proof.
  unfold zrepeat. revert m. generalize (Z.to_nat n) as k. induction k as [|k IH]; intros [|m]; cbn [repeat skipn]; auto.
  rewrite zsum_cons. exact (IH 0%nat).
Qed.
Lemma zsum_padded Size h : 0 <= Size -> zsum (padded Size h) = zsum (lastn Size h).
Proof.
  intros HS. unfold padded, lastn at 1. rewrite skipn_app, zsum_app, zsum_skip_zeros, Z.add_0_l, app_length, len_zrepeat. unfold lastn. f_equal. f_equal. lia.
Qed.
Record ma_inv (Size : Z) (h : list Z) (s : movavg) : Prop := {
  mi_len : zlen (ma_buff s) = Size;
  mi_rot : exists A B, ma_buff s = A ++ B /\ zlen A = ma_idx s /\ B <> [] /\ B ++ A = padded Size h;
  mi_sum : ma_sum s = zsum (padded Size h) }.
Lemma padded_bound Size bits h : 0 < Size -> 0 <= bits -> Forall (fun v => 0 <= v < 2 ^ bits) h -> Forall (fun v => 0 <= v < 2 ^ bits) (padded Size h).
Proof.
  intros HS Hb HF. apply Forall_forall. intros v Hv. unfold padded, lastn in Hv.
  assert (HI : In v (zrepeat 0 Size ++ h)). { rewrite <- (firstn_skipn (length (zrepeat 0 Size ++ h) - Z.to_nat Size)). apply in_or_app. right. exact Hv. }
  apply in_app_or in HI as [HI|HI]; [|exact (proj1 (Forall_forall _ _) HF v HI)]. apply repeat_spec in HI. subst v. pose proof (pow2_pos bits Hb). lia.
Qed.
Lemma zlen_padded Size h : 0 <= Size -> zlen (padded Size h) = Size.
Proof. intros H. unfold padded. apply zlen_lastn. rewrite zlen_app, zlen_zrepeat by lia. pose proof (zlen_nonneg h). lia. Qed.
Lemma padded_snoc Size h x : 1 <= Size -> exists y W, padded Size h = y :: W /\ padded Size (h ++ [x]) = W ++ [x].
Proof.
  intros H. unfold padded. rewrite app_assoc. apply lastn_snoc. rewrite zlen_app, zlen_zrepeat by lia. pose proof (zlen_nonneg h). lia.
Qed.
Lemma padded_sum_small k bits h : 0 <= k -> 0 <= bits -> k + bits <= 32 -> Forall (fun v => 0 <= v < 2 ^ bits) h -> 0 <= zsum (padded (2 ^ k) h) < 2 ^ 32.
Proof.
  intros Hk Hb HK HF. pose proof (pow2_pos k Hk). pose proof (zsum_bound _ _ (padded_bound (2 ^ k) bits h ltac:(lia) Hb HF)) as HB. rewrite zlen_padded in HB by lia.
  assert (HP : 2 ^ k * 2 ^ bits <= 2 ^ 32) by (rewrite <- Z.pow_add_r by lia; apply Z.pow_le_mono_r; lia). nia.
Qed.
Lemma zupd_mid {A} (l1 l2 : list A) x y i : zlen l1 = i -> zupd (l1 ++ x :: l2) i y = l1 ++ y :: l2.
Proof.
  intros <-. unfold zupd, zlen. destruct (Z.ltb_spec (Z.of_nat (length l1)) 0); [lia|]. rewrite Nat2Z.id. induction l1 as [|a l1 IH]; cbn; [reflexivity|]. rewrite IH by lia. reflexivity.
Qed.
Lemma ma_step_inv k bits h s x : 0 <= k -> 0 <= bits -> k + bits <= 32 -> Forall (fun v => 0 <= v < 2 ^ bits) (h ++ [x]) ->
  ma_inv (2 ^ k) h s -> exists s', ma_add (2 ^ k) k s x = Ok (s', zsum (lastn (2 ^ k) (h ++ [x])) / 2 ^ k) /\ ma_inv (2 ^ k) (h ++ [x]) s'.
Proof.
  intros Hk Hb HK HF [HL (A & B & EB & HA & HB & HR) HS]. pose proof (pow2_pos k Hk) as HP.
  destruct B as [|o B]; [congruence|]. destruct (padded_snoc (2 ^ k) h x ltac:(lia)) as (y & W & E1 & E2). rewrite E1 in HR. cbn [app] in HR. injection HR as -> HR.
  unfold ma_add. rewrite EB. rewrite (rd_ok _ _ y) by (rewrite <- HA; rewrite znth_app_r by lia; rewrite Z.sub_diag; apply znth_cons_0). cbn [bind].
  rewrite EB, zlen_app, zlen_cons in HL. pose proof (zlen_nonneg A). pose proof (zlen_nonneg B).
  rewrite wr_ok by (rewrite zlen_app, zlen_cons; lia). cbn [bind]. rewrite (zupd_mid A B y x) by exact HA.
  assert (ES : word 32 (word 32 (ma_sum s - y) + x) = zsum (padded (2 ^ k) (h ++ [x]))).
  { rewrite word_add_l, HS, E1, E2, zsum_cons, zsum_app. cbn [zsum fold_right]. replace (y + zsum W - y + x) with (zsum W + (x + 0)) by lia.
    apply word_small. pose proof (padded_sum_small k bits (h ++ [x]) Hk Hb HK HF) as HX. rewrite E2, zsum_app in HX. exact HX. }
  rewrite ES. eexists. split.
  - unfold ma_val. cbn [ma_sum]. rewrite <- (zsum_padded (2 ^ k) (h ++ [x])) by lia. rewrite Z.shiftr_div_pow2 by lia. reflexivity.
  - rewrite land_ones_mod by lia. split; cbn [ma_buff ma_idx ma_sum]; [rewrite zlen_app, zlen_cons; lia| |reflexivity].
    destruct B as [|b B].
    + exists [], (A ++ [x]). change (@zlen Z []) with 0 in *. replace (ma_idx s + 1) with (2 ^ k) by lia. rewrite Z.mod_same by lia. rewrite app_nil_r. splits; auto; [destruct A; discriminate|].
      rewrite E2, <- HR. reflexivity.
    + exists (A ++ [x]), (b :: B). rewrite <- app_assoc. rewrite zlen_cons in *. pose proof (zlen_nonneg B). rewrite Z.mod_small by lia. splits; auto; [rewrite zlen_app; cbn; lia|discriminate|].
      rewrite E2, <- HR, app_assoc. reflexivity.
Qed.
Lemma ztab_snoc {A} n (f : Z -> A) : 0 <= n -> ztab (n + 1) f = ztab n f ++ [f n].
Proof. intros H. unfold ztab. replace (Z.to_nat (n + 1)) with (S (Z.to_nat n)) by lia. rewrite seq_S, map_app. cbn. rewrite Z2Nat.id by lia. reflexivity. Qed.
Lemma ztab_ext {A} n (f g : Z -> A) : (forall i, 0 <= i < n -> f i = g i) -> ztab n f = ztab n g.
Proof. intros H. unfold ztab. apply map_ext_in. intros i Hi. apply in_seq in Hi. apply H. lia. Qed.
Definition prefix {A} (n : Z) (l : list A) : list A := firstn (Z.to_nat n) l.
Lemma ma_run k bits h : 0 <= k -> 0 <= bits -> k + bits <= 32 -> Forall (fun v => 0 <= v < 2 ^ bits) h ->
  exists s, run (ma_add (2 ^ k) k) (ma0 (2 ^ k)) h =
    Ok (s, ztab (zlen h) (fun i => zsum (lastn (2 ^ k) (firstn (Z.to_nat (i + 1)) h)) / 2 ^ k)) /\ ma_inv (2 ^ k) h s.
Proof.
  intros Hk Hb HK. pose proof (pow2_pos k Hk) as HP. induction h as [|x h IH] using rev_ind; intros HF.
  - exists (ma0 (2 ^ k)). split; [reflexivity|]. split; cbn [ma0 ma_buff ma_idx ma_sum].
    + apply zlen_zrepeat. lia.
    + exists [], (zrepeat 0 (2 ^ k)). splits; auto.
      * intros E. apply (f_equal zlen) in E. rewrite zlen_zrepeat in E by lia. change (@zlen Z []) with 0 in E. lia.
      * rewrite app_nil_r. unfold padded. rewrite app_nil_r. symmetry. apply lastn_all. rewrite zlen_zrepeat; lia.
    + unfold padded. rewrite app_nil_r, lastn_all by (rewrite zlen_zrepeat; lia). symmetry. apply zsum_zrepeat.
  - destruct IH as (s & ER & HI). { apply Forall_app in HF. tauto. }
    destruct (ma_step_inv k bits h s x Hk Hb HK HF HI) as (s' & ES & HI'). exists s'. split; [|exact HI'].
    rewrite run_app, ER. cbn [bind run]. rewrite ES. cbn [bind]. rewrite zlen_app. change (zlen [x]) with 1. rewrite ztab_snoc by apply zlen_nonneg. f_equal. f_equal. f_equal.
    + apply ztab_ext. intros i Hi. unfold zlen in Hi. rewrite firstn_app. replace (Z.to_nat (i + 1) - length h)%nat with 0%nat by lia. cbn [firstn]. rewrite app_nil_r. reflexivity.
    + unfold zlen. rewrite firstn_all2 by (rewrite app_length; cbn; lia). reflexivity.
Qed.

Lemma ma_val_spec k bits h s outs : 0 <= k -> 0 <= bits -> k + bits <= 32 -> Forall (fun v => 0 <= v < 2 ^ bits) h ->
  run (ma_add (2 ^ k) k) (ma0 (2 ^ k)) h = Ok (s, outs) -> ma_val k s = zsum (lastn (2 ^ k) h) / 2 ^ k.
Proof.
  intros Hk Hb HK HF ER. destruct (ma_run k bits h Hk Hb HK HF) as (s' & E & [_ _ HS]). rewrite E in ER. injection ER as <- _.
  unfold ma_val. pose proof (pow2_pos k Hk). rewrite HS, zsum_padded by lia. rewrite Z.shiftr_div_pow2 by lia. reflexivity.
Qed.

(** oversamplers *)
Section Over.
Context {R : Type} (value : Z -> R) (Size : Z) (v0 : R) (bound : Z).
Hypothesis HS : 0 < Size < 2 ^ 32.
Hypothesis Hbound : Size * (bound - 1) < 2 ^ 32.
Definition os_after (h : list Z) : oversampler R := after (os_add value Size) (OS 0 v0 0) h.
Definition last_block (h : list Z) : R :=
  if zlen h <? Size then v0 else value (zsum (block Size (zlen h / Size - 1) h)).
Definition open_part (h : list Z) : list Z := skipn (Z.to_nat (zlen h / Size * Size)) h.
Lemma zlen_open h : zlen (open_part h) = zlen h mod Size.
Proof using HS.
  clear - HS. unfold open_part. pose proof (zlen_nonneg h). rewrite zlen_skipn.
  - rewrite (Z.mod_eq (zlen h) Size) by lia. lia.
  - split; [apply Z.mul_nonneg_nonneg; [apply Z.div_pos; lia|lia]|]. rewrite Z.mul_comm. apply Z.mul_div_le. lia.
Qed.
Lemma os_inv h : Forall (fun v => 0 <= v < bound) h ->
  os_after h = OS (zsum (open_part h)) (last_block h) (zlen h mod Size).
Proof using HS Hbound.
  induction h as [|x h IH] using rev_ind; intros HF.
  - unfold os_after, open_part, last_block. rewrite skipn_nil. change (@zlen Z []) with 0. rewrite Z.mod_0_l by lia. destruct (Z.ltb_spec 0 Size); [reflexivity|lia].
  - pose proof (proj1 (Forall_app _ _ _) HF) as [HF1 HF2]. specialize (IH HF1). unfold os_after in *. rewrite after_snoc, IH. clear IH.
    unfold os_add. cbn [os_buff os_val os_idx fst]. pose proof (zlen_nonneg h) as H0.
    assert (HM : 0 <= zlen h mod Size < Size) by (apply Z.mod_pos_bound; lia).
    pose proof (zlen_open h) as HO.
    assert (HON : length (open_part h) = Z.to_nat (zlen h mod Size)) by (rewrite <- HO; unfold zlen; lia).
    assert (HL : zlen (h ++ [x]) = zlen h + 1) by (rewrite zlen_app; reflexivity).
    assert (HX : 0 <= x < bound) by (inversion HF2; assumption).
    assert (HFO : Forall (fun v => 0 <= v < bound) (open_part h)).
    { apply Forall_forall. intros v Hv. apply (proj1 (Forall_forall _ _) HF1). rewrite <- (firstn_skipn (Z.to_nat (zlen h / Size * Size))). apply in_or_app. right. exact Hv. }
    pose proof (zsum_bound _ _ HFO) as HB. rewrite HO in HB.
    rewrite (word_small 32 (zsum (open_part h) + x)) by nia. rewrite (word_small 32 (zlen h mod Size + 1)) by lia.
    assert (HD : zlen h / Size * Size <= zlen h) by (rewrite Z.mul_comm; apply Z.mul_div_le; lia).
    assert (HD0 : 0 <= zlen h / Size) by (apply Z.div_pos; lia).
    assert (HE : zlen h = Size * (zlen h / Size) + zlen h mod Size) by (apply Z.div_mod; lia).
    destruct (Z.geb_spec (zlen h mod Size + 1) Size) as [HC|HC].
    + assert (HQ : (zlen h + 1) / Size = zlen h / Size + 1) by (symmetry; apply Z.div_unique with 0; lia).
      assert (HR : (zlen h + 1) mod Size = 0) by (symmetry; apply Z.mod_unique with (zlen h / Size + 1); lia).
      unfold open_part at 2, last_block. rewrite HL, HQ, HR. f_equal.
      * rewrite skipn_all2; [reflexivity|]. rewrite app_length. unfold zlen in HE, HC |- *. cbn [length]. lia.
      * destruct (Z.ltb_spec (zlen h + 1) Size); [nia|]. f_equal. unfold block. replace (zlen h / Size + 1 - 1) with (zlen h / Size) by lia.
        rewrite skipn_app. replace (Z.to_nat (zlen h / Size * Size) - length h)%nat with 0%nat by (unfold zlen in HD |- *; lia). cbn [skipn].
        rewrite firstn_all2; [rewrite zsum_app; unfold open_part; cbn [zsum fold_right]; lia|].
        rewrite app_length. change (skipn (Z.to_nat (zlen h / Size * Size)) h) with (open_part h). rewrite HON. cbn [length]. lia.
    + assert (HQ : (zlen h + 1) / Size = zlen h / Size) by (symmetry; apply Z.div_unique with (zlen h mod Size + 1); lia).
      assert (HR : (zlen h + 1) mod Size = zlen h mod Size + 1) by (symmetry; apply Z.mod_unique with (zlen h / Size); lia).
      unfold open_part at 2, last_block. rewrite HL, HQ, HR. f_equal.
      * rewrite skipn_app. replace (Z.to_nat (zlen h / Size * Size) - length h)%nat with 0%nat by (unfold zlen in HD |- *; lia). cbn [skipn].
        rewrite zsum_app. unfold open_part. cbn [zsum fold_right]. lia.
      * destruct (Z.ltb_spec (zlen h) Size) as [H1|H1], (Z.ltb_spec (zlen h + 1) Size) as [H2|H2]; try reflexivity.
        -- assert (zlen h / Size = 0) by (apply Z.div_small; lia). assert (zlen h mod Size = zlen h) by (apply Z.mod_small; lia). lia.
        -- lia.
        -- f_equal. f_equal. unfold block. assert (1 <= zlen h / Size) by (apply Z.div_le_lower_bound; lia).
           rewrite skipn_app. replace (Z.to_nat ((zlen h / Size - 1) * Size) - length h)%nat with 0%nat by (unfold zlen in HD |- *; nia). cbn [skipn].
           rewrite firstn_app. match goal with |- firstn ?n ?l = firstn ?n ?l ++ firstn ?m ?r => replace m with 0%nat end; [cbn [firstn]; rewrite app_nil_r; reflexivity|].
           rewrite skipn_length. unfold zlen in *. nia.
Qed.
Lemma os_answer h x : Forall (fun v => 0 <= v < bound) (h ++ [x]) ->
  answer (os_add value Size) (OS 0 v0 0) h x = last_block (h ++ [x]) /\ os_val (os_after (h ++ [x])) = last_block (h ++ [x]).
Proof using HS Hbound.
  intros HF. pose proof (os_inv (h ++ [x]) HF) as E. unfold os_after, answer in *. rewrite after_snoc in E |- *.
  unfold os_add in *. cbn [fst snd] in *. rewrite E. auto.
Qed.
End Over.

(** resizing oversampler *)
Record ro_rel (s : resizing) (b : blocks) : Prop := {
  rr_size : ro_size s = b_size b;
  rr_pos : 1 <= ro_size s < 2 ^ 32;
  rr_idx : ro_idx s = zlen (b_cur b);
  rr_lt : ro_idx s < ro_size s;
  rr_buff : ro_buff s = fold_left fadd (b_cur b) f32_zero;
  rr_val : ro_val s = last_mean b }.
Lemma ro_step_rel s b o : (forall n, o = OSize n -> 1 <= n < 2 ^ 32) -> ro_rel s b -> ro_rel (ro_step s o) (blocks_step b o).
Proof.
  intros Ho [H1 H2 H3 H4 H5 H6]. pose proof (zlen_nonneg (b_cur b)) as H0. destruct o as [n|x]; cbn [ro_step blocks_step].
  - specialize (Ho n eq_refl). rewrite H3. destruct (Z.geb_spec (zlen (b_cur b)) n).
    + split; cbn [ro_size ro_idx ro_buff ro_val b_size b_cur]; auto; try reflexivity; try (change (@zlen f32 []) with 0; lia); try lia.
      unfold last_mean, fmean. cbn [b_done]. rewrite H5. reflexivity.
    + split; cbn [ro_size ro_idx ro_buff ro_val b_size b_cur]; auto; lia.
  - rewrite (word_small 32 (ro_idx s + 1)) by lia. rewrite zlen_app, <- H3, <- H1. change (zlen [x]) with 1. destruct (Z.geb_spec (ro_idx s + 1) (ro_size s)).
    + split; cbn [ro_size ro_idx ro_buff ro_val b_size b_cur]; auto; try reflexivity; try (change (@zlen f32 []) with 0; lia); try lia.
      unfold last_mean, fmean. cbn [b_done]. rewrite fold_left_app, <- H5, zlen_app, <- H3. change (zlen [x]) with 1. cbn [fold_left]. f_equal. f_equal. lia.
    + split; cbn [ro_size ro_idx ro_buff ro_val b_size b_cur]; auto; try lia.
      * rewrite zlen_app, <- H3. reflexivity.
      * rewrite fold_left_app, <- H5. reflexivity.
Qed.
Lemma ro_history size h : 1 <= size < 2 ^ 32 -> (forall n, In (OSize n) h -> 1 <= n < 2 ^ 32) ->
  ro_val (fold_left ro_step h (ro0 size)) = last_mean (fold_left blocks_step h (Blocks size [] None)).
Proof.
  intros Hs Hh. assert (HR : ro_rel (ro0 size) (Blocks size [] None)) by (split; cbn; auto; lia).
  apply rr_val. revert HR. generalize (ro0 size) (Blocks size [] None). induction h as [|o h IH]; intros s b HR; cbn [fold_left]; [exact HR|].
  apply IH; [intros n Hn; apply Hh; right; exact Hn|]. apply ro_step_rel; [|exact HR]. intros n ->. apply Hh. left. reflexivity.
Qed.
Lemma ro_zero_size : ro_val (ro_step (ro0 1) (OSize 0)) = S754_nan /\
  ro_val (fold_left ro_step [OSize 0; OAdd f32_one] (ro0 1)) = S754_infinity false.
Proof. split; reflexivity. Qed.

Lemma smooth_overflow : exists Size bits xs, 2 ^ bits = 2 ^ 31 /\ Size = 3 /\ Z.log2 Size + bits <= 32 /\
  Forall (fun v => 0 <= v < 2 ^ bits) xs /\ zlen xs = Size /\
  exists x, In x xs /\ SFltb (snd (smooth_add Size (after (smooth_add Size) smooth0 (removelast xs)) (List.last xs 0))) (f32_of_int x) = true /\
  forall y, In y xs -> y = x.
Proof.
  exists 3, 31, [2 ^ 31 - 1; 2 ^ 31 - 1; 2 ^ 31 - 1]. splits; auto; try reflexivity; try (cbn; lia).
  - repeat constructor; lia.
  - exists (2 ^ 31 - 1). splits; [left; reflexivity|vm_compute; reflexivity|]. intros y [<-|[<-|[<-|[]]]]; reflexivity.
Qed.

(** one pole filters *)
Lemma Qle_bool_false a b : Qle_bool a b = false -> (b < a)%Q.
Proof. intros H. destruct (Qlt_le_dec b a) as [L|L]; [exact L|]. apply Qle_bool_iff in L. congruence. Qed.
Lemma hysteresis_nearest flat state input : (0 <= flat)%Q ->
  nearest_in (input - flat) (input + flat) state (one_pole (transfer_hysteresis flat) state input).
Proof.
  intros Hf. unfold nearest_in, one_pole, transfer_hysteresis, Qclamp.
  destruct (Qle_bool (- flat) (input - state)) eqn:E1; cbn [negb]; [apply Qle_bool_iff in E1|apply Qle_bool_false in E1].
  - destruct (Qle_bool (input - state) flat) eqn:E2; cbn [negb]; [apply Qle_bool_iff in E2|apply Qle_bool_false in E2]; splits; intros; lra.
  - splits; intros; lra.
Qed.
Lemma nearest_unique lo hi x r r' : nearest_in lo hi x r -> nearest_in lo hi x r' -> (r == r')%Q.
Proof.
  intros (A1 & A2 & A3 & A4 & A5) (B1 & B2 & B3 & B4 & B5). destruct (Qlt_le_dec x lo) as [H|H]; [rewrite (A4 H), (B4 H); reflexivity|].
  destruct (Qlt_le_dec hi x) as [K|K]; [rewrite (A5 K), (B5 K); reflexivity|]. rewrite (A3 H K), (B3 H K). reflexivity.
Qed.
Lemma quadratic_factor D state input : (0 < D)%Q ->
  (one_pole (transfer_quadratic D) state input - state == (Qabs (input - state) / D) * (input - state))%Q.
Proof. intros HD. unfold one_pole, transfer_quadratic. field. lra. Qed.
Lemma quadratic_steps D state input : (0 < D)%Q -> let out := one_pole (transfer_quadratic D) state input in
  ((Qabs (input - state) <= D)%Q -> ((state <= input)%Q -> (state <= out <= input)%Q) /\ ((input <= state)%Q -> (input <= out <= state)%Q)) /\
  ((D < Qabs (input - state))%Q -> ((state < input)%Q -> (input < out)%Q) /\ ((input < state)%Q -> (out < input)%Q)) /\
  ((2 * D < Qabs (input - state))%Q -> (Qabs (input - state) < Qabs (input - out))%Q).
Proof.
  intros HD. cbv zeta. pose proof (quadratic_factor D state input HD) as E. set (out := one_pole (transfer_quadratic D) state input) in *. clearbody out.
  set (e := (input - state)%Q) in *. set (k := (Qabs e / D)%Q) in *.
  assert (Ek : (k * D == Qabs e)%Q) by (subst k; field; lra).
  assert (He : (out == state + k * e)%Q) by lra.
  assert (H0 : (0 <= Qabs e)%Q) by apply Qabs_nonneg.
  assert (Hk0 : (0 <= k)%Q). { apply Qle_shift_div_l; [exact HD|]. lra. }
  assert (Hpos : (0 <= e)%Q -> (Qabs e == e)%Q) by apply Qabs_pos. assert (Hneg : (e <= 0)%Q -> (Qabs e == - e)%Q) by apply Qabs_neg.
  assert (Ee : (e == input - state)%Q) by reflexivity. clearbody e k. splits.
  - intros H. assert (Hk1 : (k <= 1)%Q) by nra. split; intros; split; nra.
  - intros H. assert (Hk1 : (1 < k)%Q) by nra. split; intros; nra.
  - intros H. assert (Hk1 : (2 < k)%Q) by nra.
    assert (Eo : (input - out == (1 - k) * e)%Q) by lra. rewrite Eo, Qabs_Qmult. rewrite (Qabs_neg (1 - k)) by lra. nra.
Qed.

Lemma ma_correct k bits h : 0 <= k -> 0 <= bits -> k + bits <= 32 -> Forall (fun v => 0 <= v < 2 ^ bits) h ->
  exists s, run (ma_add (2 ^ k) k) (ma0 (2 ^ k)) h =
    Ok (s, ztab (zlen h) (fun i => zsum (lastn (2 ^ k) (firstn (Z.to_nat (i + 1)) h)) / 2 ^ k)) /\
    ma_val k s = zsum (lastn (2 ^ k) h) / 2 ^ k.
Proof.
  intros Hk Hb HK HF. destruct (ma_run k bits h Hk Hb HK HF) as (s & E & _). exists s. split; [exact E|]. eapply ma_val_spec; eauto.
Qed.
Lemma over_correct k bits h x : 0 <= k < 32 -> 0 <= bits -> k + bits <= 32 -> Forall (fun v => 0 <= v < 2 ^ bits) (h ++ [x]) ->
  let expected := last_block_value (fun sum => sum / 2 ^ k) (2 ^ k) 0 (h ++ [x]) in
  answer (over_add (2 ^ k) k) over0 h x = expected /\ os_val (after (over_add (2 ^ k) k) over0 (h ++ [x])) = expected.
Proof.
  intros Hk Hb HK HF expected. pose proof (pow2_pos k ltac:(lia)). pose proof (pow2_pos bits Hb).
  assert (HP : 2 ^ k < 2 ^ 32) by (apply Z.pow_lt_mono_r; lia).
  assert (HQ : 2 ^ k * (2 ^ bits - 1) < 2 ^ 32). { assert (2 ^ k * 2 ^ bits <= 2 ^ 32) by (rewrite <- Z.pow_add_r by lia; apply Z.pow_le_mono_r; lia). nia. }
  assert (E : expected = last_block (fun buff => Z.shiftr buff k) (2 ^ k) 0 (h ++ [x])).
  { unfold expected, last_block_value, last_block. rewrite Z.shiftr_div_pow2 by lia. reflexivity. }
  rewrite E. exact (os_answer (fun buff => Z.shiftr buff k) (2 ^ k) 0 (2 ^ bits) ltac:(lia) HQ h x HF).
Qed.
Lemma smooth_correct Size bound h x : 0 < Size < 2 ^ 32 -> Size * (bound - 1) < 2 ^ 32 -> Forall (fun v => 0 <= v < bound) (h ++ [x]) ->
  answer (smooth_add Size) smooth0 h x = last_block_value (fun sum => fdiv (f32_of_int sum) (f32_of_int Size)) Size f32_zero (h ++ [x]).
Proof. intros H1 H2 H3. exact (proj1 (os_answer _ Size f32_zero bound H1 H2 h x H3)). Qed.
Lemma cascade_spec (F1 F2 : Type) (add1 : F1 -> Z -> F1) (val1 : F1 -> Z) (add2 : F2 -> Z -> F2 * Z) f1 f2 :
  cascade_val val1 add2 (f1, f2) = ((f1, fst (add2 f2 (val1 f1))), snd (add2 f2 (val1 f1))) /\
  (forall xs, fold_left (cascade_add add1) xs (f1, f2) = (fold_left add1 xs f1, f2)).
Proof.
  split.
  - unfold cascade_val. cbn [fst snd]. destruct (add2 f2 (val1 f1)). reflexivity.
  - intros xs. revert f1. induction xs as [|x xs IH]; intros f1; cbn [fold_left]; [reflexivity|]. unfold cascade_add at 2. cbn [fst snd]. apply IH.
Qed.
Lemma cascade_not_query : exists s : oversampler Z * oversampler Z,
  let val1 := fun f : oversampler Z => os_val f in
  let (s1, r1) := cascade_val val1 (over_add 2 1) s in
  let (s2, r2) := cascade_val val1 (over_add 2 1) s1 in r1 <> r2.
Proof. exists (OS 0 100 0, over0). cbn. discriminate. Qed.

Lemma cascade_not_query' x : 0 <= x < 2 ^ 31 ->
  let val1 := fun f : oversampler Z => os_val f in
  let s := fold_left (cascade_add (fun f v => fst (over_add 2 1 f v))) [x; x] (over0, over0) in
  exists s1 s2, cascade_val val1 (over_add 2 1) s = (s1, 0) /\ cascade_val val1 (over_add 2 1) s1 = (s2, x).
Proof.
  intros Hx val1 s.
  assert (W : word 32 x = x) by (apply word_small; lia). assert (W2 : word 32 (x + x) = x + x) by (apply word_small; lia).
  assert (S : Z.shiftr (x + x) 1 = x) by (rewrite Z.shiftr_div_pow2 by lia; change (2 ^ 1) with 2; replace (x + x) with (x * 2) by ring; apply Z.div_mul; lia).
  assert (A0 : forall v, over_add 2 1 (OS 0 v 0) x = (OS x v 1, v)).
  { intros v. unfold over_add, os_add. cbn [os_buff os_val os_idx]. rewrite (Z.add_0_l x), W. reflexivity. }
  assert (A1 : forall v, over_add 2 1 (OS x v 1) x = (OS 0 x 0, x)).
  { intros v. unfold over_add, os_add. cbn [os_buff os_val os_idx]. rewrite W2. change (word 32 (1 + 1) >=? 2) with true. cbn iota. rewrite S. reflexivity. }
  assert (E : s = (OS 0 x 0, over0)).
  { unfold s, cascade_add, over0. cbn [fold_left fst snd]. rewrite A0. cbn [fst]. rewrite A1. reflexivity. }
  rewrite E. unfold cascade_val, val1, over0. cbn [fst snd os_val]. rewrite A0.
  exists (OS 0 x 0, OS x 0 1), (OS 0 x 0, OS 0 x 0). split; [reflexivity|]. cbn [fst snd os_val]. rewrite A1. reflexivity.
Qed.
Lemma ro_rel_history size h : 1 <= size < 2 ^ 32 -> (forall n, In (OSize n) h -> 1 <= n < 2 ^ 32) ->
  ro_rel (fold_left ro_step h (ro0 size)) (fold_left blocks_step h (Blocks size [] None)).
Proof.
  intros Hs Hh. assert (HR : ro_rel (ro0 size) (Blocks size [] None)) by (split; cbn; auto; lia).
  revert HR. generalize (ro0 size) (Blocks size [] None). induction h as [|o h IH]; intros s b HR; [exact HR|]. cbn [fold_left].
  apply IH; [intros n Hn; apply Hh; right; exact Hn|]. apply ro_step_rel; [|exact HR]. intros n ->. apply Hh. left. reflexivity.
Qed.
Lemma ro_zero_size' size h : 1 <= size < 2 ^ 32 -> (forall n, In (OSize n) h -> 1 <= n < 2 ^ 32) ->
  let s := fold_left ro_step h (ro0 size) in
  b_cur (fold_left blocks_step h (Blocks size [] None)) = [] ->
  ro_val (ro_step s (OSize 0)) = S754_nan /\
  (forall m e, ro_val (fold_left ro_step [OSize 0; OAdd (S754_finite false m e)] s) = S754_infinity false).
Proof.
  intros Hs Hh s Hc. destruct (ro_rel_history size h Hs Hh) as [R1 R2 R3 R4 R5 R6]. fold s in R1, R2, R3, R4, R5, R6. rewrite Hc in R3, R5. change (zlen (@nil f32)) with 0 in R3. cbn [fold_left] in R5.
  cbn [fold_left ro_step]. rewrite R3. change (0 >=? 0) with true. cbn iota. cbn [ro_val ro_idx ro_size ro_buff]. rewrite R5. split; [reflexivity|]. intros m e. change (word 32 (0 + 1) >=? 0) with true. cbn iota. reflexivity.
Qed.
