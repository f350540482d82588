From Verif.Common Require Import Base Lemmas.
From Verif.Spec Require Import MathSpec.
From Verif.Model Require Import MathInt.

Lemma schk_ok w x : - 2 ^ (w - 1) <= x < 2 ^ (w - 1) -> schk w x = Ok x.
Proof. intros H. unfold schk. destruct (Z.leb_spec (- 2 ^ (w - 1)) x), (Z.ltb_spec x (2 ^ (w - 1))); try lia; reflexivity. Qed.
Lemma schk_bad w x : ~ (- 2 ^ (w - 1) <= x < 2 ^ (w - 1)) -> schk w x = UB SignedOverflow.
Proof. intros H. unfold schk. destruct (Z.leb_spec (- 2 ^ (w - 1)) x), (Z.ltb_spec x (2 ^ (w - 1))); try lia; reflexivity. Qed.
Lemma schk_inv w x y : schk w x = Ok y -> y = x /\ - 2 ^ (w - 1) <= x < 2 ^ (w - 1).
Proof. unfold schk. destruct (Z.leb_spec (- 2 ^ (w - 1)) x), (Z.ltb_spec x (2 ^ (w - 1))); cbn; intros E; try discriminate; injection E; auto. Qed.

(* ---------------- powers of two ---------------- *)
Lemma is_pow2_pos v : is_pow2 v -> 0 < v.
Proof. intros (k & Hk & ->). apply Z.pow_pos_nonneg; lia. Qed.
Lemma log2_bounds v : 0 < v -> 2 ^ Z.log2 v <= v < 2 ^ (Z.log2 v + 1).
Proof. intros H. replace (Z.log2 v + 1) with (Z.succ (Z.log2 v)) by lia. apply Z.log2_spec; exact H. Qed.
Lemma floor_log2_fun v k : floor_log2 v k -> k = Z.log2 v.
Proof. intros (Hk & Hb). symmetry. apply Z.log2_unique; [exact Hk|]. replace (Z.succ k) with (k + 1) by lia. exact Hb. Qed.
Lemma land_pred v : 0 < v -> (Z.land v (v - 1) = 0 <-> is_pow2 v).
Proof.
  intros Hv. pose proof (log2_bounds v Hv) as Hb. set (k := Z.log2 v) in *. assert (Hk : 0 <= k) by apply Z.log2_nonneg.
  assert (Hp : 2 ^ (k + 1) = 2 * 2 ^ k) by (rewrite Z.pow_add_r by lia; lia).
  split.
  - intros H. exists k. split; [exact Hk|]. destruct (Z.eq_dec v (2 ^ k)) as [E|NE]; [exact E|exfalso].
    assert (Hb1 : Z.testbit v k = true) by (apply Z.bit_log2; exact Hv).
    assert (Hb2 : Z.testbit (v - 1) k = true).
    { assert (EL : Z.log2 (v - 1) = k).
      { apply Z.log2_unique; [exact Hk|]. replace (Z.succ k) with (k + 1) by lia. lia. }
      rewrite <- EL. apply Z.bit_log2. assert (0 < 2 ^ k) by (apply Z.pow_pos_nonneg; lia). lia. }
    assert (Hz : Z.testbit (Z.land v (v - 1)) k = false) by (rewrite H; apply Z.bits_0).
    rewrite Z.land_spec, Hb1, Hb2 in Hz. discriminate.
  - intros (j & Hj & ->). rewrite Z.sub_1_r. rewrite <- Z.ones_equiv, Z.land_ones by lia. apply Z.mod_same.
    assert (0 < 2 ^ j) by (apply Z.pow_pos_nonneg; lia). lia.
Qed.
Lemma is_power_of_2_spec v : uint32 v -> (is_power_of_2 v = true <-> is_pow2 v).
Proof.
  unfold uint32. intros H. unfold is_power_of_2. rewrite andb_true_iff, negb_true_iff, Z.eqb_neq, Z.eqb_eq.
  destruct (Z.eq_dec v 0) as [->|Hn].
  - split; [tauto|]. intros Hp. apply is_pow2_pos in Hp. lia.
  - rewrite word_small by lia. rewrite land_pred by lia. tauto.
Qed.
Lemma land_pow2_testbit x i : 0 <= i -> (Z.land x (2 ^ i) =? 0) = negb (Z.testbit x i).
Proof.
  intros Hi. destruct (Z.testbit x i) eqn:E; cbn [negb].
  - apply Z.eqb_neq. intros H. assert (Z.testbit (Z.land x (2 ^ i)) i = false) by (rewrite H; apply Z.bits_0).
    rewrite Z.land_spec, E, Z.pow2_bits_true in H0 by lia. discriminate.
  - apply Z.eqb_eq. apply Z.bits_inj'. intros n Hn. rewrite Z.bits_0, Z.land_spec.
    destruct (Z.eq_dec n i) as [->|Hni]; [rewrite E; reflexivity|]. rewrite Z.pow2_bits_false by lia. apply andb_false_r.
Qed.
Lemma log2_loop_spec i : forall x, 0 <= x < 2 ^ Z.of_nat i -> log2_loop i x = if x =? 0 then 0 else Z.log2 x.
Proof.
  induction i as [|i IH]; intros x Hx.
  - cbn in Hx. assert (x = 0) by lia. subst. reflexivity.
  - cbn [log2_loop]. rewrite land_pow2_testbit, negb_involutive by lia.
    assert (Hp : 2 ^ Z.of_nat (S i) = 2 * 2 ^ Z.of_nat i) by (rewrite Nat2Z.inj_succ, Z.pow_succ_r by lia; lia).
    destruct (Z_lt_dec x (2 ^ Z.of_nat i)) as [H|H].
    + destruct (Z.eq_dec x 0) as [->|Hn].
      * rewrite Z.bits_0. rewrite IH by lia. reflexivity.
      * rewrite Z.bits_above_log2; [apply IH; lia|lia|]. apply Z.log2_lt_pow2; lia.
    + assert (E : Z.log2 x = Z.of_nat i) by (apply Z.log2_unique; [lia|]; rewrite <- Nat2Z.inj_succ; lia).
      assert (0 < 2 ^ Z.of_nat i) by (apply Z.pow_pos_nonneg; lia).
      rewrite <- E at 1. rewrite Z.bit_log2 by lia. destruct (Z.eqb_spec x 0); lia.
Qed.
Lemma log2_floor_spec x : uint32 x -> log2_floor 0 = 0 /\ (0 < x -> floor_log2 x (log2_floor x)).
Proof.
  intros H. split; [reflexivity|]. intros Hx. unfold log2_floor. rewrite log2_loop_spec by exact H.
  destruct (Z.eqb_spec x 0); [lia|]. split; [apply Z.log2_nonneg|apply log2_bounds; exact Hx].
Qed.
Lemma log2_t_spec : forall fuel N, 0 < N < 2 ^ Z.of_nat fuel -> log2_t fuel N = Ok (Z.log2 N).
Proof.
  induction fuel as [|fuel IH]; intros N H; [cbn in H; lia|]. cbn [log2_t].
  destruct (Z.eqb_spec N 1) as [->|Hn]; [reflexivity|].
  assert (Hp : 2 ^ Z.of_nat (S fuel) = 2 * 2 ^ Z.of_nat fuel) by (rewrite Nat2Z.inj_succ, Z.pow_succ_r by lia; lia).
  assert (1 <= N / 2) by (apply Z.div_le_lower_bound; lia). assert (N / 2 < 2 ^ Z.of_nat fuel) by (apply Z.div_lt_upper_bound; lia).
  rewrite IH by lia. cbn [bind]. f_equal.
  rewrite <- Z.div2_div. assert (Z.log2 N = Z.succ (Z.log2 (Z.div2 N))); [|lia].
  rewrite (Zdiv2_odd_eqn N) at 1. rewrite Z.div2_div in *. destruct (Z.odd N).
  - apply Z.log2_succ_double. lia.
  - rewrite Z.add_0_r. apply Z.log2_double. lia.
Qed.

(* [x] has bit i iff [v] has one of the bits i .. i+n-1 *)
Definition smeared (v n x : Z) : Prop := forall i, 0 <= i -> (Z.testbit x i = true <-> exists d, 0 <= d < n /\ Z.testbit v (i + d) = true).
Lemma smeared_1 v : smeared v 1 v.
Proof.
  intros i Hi. split; [intros H; exists 0; rewrite Z.add_0_r; split; [lia|exact H]|].
  intros (d & Hd & H). assert (d = 0) by lia. subst. rewrite Z.add_0_r in H. exact H.
Qed.
Lemma smeared_step v n x : 0 < n -> smeared v n x -> smeared v (2 * n) (smear n x).
Proof.
  intros Hn H i Hi. unfold smear. rewrite Z.lor_spec, Z.shiftr_spec, orb_true_iff, (H i Hi), (H (i + n)) by lia. split.
  - intros [(d & Hd & E) | (d & Hd & E)]; [exists d; split; [lia|exact E]|]. exists (n + d). split; [lia|].
    replace (i + (n + d)) with (i + n + d) by lia. exact E.
  - intros (d & Hd & E). destruct (Z_lt_dec d n) as [L|L]; [left; exists d; split; [lia|exact E]|].
    right. exists (d - n). split; [lia|]. replace (i + n + (d - n)) with (i + d) by lia. exact E.
Qed.
Lemma smeared_all v n x : 0 < v < 2 ^ n -> 0 <= n -> smeared v n x -> 0 <= x -> x = Z.ones (Z.log2 v + 1).
Proof.
  intros Hv Hn H Hx. apply Z.bits_inj'. intros i Hi. assert (Hl : Z.log2 v < n) by (apply Z.log2_lt_pow2; lia).
  pose proof (Z.log2_nonneg v).
  destruct (Z_lt_dec i (Z.log2 v + 1)) as [L|L].
  - rewrite Z.ones_spec_low by lia. apply (H i Hi). exists (Z.log2 v - i). split; [lia|].
    replace (i + (Z.log2 v - i)) with (Z.log2 v) by lia. apply Z.bit_log2; lia.
  - rewrite Z.ones_spec_high by lia. destruct (Z.testbit x i) eqn:E; [|reflexivity]. exfalso.
    apply (H i Hi) in E as (d & Hd & E). rewrite Z.bits_above_log2 in E by lia. discriminate.
Qed.
Lemma smear_nonneg s x : 0 <= x -> 0 <= smear s x.
Proof. intros H. unfold smear. apply Z.lor_nonneg. split; [exact H|]. apply Z.shiftr_nonneg. exact H. Qed.
Definition all_smears (W v : Z) : Z :=
    let value := smear 4 (smear 2 (smear 1 v)) in
    let value := if W >? 8 then smear 8 value else value in
    let value := if W >? 16 then smear 16 value else value in
    if W >? 32 then smear 32 value else value.
Lemma all_smears_spec W v : W = 8 \/ W = 16 \/ W = 32 \/ W = 64 -> 0 < v < 2 ^ W -> all_smears W v + 1 = 2 ^ (Z.log2 v + 1).
Proof.
  intros HW Hv.
  assert (H8 : smeared v 8 (smear 4 (smear 2 (smear 1 v)))).
  { apply (smeared_step v 4); [lia|]. apply (smeared_step v 2); [lia|]. apply (smeared_step v 1); [lia|]. apply smeared_1. }
  assert (smeared v W (all_smears W v) /\ 0 <= all_smears W v) as [Hs Hp].
  { destruct HW as [-> |[-> |[-> | ->]]]; unfold all_smears; cbn [Z.gtb Z.compare Pos.compare Pos.compare_cont].
    - split; [exact H8|]. repeat apply smear_nonneg; lia.
    - split; [|repeat apply smear_nonneg; lia]. apply (smeared_step v 8); [lia|exact H8].
    - split; [|repeat apply smear_nonneg; lia]. apply (smeared_step v 16); [lia|]. apply (smeared_step v 8); [lia|exact H8].
    - split; [|repeat apply smear_nonneg; lia]. apply (smeared_step v 32); [lia|]. apply (smeared_step v 16); [lia|]. apply (smeared_step v 8); [lia|exact H8]. }
  rewrite (smeared_all v W _ Hv ltac:(lia) Hs Hp). rewrite Z.ones_equiv. lia.
Qed.
Lemma next_unfold W v : next_power_of_2 W v =
  if (v =? 0) || (v =? 1) then 1 else if is_power_of_2 (word 32 v) then v else word W (all_smears W v + 1).
Proof. reflexivity. Qed.
Lemma pow2_le_inv a b : 0 <= b -> 2 ^ a <= 2 ^ b -> a <= b.
Proof. intros Hb H. destruct (Z_lt_dec b a); [|lia]. assert (2 ^ b < 2 ^ a) by (apply Z.pow_lt_mono_r; lia). lia. Qed.
Lemma least_pow2_above v : 0 < v -> ~ is_pow2 v -> least_pow2 v (2 ^ (Z.log2 v + 1)).
Proof.
  intros Hv Hn. pose proof (log2_bounds v Hv) as Hb. pose proof (Z.log2_nonneg v). split; [exists (Z.log2 v + 1); split; [lia|reflexivity]|].
  split; [lia|]. intros q (j & Hj & ->) Hq. apply Z.pow_le_mono_r; [lia|].
  destruct (Z.eq_dec v (2 ^ j)) as [E|NE]; [exfalso; apply Hn; exists j; auto|].
  assert (2 ^ Z.log2 v < 2 ^ j) by lia. destruct (Z_lt_dec (Z.log2 v) j); [lia|].
  assert (2 ^ j <= 2 ^ Z.log2 v) by (apply Z.pow_le_mono_r; lia). lia.
Qed.
Lemma least_pow2_self v : is_pow2 v -> least_pow2 v v.
Proof. intros H. split; [exact H|]. split; [lia|]. auto. Qed.
Lemma least_pow2_small v : v <= 1 -> least_pow2 v 1.
Proof. intros H. split; [exists 0; split; [lia|reflexivity]|]. split; [lia|]. intros q Hq _. apply is_pow2_pos in Hq. lia. Qed.
Lemma word_pow2 W k : 0 <= k <= W -> word W (2 ^ k) = if 2 ^ k <? 2 ^ W then 2 ^ k else 0.
Proof.
  intros H. assert (0 < 2 ^ k) by (apply Z.pow_pos_nonneg; lia). destruct (Z.ltb_spec (2 ^ k) (2 ^ W)); [apply word_small; lia|].
  assert (W <= k) by (apply pow2_le_inv; lia). assert (k = W) by lia. subst. unfold word. apply Z.mod_same. lia.
Qed.
Lemma next_power_of_2_spec W v : W = 8 \/ W = 16 \/ W = 32 -> 0 <= v < 2 ^ W ->
  exists p, least_pow2 v p /\ next_power_of_2 W v = if p <? 2 ^ W then p else 0.
Proof.
  intros HW Hv. assert (H32 : 2 ^ W <= 2 ^ 32) by (apply Z.pow_le_mono_r; lia). rewrite next_unfold.
  assert (H1W : 1 < 2 ^ W) by (apply Z.pow_gt_1; lia).
  destruct (Z.eqb_spec v 0) as [->|H0]; [exists 1; split; [apply least_pow2_small; lia|]; cbn [orb]; destruct (Z.ltb_spec 1 (2 ^ W)); lia|].
  destruct (Z.eqb_spec v 1) as [->|H1]; [exists 1; split; [apply least_pow2_small; lia|]; cbn [orb]; destruct (Z.ltb_spec 1 (2 ^ W)); lia|].
  cbn [orb]. rewrite word_small by lia. pose proof (is_power_of_2_spec v ltac:(unfold uint32; lia)) as Hs.
  destruct (is_power_of_2 v).
  - exists v. split; [apply least_pow2_self, Hs; reflexivity|]. destruct (Z.ltb_spec v (2 ^ W)); lia.
  - exists (2 ^ (Z.log2 v + 1)). split.
    + apply least_pow2_above; [lia|]. intros Hp. apply Hs in Hp. discriminate.
    + rewrite all_smears_spec by (tauto || lia). apply word_pow2. pose proof (Z.log2_nonneg v).
      assert (Z.log2 v < W) by (apply Z.log2_lt_pow2; lia). lia.
Qed.
Lemma next_power_of_2_64 v : 1 < v < 2 ^ 64 ->
  (is_pow2 (v mod 2 ^ 32) -> next_power_of_2 64 v = v) /\
  (~ is_pow2 (v mod 2 ^ 32) -> next_power_of_2 64 v = let p := 2 ^ (Z.log2 v + 1) in if p <? 2 ^ 64 then p else 0).
Proof.
  intros Hv. rewrite next_unfold. destruct (Z.eqb_spec v 0); [lia|]. destruct (Z.eqb_spec v 1); [lia|]. cbn [orb].
  pose proof (is_power_of_2_spec (word 32 v) (word_range 32 v ltac:(lia))) as Hs. change (v mod 2 ^ 32) with (word 32 v). split; intros Hp.
  - apply Hs in Hp. rewrite Hp. reflexivity.
  - destruct (is_power_of_2 (word 32 v)); [exfalso; apply Hp, Hs; reflexivity|].
    rewrite all_smears_spec by (tauto || lia). cbv zeta. apply word_pow2. pose proof (Z.log2_nonneg v).
    assert (Z.log2 v < 64) by (apply Z.log2_lt_pow2; lia). lia.
Qed.
Lemma next_64_doubles k : 32 <= k < 63 -> next_power_of_2 64 (2 ^ k) = 2 * 2 ^ k.
Proof.
  intros Hk. assert (1 < 2 ^ k) by (apply Z.pow_gt_1; lia). assert (2 ^ k < 2 ^ 64) by (apply Z.pow_lt_mono_r; lia).
  destruct (next_power_of_2_64 (2 ^ k) ltac:(lia)) as [_ H1]. rewrite H1.
  - cbv zeta. rewrite Z.log2_pow2 by lia. assert (2 ^ (k + 1) < 2 ^ 64) by (apply Z.pow_lt_mono_r; lia).
    destruct (Z.ltb_spec (2 ^ (k + 1)) (2 ^ 64)); [|lia]. rewrite Z.pow_add_r by lia. lia.
  - intros Hp. apply is_pow2_pos in Hp. assert (2 ^ k mod 2 ^ 32 = 0); [|lia].
    replace k with (32 + (k - 32)) by lia. rewrite Z.pow_add_r, Z.mul_comm by lia. apply Z.mod_mul. lia.
Qed.
Lemma next_64_low_half k : 0 <= k < 32 -> forall h, 0 < h < 2 ^ 32 -> next_power_of_2 64 (h * 2 ^ 32 + 2 ^ k) = h * 2 ^ 32 + 2 ^ k.
Proof.
  intros Hk h Hh. assert (0 < 2 ^ k) by (apply Z.pow_pos_nonneg; lia). assert (2 ^ k < 2 ^ 32) by (apply Z.pow_lt_mono_r; lia).
  assert (2 ^ 64 = 2 ^ 32 * 2 ^ 32) by reflexivity. apply next_power_of_2_64; [nia|].
  rewrite Z.add_comm, Z.mod_add, Z.mod_small by lia. exists k. split; [lia|reflexivity].
Qed.

Lemma ipow_spec a b : 0 <= a -> ipow a b = (if a ^ Z.of_nat b =? 1 then 1 else (a ^ Z.of_nat b) mod 2 ^ 32).
Proof.
  intros Ha. assert (H : ipow a b mod 2 ^ 32 = a ^ Z.of_nat b mod 2 ^ 32 /\ 0 <= ipow a b < 2 ^ 32).
  { induction b as [|b [IH1 IH2]]; [split; [reflexivity|cbn; lia]|]. cbn [ipow]. unfold word.
    rewrite Zmod_mod, Nat2Z.inj_succ, Z.pow_succ_r by lia. split; [|apply Z.mod_pos_bound; reflexivity].
    rewrite Z.mul_mod, IH1 by discriminate. symmetry. apply Z.mul_mod. discriminate. }
  destruct H as [H1 H2]. rewrite (Z.mod_small _ _ H2) in H1. rewrite H1. destruct (Z.eqb_spec (a ^ Z.of_nat b) 1) as [->|]; reflexivity.
Qed.
Lemma ipow_mod a b : 0 <= a -> ipow a b = (a ^ Z.of_nat b) mod 2 ^ 32.
Proof. intros Ha. rewrite ipow_spec by exact Ha. destruct (Z.eqb_spec (a ^ Z.of_nat b) 1) as [->|]; reflexivity. Qed.

(* ---------------- wrap ---------------- *)
Lemma wrap_max_spec Max : 0 < Max -> forall fuel val, uint32 val -> (Z.to_nat val < fuel)%nat -> wrap_max fuel Max val = Ok (val mod Max).
Proof.
  intros HM. induction fuel as [|fuel IH]; intros val Hv Hf; [lia|]. unfold uint32 in *. cbn [wrap_max]. destruct (Z.geb_spec val Max).
  - rewrite word_small by lia. rewrite IH by lia. f_equal. replace (val - Max) with (val + (-1) * Max) by lia. apply Z.mod_add. lia.
  - rewrite Z.mod_small by lia. reflexivity.
Qed.
Lemma wrap_max_zero : forall fuel val, uint32 val -> wrap_max fuel 0 val = OutOfFuel.
Proof.
  induction fuel as [|fuel IH]; intros val Hv; [reflexivity|]. unfold uint32 in *. cbn [wrap_max]. destruct (Z.geb_spec val 0); [|lia].
  rewrite Z.sub_0_r, word_small by exact Hv. apply IH. exact Hv.
Qed.
Lemma sword_word32 x : word 32 (sword 32 x) = word 32 x.
Proof.
  unfold sword, word. rewrite Zminus_mod_idemp_l. f_equal. lia.
Qed.
Lemma sword_of_word32 x : int32 x -> sword 32 (word 32 x) = x.
Proof.
  unfold int32, sword, word. intros H. rewrite Zplus_mod_idemp_l. change (2 ^ (32 - 1)) with (2 ^ 31) in *.
  assert (2 ^ 32 = 2 * 2 ^ 31) by reflexivity. rewrite Z.mod_small by lia. lia.
Qed.
Lemma wrap_max_int_spec Max : 0 < Max <= 2 ^ 31 -> forall fuel val, int32 val -> (Z.to_nat (word 32 val) < fuel)%nat ->
  wrap_max_int fuel Max val = Ok (word 32 val mod Max).
Proof.
  intros HM. induction fuel as [|fuel IH]; intros val Hv Hf; [lia|].
  pose proof (word_range 32 val ltac:(lia)) as Hr. cbn [wrap_max_int]. destruct (Z.geb_spec (word 32 val) Max).
  - assert (Hw : word 32 (sword 32 (word 32 val - Max)) = word 32 val - Max) by (rewrite sword_word32; apply word_small; lia).
    rewrite IH; [|pose proof (sword_range 32 (word 32 val - Max) ltac:(lia)) as S; exact S|rewrite Hw; lia].
    rewrite Hw. f_equal. replace (word 32 val - Max) with (word 32 val + (-1) * Max) by lia. apply Z.mod_add. lia.
  - rewrite Z.mod_small by lia. f_equal. rewrite <- (sword_of_word32 val Hv) at 1. apply sword_small; [lia|]. change (2 ^ (32 - 1)) with (2 ^ 31). lia.
Qed.
Lemma wrap_down_spec min max range : range = max - min + 1 -> min <= max -> int32 min -> int32 max ->
  forall fuel val, int32 val -> (Z.to_nat (val - max) < fuel)%nat ->
  exists r k, wrap_down fuel max range val = Ok r /\ r = val + k * range /\ r <= max /\ (max < val -> min <= r) /\ (val <= max -> r = val) /\ int32 r.
Proof.
  unfold int32. intros Hr Hm H1 H2. induction fuel as [|fuel IH]; intros val Hv Hf; [lia|]. cbn [wrap_down]. rewrite Z.gtb_ltb.
  destruct (Z.ltb_spec max val).
  - rewrite schk_ok by (change (2 ^ (32 - 1)) with (2 ^ 31); lia). cbn [bind].
    destruct (IH (val - range)) as (r & k & E & Ek & B1 & B2 & B3 & B4); [lia|lia|].
    rewrite E. exists r, (k - 1). splits; reflexivity || lia.
  - exists val, 0. splits; reflexivity || lia.
Qed.
Lemma wrap_up_spec min max range : range = max - min + 1 -> min <= max -> int32 min -> int32 max ->
  forall fuel val, int32 val -> val <= max -> (Z.to_nat (min - val) < fuel)%nat ->
  exists r k, wrap_up fuel min range val = Ok r /\ r = val + k * range /\ min <= r <= max.
Proof.
  unfold int32. intros Hr Hm H1 H2. induction fuel as [|fuel IH]; intros val Hv Hx Hf; [lia|]. cbn [wrap_up].
  destruct (Z.ltb_spec val min).
  - rewrite schk_ok by (change (2 ^ (32 - 1)) with (2 ^ 31); lia). cbn [bind].
    destruct (IH (val + range)) as (r & k & E & Ek & B1); [lia|lia|lia|].
    rewrite E. exists r, (k + 1). splits; reflexivity || lia.
  - exists val, 0. splits; reflexivity || lia.
Qed.
Lemma wrap_range_spec fuel val min max : int32 val -> int32 min -> int32 max -> min <= max -> max - min + 1 < 2 ^ 31 -> (Z.to_nat (2 ^ 32) < fuel)%nat ->
  exists r, wrap_range fuel val min max = Ok r /\ wrapped min max val r.
Proof.
  intros Hv Hn Hx Hm Hr Hf. unfold int32 in *. assert (E32 : 2 ^ 32 = 2 * 2 ^ 31) by reflexivity. unfold wrap_range.
  rewrite schk_ok by (change (2 ^ (32 - 1)) with (2 ^ 31); lia). cbn [bind].
  rewrite schk_ok by (change (2 ^ (32 - 1)) with (2 ^ 31); lia). cbn [bind].
  destruct (wrap_down_spec min max _ eq_refl Hm Hn Hx fuel val Hv) as (r & k & E & Ek & B1 & B2 & B3 & B4); [lia|].
  rewrite E. cbn [bind]. destruct (wrap_up_spec min max _ eq_refl Hm Hn Hx fuel r B4 B1) as (r' & k' & E' & Ek' & B'); [unfold int32 in B4; lia|].
  exists r'. split; [exact E'|]. split; [lia|]. exists (k + k'). nia.
Qed.
Lemma wrapped_fun lo hi v r r' : wrapped lo hi v r -> wrapped lo hi v r' -> r = r'.
Proof. intros (Hr & k & E) (Hr' & k' & E'). assert (k = k') by nia. nia. Qed.
Lemma wrap_range_overflow fuel val min max : int32 min -> int32 max -> min <= max -> 2 ^ 31 <= max - min + 1 -> wrap_range fuel val min max = UB SignedOverflow.
Proof.
  unfold int32. intros Hn Hx Hm Hr. unfold wrap_range. destruct (Z.eq_dec (max - min) (2 ^ 31 - 1)) as [E|E].
  - rewrite schk_ok by (change (2 ^ (32 - 1)) with (2 ^ 31); lia). cbn [bind]. rewrite schk_bad by (change (2 ^ (32 - 1)) with (2 ^ 31); lia). reflexivity.
  - rewrite schk_bad by (change (2 ^ (32 - 1)) with (2 ^ 31); lia). reflexivity.
Qed.
Lemma wrap_up_never min range : range <= 0 -> forall fuel val r, val < min -> wrap_up fuel min range val <> Ok r.
Proof.
  intros Hr. induction fuel as [|fuel IH]; intros val r Hv; [discriminate|]. cbn [wrap_up]. destruct (Z.ltb_spec val min); [|lia].
  destruct (schk 32 (val + range)) eqn:E; cbn [bind]; try discriminate. apply schk_inv in E as [-> _]. apply IH. lia.
Qed.
Lemma wrap_range_empty fuel val min max r : max < min -> wrap_range fuel val min max <> Ok r.
Proof.
  intros Hm. unfold wrap_range. destruct (schk 32 (max - min)) eqn:E; cbn [bind]; try discriminate. apply schk_inv in E as [-> _].
  destruct (schk 32 (max - min + 1)) eqn:E; cbn [bind]; try discriminate. apply schk_inv in E as [-> _].
  destruct (wrap_down fuel max (max - min + 1) val) as [v| |] eqn:E; cbn [bind]; try discriminate.
  apply wrap_up_never; [lia|].
  assert (H : forall fuel val v, wrap_down fuel max (max - min + 1) val = Ok v -> v <= max); [|specialize (H _ _ _ E); lia].
  clear. induction fuel as [|fuel IH]; intros val v; [discriminate|]. cbn [wrap_down]. rewrite Z.gtb_ltb. destruct (Z.ltb_spec max val).
  - destruct (schk 32 (val - (max - min + 1))) eqn:E; cbn [bind]; try discriminate. apply IH.
  - intros X; injection X as <-. lia.
Qed.

(* ---------------- saturation, distances ---------------- *)
Lemma nearest_clamp lo hi v : lo <= hi -> nearest lo hi v (if v <? lo then lo else if v >? hi then hi else v).
Proof. intros H. rewrite Z.gtb_ltb. destruct (Z.ltb_spec v lo), (Z.ltb_spec hi v); split; try lia; intros; lia. Qed.
Lemma nearest_fun lo hi v r r' : nearest lo hi v r -> nearest lo hi v r' -> r = r'.
Proof.
  intros (B & H) (B' & H'). pose proof (H r' B'). pose proof (H' r B).
  assert (lo <= v <= hi \/ v < lo \/ hi < v) as [C|[C|C]] by lia.
  - specialize (H v C). specialize (H' v C). lia.
  - specialize (H lo ltac:(lia)). specialize (H' lo ltac:(lia)). lia.
  - specialize (H hi ltac:(lia)). specialize (H' hi ltac:(lia)). lia.
Qed.
Lemma constrain_spec v lo hi : lo <= hi -> nearest lo hi v (constrain v lo hi).
Proof. apply nearest_clamp. Qed.
Lemma signed_saturate_spec v n : int32 v -> 1 <= n <= 32 -> nearest (- 2 ^ (n - 1)) (2 ^ (n - 1) - 1) v (signed_saturate v n).
Proof.
  intros Hv Hn. unfold signed_saturate. destruct (Z.geb_spec n 1); [|lia]. destruct (Z.leb_spec n 32); [|lia]. cbn [andb].
  assert (H1 : 1 <= 2 ^ (n - 1)) by (assert (0 < 2 ^ (n - 1)) by (apply Z.pow_pos_nonneg; lia); lia).
  assert (H2 : 2 ^ (n - 1) <= 2 ^ 31) by (apply Z.pow_le_mono_r; lia). assert (E32 : 2 ^ 32 = 2 * 2 ^ 31) by reflexivity.
  rewrite (word_small 32 (2 ^ (n - 1))), (word_small 32 (2 ^ (n - 1) - 1)) by lia.
  rewrite sword_small; [|lia|change (2 ^ (32 - 1)) with (2 ^ 31); lia].
  rewrite Z.gtb_ltb. split.
  - destruct (Z.ltb_spec (2 ^ (n - 1) - 1) v), (Z.ltb_spec v (-1 - (2 ^ (n - 1) - 1))); lia.
  - intros x Hx. destruct (Z.ltb_spec (2 ^ (n - 1) - 1) v), (Z.ltb_spec v (-1 - (2 ^ (n - 1) - 1))); lia.
Qed.
Lemma unsigned_saturate_spec v n : int32 v -> 0 <= n <= 31 -> nearest 0 (2 ^ n - 1) v (unsigned_saturate v n).
Proof.
  intros Hv Hn. unfold unsigned_saturate. destruct (Z.leb_spec n 31); [|lia].
  assert (H1 : 1 <= 2 ^ n) by (assert (0 < 2 ^ n) by (apply Z.pow_pos_nonneg; lia); lia).
  assert (H2 : 2 ^ n <= 2 ^ 31) by (apply Z.pow_le_mono_r; lia). assert (E32 : 2 ^ 32 = 2 * 2 ^ 31) by reflexivity.
  rewrite (word_small 32 (2 ^ n)), (word_small 32 (2 ^ n - 1)) by lia.
  rewrite sword_small; [|lia|change (2 ^ (32 - 1)) with (2 ^ 31); lia].
  rewrite Z.gtb_ltb. split.
  - destruct (Z.ltb_spec (2 ^ n - 1) v), (Z.ltb_spec v 0); lia.
  - intros x Hx. destruct (Z.ltb_spec (2 ^ n - 1) v), (Z.ltb_spec v 0); lia.
Qed.
Lemma usat_spec v n : int32 v -> 0 <= n <= 31 -> nearest 0 (2 ^ n - 1) v (usat v n).
Proof.
  intros Hv Hn. pose proof (unsigned_saturate_spec v n Hv Hn) as H. unfold usat. rewrite word_small; [exact H|].
  destruct H as [H _]. assert (H2 : 2 ^ n <= 2 ^ 31) by (apply Z.pow_le_mono_r; lia). assert (E32 : 2 ^ 32 = 2 * 2 ^ 31) by reflexivity. lia.
Qed.
Lemma saturate_other v n : ~ (1 <= n <= 32) -> signed_saturate v n = v.
Proof. intros H. unfold signed_saturate. destruct (Z.geb_spec n 1), (Z.leb_spec n 32); cbn [andb]; try reflexivity; lia. Qed.
Lemma unsaturate_other v n : 31 < n -> unsigned_saturate v n = v.
Proof. intros H. unfold unsigned_saturate. destruct (Z.leb_spec n 31); [lia|reflexivity]. Qed.
Lemma abs_diff_spec x y : int32 x -> int32 y -> abs_diff x y = (if Z.abs (x - y) <? 2 ^ 31 then Ok (Z.abs (x - y)) else UB SignedOverflow) /\ diff x y = abs_diff x y.
Proof.
  unfold int32, abs_diff, diff. intros Hx Hy. rewrite Z.gtb_ltb. split.
  - destruct (Z.geb_spec x y), (Z.ltb_spec (Z.abs (x - y)) (2 ^ 31)).
    + rewrite schk_ok by (change (2 ^ (32 - 1)) with (2 ^ 31); lia). f_equal. lia.
    + rewrite schk_bad by (change (2 ^ (32 - 1)) with (2 ^ 31); lia). reflexivity.
    + rewrite schk_ok by (change (2 ^ (32 - 1)) with (2 ^ 31); lia). f_equal. lia.
    + rewrite schk_bad by (change (2 ^ (32 - 1)) with (2 ^ 31); lia). reflexivity.
  - destruct (Z.geb_spec x y), (Z.ltb_spec y x); try lia; try reflexivity. assert (x = y) by lia. subst. reflexivity.
Qed.
Lemma abs_diff_u_spec x y : uint32 x -> uint32 y -> abs_diff_u x y = Z.abs (x - y) /\ diff_u x y = Z.abs (x - y).
Proof.
  unfold uint32, abs_diff_u, diff_u. intros Hx Hy. rewrite Z.gtb_ltb. split.
  - destruct (Z.geb_spec x y); rewrite word_small by lia; lia.
  - destruct (Z.ltb_spec y x); rewrite word_small by lia; lia.
Qed.
Lemma between_spec x low high : int32 x -> int32 low -> x - low < 2 ^ 31 ->
  between x low high = Ok (if (low <=? x) && (x <=? high) then Some (x - low) else None).
Proof.
  unfold int32, between. intros Hx Hl Hd. destruct (Z.geb_spec x low), (Z.leb_spec low x), (Z.leb_spec x high); try lia; cbn [andb]; try reflexivity.
  rewrite schk_ok by (change (2 ^ (32 - 1)) with (2 ^ 31); lia). reflexivity.
Qed.
Lemma minmax_spec a b : min2 a b = Z.min a b /\ max2 a b = Z.max a b.
Proof. unfold min2, max2. rewrite Z.gtb_ltb. destruct (Z.ltb_spec a b), (Z.ltb_spec b a); lia. Qed.

(* ---------------- interpolate, map_value, plateau ---------------- *)
Lemma interpolate_raw P a b p : 0 < P < 2 ^ 32 -> int32 (b * p) -> interpolate P a b p = Ok (sword 32 (word 32 (a * (P - p) + b * p) / P)).
Proof.
  intros HP Hb. unfold interpolate. unfold int32 in Hb. rewrite schk_ok by exact Hb. cbn [bind]. destruct (Z.eqb_spec P 0); [lia|]. do 3 f_equal.
  unfold word. rewrite Zplus_mod_idemp_r, (Z.add_comm (b * p)). rewrite <- Z.add_mod_idemp_l, Zmult_mod_idemp_r, Z.add_mod_idemp_l by discriminate. reflexivity.
Qed.
Lemma interpolate_nonneg P a b p : 0 < P < 2 ^ 32 -> 0 <= a < 2 ^ 31 -> 0 <= b < 2 ^ 31 -> 0 <= p <= P -> b * p < 2 ^ 31 -> a * (P - p) + b * p < 2 ^ 32 ->
  interpolate P a b p = Ok ((a * (P - p) + b * p) / P) /\ Z.min a b <= (a * (P - p) + b * p) / P <= Z.max a b.
Proof.
  intros HP Ha Hb Hp H1 H2. assert (Hs : 0 <= a * (P - p) + b * p) by nia.
  assert (Hm : Z.min a b <= (a * (P - p) + b * p) / P <= Z.max a b).
  { split; [apply Z.div_le_lower_bound; nia|]. apply Z.div_le_upper_bound; nia. }
  split; [|exact Hm]. rewrite interpolate_raw; [|exact HP|unfold int32; nia].
  rewrite word_small by lia. f_equal. apply sword_small; [lia|]. change (2 ^ (32 - 1)) with (2 ^ 31). lia.
Qed.
Lemma interpolate_negative P a b p : 1 < P < 2 ^ 32 -> int32 (b * p) -> - 2 ^ 32 <= a * (P - p) + b * p < 0 ->
  interpolate P a b p = Ok ((2 ^ 32 + (a * (P - p) + b * p)) / P) /\ 0 <= (2 ^ 32 + (a * (P - p) + b * p)) / P /\ (a * (P - p) + b * p) / P < 0.
Proof.
  intros HP Hb Hs. set (s := a * (P - p) + b * p) in *.
  assert (H0 : 0 <= (2 ^ 32 + s) / P) by (apply Z.div_pos; lia).
  split; [|split; [exact H0|apply Z.div_lt_upper_bound; lia]].
  rewrite interpolate_raw by (assumption || lia). fold s.
  replace (word 32 s) with (2 ^ 32 + s).
  - f_equal. apply sword_small; [lia|]. change (2 ^ (32 - 1)) with (2 ^ 31). split; [lia|]. apply Z.div_lt_upper_bound; [lia|].
    assert (2 ^ 32 = 2 * 2 ^ 31) by reflexivity. nia.
  - unfold word. apply (Z.mod_unique _ _ (-1)); lia.
Qed.

Lemma quot_monotone a b d : 0 < d -> a <= b -> Z.quot a d <= Z.quot b d.
Proof. intros Hd H. apply Z.quot_le_mono; lia. Qed.
Lemma map_value_spec W x i0 i1 o0 o1 r : map_value W x i0 i1 o0 o1 = Ok r ->
  i0 <> i1 /\ r = Z.quot ((x - i0) * (o1 - o0)) (i1 - i0) + o0.
Proof.
  unfold map_value. intros E.
  destruct (schk W (x - i0)) eqn:E1; cbn [bind] in E; try discriminate. apply schk_inv in E1 as [-> _].
  destruct (schk W (o1 - o0)) eqn:E1; cbn [bind] in E; try discriminate. apply schk_inv in E1 as [-> _].
  destruct (schk W ((x - i0) * (o1 - o0))) eqn:E1; cbn [bind] in E; try discriminate. apply schk_inv in E1 as [-> _].
  destruct (schk W (i1 - i0)) eqn:E1; cbn [bind] in E; try discriminate. apply schk_inv in E1 as [-> _].
  destruct (Z.eqb_spec (i1 - i0) 0); try discriminate.
  destruct (schk W (Z.quot ((x - i0) * (o1 - o0)) (i1 - i0))) eqn:E1; cbn [bind] in E; try discriminate. apply schk_inv in E1 as [-> _].
  apply schk_inv in E as [-> _]. split; [lia|reflexivity].
Qed.
Lemma quot_range a b d : 0 < d -> 0 <= a <= d -> Z.min 0 b <= Z.quot (a * b) d <= Z.max 0 b.
Proof.
  intros Hd Ha. assert (E : Z.quot (d * b) d = b) by (rewrite Z.mul_comm; apply Z.quot_mul; lia).
  assert (E0 : Z.quot 0 d = 0) by (apply Z.quot_0_l; lia).
  destruct (Z_le_dec 0 b).
  - pose proof (quot_monotone 0 (a * b) d Hd ltac:(nia)). pose proof (quot_monotone (a * b) (d * b) d Hd ltac:(nia)). lia.
  - pose proof (quot_monotone (a * b) 0 d Hd ltac:(nia)). pose proof (quot_monotone (d * b) (a * b) d Hd ltac:(nia)). lia.
Qed.
Lemma map_value_total W x i0 i1 o0 o1 :
  1 < W -> let B := 2 ^ (W - 1) in
  - B <= x < B -> - B <= i0 -> i0 < i1 -> i1 < B -> - B <= o0 < B -> - B <= o1 < B ->
  i1 - i0 < B -> - B <= o1 - o0 < B -> i0 <= x <= i1 -> - B <= (x - i0) * (o1 - o0) < B ->
  exists r, map_value W x i0 i1 o0 o1 = Ok r /\ r = Z.quot ((x - i0) * (o1 - o0)) (i1 - i0) + o0 /\
    Z.min o0 o1 <= r <= Z.max o0 o1 /\ (x = i0 -> r = o0) /\ (x = i1 -> r = o1).
Proof.
  intros HW B Hx Hi0 Hi Hi1 Ho0 Ho1 Hdi Hdo Hxi Hp. unfold map_value.
  assert (Hq := quot_range (x - i0) (o1 - o0) (i1 - i0) ltac:(lia) ltac:(lia)).
  do 4 (rewrite schk_ok by (fold B; lia); cbn [bind]). destruct (Z.eqb_spec (i1 - i0) 0); [lia|].
  do 2 (rewrite schk_ok by (fold B; lia); cbn [bind]). eexists. split; [reflexivity|]. split; [reflexivity|]. split; [lia|]. split; intros ->.
  - rewrite Z.sub_diag, Z.mul_0_l, Z.quot_0_l by lia. lia.
  - rewrite Z.mul_comm, Z.quot_mul by lia. lia.
Qed.
Lemma map_value_monotone W x y i0 i1 o0 o1 r s : i0 < i1 -> o0 <= o1 -> x <= y ->
  map_value W x i0 i1 o0 o1 = Ok r -> map_value W y i0 i1 o0 o1 = Ok s -> r <= s.
Proof.
  intros Hi Ho Hxy E1 E2. apply map_value_spec in E1 as [_ ->]. apply map_value_spec in E2 as [_ ->].
  apply Z.add_le_mono_r. apply quot_monotone; nia.
Qed.
Lemma map_value_div0 W x i o0 o1 : 1 <= W -> map_value W x i i o0 o1 = UB DivByZero \/ map_value W x i i o0 o1 = UB SignedOverflow.
Proof.
  intros HW. unfold map_value.
  assert (S : forall y, (exists z, schk W y = Ok z) \/ schk W y = UB SignedOverflow).
  { intros y. unfold schk. destruct (_ && _); eauto. }
  destruct (S (x - i)) as [(z1 & ->) | ->]; cbn [bind]; [|auto].
  destruct (S (o1 - o0)) as [(z2 & ->) | ->]; cbn [bind]; [|auto].
  destruct (S (z1 * z2)) as [(z3 & ->) | ->]; cbn [bind]; [|auto].
  rewrite Z.sub_diag. assert (0 < 2 ^ (W - 1)) by (apply Z.pow_pos_nonneg; lia). rewrite schk_ok by lia. cbn. auto.
Qed.
Lemma random_number_64 R r lo hi : 0 < R < 2 ^ 31 -> 0 <= r <= R -> int32 lo -> int32 hi -> lo <= hi -> hi - lo < 2 ^ 31 ->
  exists v, random_number 64 R r lo hi = Ok v /\ lo <= v <= hi /\ (v = hi <-> r = R \/ lo = hi).
Proof.
  unfold int32. intros HR Hr Hl Hh Hlh Hd. unfold random_number.
  rewrite schk_ok by (change (2 ^ (32 - 1)) with (2 ^ 31); lia). cbn [bind].
  assert (Hm : r * (hi - lo) < 2 ^ 62) by (assert (2 ^ 62 = 2 ^ 31 * 2 ^ 31) by reflexivity; nia).
  assert (2 ^ 63 = 2 * 2 ^ 62) by reflexivity.
  rewrite schk_ok by (change (2 ^ (64 - 1)) with (2 ^ 63); nia). cbn [bind]. destruct (Z.eqb_spec R 0); [lia|].
  pose proof (quot_range r (hi - lo) R ltac:(lia) ltac:(lia)) as Hq.
  rewrite schk_ok; [|change (2 ^ (64 - 1)) with (2 ^ 63); assert (2 ^ 31 < 2 ^ 62) by reflexivity; lia]. cbn [bind].
  rewrite sword_small; [|lia|change (2 ^ (32 - 1)) with (2 ^ 31); lia]. eexists. split; [reflexivity|]. split; [lia|]. split.
  - intros E. destruct (Z.eq_dec lo hi) as [|Hne]; [auto|]. left. destruct (Z.eq_dec r R) as [|Hr2]; [assumption|exfalso].
    assert (r * (hi - lo) <= R * (hi - lo) - 1) by nia.
    pose proof (Z.quot_div_nonneg (r * (hi - lo)) R ltac:(nia) ltac:(lia)) as Ed. rewrite Ed in E.
    assert (r * (hi - lo) / R < hi - lo) by (apply Z.div_lt_upper_bound; nia). lia.
  - intros [-> | ->].
    + rewrite (Z.mul_comm R), Z.quot_mul by lia. lia.
    + rewrite Z.sub_diag, Z.mul_0_r, Z.quot_0_l by lia. lia.
Qed.
Lemma random_number_32 R r lo hi : int32 lo -> int32 hi -> 0 <= hi - lo < 2 ^ 31 -> 2 ^ 31 <= r * (hi - lo) -> random_number 32 R r lo hi = UB SignedOverflow.
Proof.
  unfold int32. intros Hl Hh Hd H. unfold random_number. rewrite schk_ok by (change (2 ^ (32 - 1)) with (2 ^ 31); lia). cbn [bind].
  rewrite schk_bad by (change (2 ^ (32 - 1)) with (2 ^ 31); lia). reflexivity.
Qed.

Lemma sword32_id x : int32 x -> sword 32 x = x.
Proof. intros H. unfold int32 in H. apply sword_small; [lia|exact H]. Qed.
Lemma sword_add_word a b : sword 32 (word 32 a + b) = sword 32 (a + b).
Proof. unfold sword, word. rewrite <- !Z.add_assoc, Zplus_mod_idemp_l. reflexivity. Qed.
Lemma plateau_spec val width center : int32 val -> 0 <= width -> int32 (center + width / 2) -> int32 (center - width / 2) ->
  plateau val width center =
    (let d := if val >? center + width / 2 then val - (center + width / 2) else if val <? center - width / 2 then val - (center - width / 2) else 0 in
     if (- 2 ^ 31 <=? d) && (d <? 2 ^ 31) then Ok d else UB SignedOverflow).
Proof.
  intros Hv Hw Hh Hl. unfold plateau. cbv zeta.
  replace (word 32 center - width / 2) with (word 32 center + (- (width / 2))) by lia.
  rewrite !sword_add_word, !sword32_id by (assumption || (replace (center + - (width / 2)) with (center - width / 2) by lia; assumption)).
  replace (center + - (width / 2)) with (center - width / 2) by lia.
  destruct (val >? center + width / 2); [reflexivity|]. destruct (val <? center - width / 2); reflexivity.
Qed.
Definition plateau_fun (val width center : Z) : Z :=
  if val >? center + width / 2 then val - (center + width / 2) else if val <? center - width / 2 then val - (center - width / 2) else 0.
Lemma plateau_shape width center : 0 <= width -> forall v,
  (Z.abs (v - center) <= width / 2 <-> plateau_fun v width center = 0) /\
  0 <= plateau_fun (v + 1) width center - plateau_fun v width center <= 1.
Proof.
  intros Hw v. assert (0 <= width / 2) by (apply Z.div_pos; lia). unfold plateau_fun. rewrite !Z.gtb_ltb.
  destruct (Z.ltb_spec (center + width / 2) v), (Z.ltb_spec v (center - width / 2)), (Z.ltb_spec (center + width / 2) (v + 1)), (Z.ltb_spec (v + 1) (center - width / 2)); lia.
Qed.

Lemma adj_diff_spec : forall l prev ds, adj_diff prev l = Ok ds -> length ds = length l /\ forall i d, nth_error ds i = Some d ->
  exists a b, nth_error (prev :: l) i = Some a /\ nth_error (prev :: l) (S i) = Some b /\ d = b - a.
Proof.
  induction l as [|x l IH]; intros prev ds E; cbn [adj_diff] in E.
  - injection E as <-. split; [reflexivity|]. intros [|i] d H; discriminate.
  - destruct (schk 32 (x - prev)) eqn:Ed; cbn [bind] in E; try discriminate. apply schk_inv in Ed as [-> _].
    destruct (adj_diff x l) as [ds'| |] eqn:E2; cbn [bind] in E; try discriminate. injection E as <-.
    apply IH in E2 as [L H]. split; [cbn; lia|]. intros [|i] d Hd; cbn [nth_error] in *.
    + injection Hd as <-. exists prev, x. auto.
    + apply H in Hd. exact Hd.
Qed.

Lemma adj_diff_sums : forall l prev, (forall i a b, nth_error (prev :: l) i = Some a -> nth_error (prev :: l) (S i) = Some b -> int32 (b - a)) ->
  exists ds, adj_diff prev l = Ok ds /\ length ds = length l.
Proof.
  induction l as [|x l IH]; intros prev H; cbn [adj_diff].
  - exists []. auto.
  - rewrite schk_ok by exact (H 0%nat prev x eq_refl eq_refl). cbn [bind].
    destruct (IH x) as (ds & E & L); [intros i a b Ha Hb; exact (H (S i) a b Ha Hb)|].
    rewrite E. cbn [bind]. eexists; split; [reflexivity|]. cbn [length]. congruence.
Qed.
Lemma adj_diff_over : forall l prev i a b, nth_error (prev :: l) i = Some a -> nth_error (prev :: l) (S i) = Some b -> ~ int32 (b - a) ->
  adj_diff prev l = UB SignedOverflow.
Proof.
  induction l as [|x l IH]; intros prev i a b Ha Hb Hn; [destruct i as [|[|i]]; discriminate|]. cbn [adj_diff].
  destruct (schk 32 (x - prev)) as [d| |] eqn:Ed.
  - cbn [bind]. destruct i as [|i].
    + cbn in Ha, Hb. injection Ha as <-. injection Hb as <-. apply schk_inv in Ed as [-> Ed]. contradiction.
    + rewrite (IH x i a b Ha Hb Hn). reflexivity.
  - unfold schk in Ed. destruct (_ && _); [discriminate|]. injection Ed as <-. reflexivity.
  - unfold schk in Ed. destruct (_ && _); discriminate.
Qed.
Lemma array_diff_ok x l : (forall i a b, nth_error (x :: l) i = Some a -> nth_error (x :: l) (S i) = Some b -> int32 (b - a)) ->
  exists ds, array_adj_diff (x :: l) = Ok ds /\ length ds = length l /\
    forall i a b, nth_error (x :: l) i = Some a -> nth_error (x :: l) (S i) = Some b -> nth_error ds i = Some (b - a).
Proof.
  intros H. destruct (adj_diff_sums l x H) as (ds & E & L). exists ds. splits; try assumption. intros i a b Ha Hb.
  destruct (nth_error ds i) as [d|] eqn:Ed.
  - destruct (adj_diff_spec l x ds E) as [_ S]. destruct (S i d Ed) as (a' & b' & Ha' & Hb' & ->). congruence.
  - apply nth_error_None in Ed. assert (S i < length (x :: l))%nat by (apply nth_error_Some; congruence). cbn [length] in *. lia.
Qed.
Lemma array_diff_over l i a b : nth_error l i = Some a -> nth_error l (S i) = Some b -> ~ int32 (b - a) -> array_adj_diff l = UB SignedOverflow.
Proof. intros Ha Hb Hn. destruct l as [|x l]; [destruct i; discriminate|]. exact (adj_diff_over l x i a b Ha Hb Hn). Qed.

Lemma bipolar_small size : 1 <= size <= 4 -> bipolar_type_range size = 2 ^ (8 * size - 1) - 1.
Proof. intros H. assert (size = 1 \/ size = 2 \/ size = 3 \/ size = 4) as [->|[->|[->| ->]]] by lia; reflexivity. Qed.
Lemma bipolar_large size : 5 <= size -> bipolar_type_range size = 2 ^ 32 - 1.
Proof.
  intros H. unfold bipolar_type_range. rewrite ipow_mod by lia. rewrite Z2Nat.id by lia.
  replace (size * 8 - 1) with (32 + (size * 8 - 33)) by lia. rewrite Z.pow_add_r by lia. rewrite Z.mul_comm, Z_mod_mult. reflexivity.
Qed.

(* ---------------- byte swaps ---------------- *)
Lemma lor_add_shift a b n : 0 <= n -> 0 <= b < 2 ^ n -> Z.lor (Z.shiftl a n) b = a * 2 ^ n + b.
Proof.
  intros Hn Hb. rewrite <- Z.shiftl_mul_pow2 by exact Hn. assert (L : Z.land (Z.shiftl a n) b = 0).
  { apply Z.bits_inj'. intros i Hi. rewrite Z.land_spec, Z.bits_0. destruct (Z_lt_dec i n).
    - rewrite Z.shiftl_spec_low by lia. reflexivity.
    - destruct (Z.eq_dec b 0) as [->|]; [rewrite Z.bits_0; apply andb_false_r|].
      rewrite (Z.bits_above_log2 b); [apply andb_false_r|lia|]. assert (Z.log2 b < n) by (apply Z.log2_lt_pow2; lia). lia. }
  rewrite <- Z.lxor_lor by exact L. symmetry. apply Z.add_nocarry_lxor. exact L.
Qed.
Lemma div_bytes a b : 0 <= b < 256 -> (b + 256 * a) / 256 = a /\ (b + 256 * a) mod 256 = b.
Proof. intros H. rewrite (Z.mul_comm 256). rewrite Z.div_add, Z.mod_add, Z.div_small, Z.mod_small by lia. lia. Qed.

Lemma land_byte w k : 0 <= k -> Z.land w (Z.shiftl 255 k) = Z.shiftl ((w / 2 ^ k) mod 256) k.
Proof.
  intros Hk. change 256 with (2 ^ 8). rewrite <- Z.land_ones, <- Z.shiftr_div_pow2 by lia. change (Z.ones 8) with 255.
  apply Z.bits_inj'. intros i Hi. rewrite Z.land_spec. destruct (Z_lt_dec i k).
  - rewrite !Z.shiftl_spec_low by lia. apply andb_false_r.
  - rewrite !Z.shiftl_spec, Z.land_spec, Z.shiftr_spec by lia. replace (i - k + k) with i by lia. reflexivity.
Qed.
Lemma swap16_spec b0 b1 : bytes_ok [b0; b1] -> swap_bytes16 (from_bytes [b0; b1]) = from_bytes [b1; b0].
Proof.
  intros H. inversion_clear H as [|? ? H0 H1]. inversion_clear H1 as [|? ? H2 _]. cbn [from_bytes]. unfold swap_bytes16.
  replace (b0 + 256 * (b1 + 256 * 0)) with (b0 + 256 * b1) by lia. destruct (div_bytes b1 b0 H0) as [D M].
  change 255 with (Z.ones 8). rewrite Z.land_ones, Z.shiftr_div_pow2 by lia. change (2 ^ 8) with 256. rewrite D, M.
  rewrite lor_add_shift by (change (2 ^ 8) with 256; lia). change (2 ^ 8) with 256. rewrite word_small by (change (2 ^ 16) with 65536; lia). lia.
Qed.
Lemma bytes32_parts b0 b1 b2 b3 : bytes_ok [b0; b1; b2; b3] -> let w := from_bytes [b0; b1; b2; b3] in
  w mod 256 = b0 /\ (w / 2 ^ 8) mod 256 = b1 /\ (w / 2 ^ 16) mod 256 = b2 /\ w / 2 ^ 24 = b3.
Proof.
  intros H. inversion_clear H as [|? ? H0 H1]. inversion_clear H1 as [|? ? H1' H2]. inversion_clear H2 as [|? ? H2' H3]. inversion_clear H3 as [|? ? H3' _].
  cbn [from_bytes]. cbv zeta. rewrite Z.mul_0_r, Z.add_0_r.
  change (2 ^ 16) with (256 * 256). change (2 ^ 24) with (256 * (256 * 256)). change (2 ^ 8) with 256.
  rewrite <- !Z.div_div by lia.
  destruct (div_bytes (b1 + 256 * (b2 + 256 * b3)) b0 H0) as [-> ->].
  destruct (div_bytes (b2 + 256 * b3) b1 H1') as [-> ->]. destruct (div_bytes b3 b2 H2') as [-> ->]. auto.
Qed.
Lemma lor_bytes a b c d : 0 <= b < 256 -> 0 <= c < 256 -> 0 <= d < 256 ->
  Z.lor (Z.lor (Z.lor (Z.shiftl a 24) (Z.shiftl b 16)) (Z.shiftl c 8)) d = a * 2 ^ 24 + b * 2 ^ 16 + c * 2 ^ 8 + d.
Proof.
  intros Hb Hc Hd. rewrite <- !Z.lor_assoc. change 24 with (8 + 8 + 8). change 16 with (8 + 8). rewrite <- !Z.shiftl_shiftl by lia.
  rewrite !Z.lor_assoc, <- !Z.shiftl_lor.
  rewrite (lor_add_shift _ d 8), (lor_add_shift _ c 8), (lor_add_shift _ b 8) by (change (2 ^ 8) with 256; lia).
  change (2 ^ (8 + 8 + 8)) with (2 ^ 8 * 2 ^ 8 * 2 ^ 8). change (2 ^ (8 + 8)) with (2 ^ 8 * 2 ^ 8). lia.
Qed.
Lemma swap32_spec b0 b1 b2 b3 : bytes_ok [b0; b1; b2; b3] -> swap_bytes32 (from_bytes [b0; b1; b2; b3]) = from_bytes [b3; b2; b1; b0].
Proof.
  intros H. destruct (bytes32_parts b0 b1 b2 b3 H) as (P0 & P1 & P2 & P3). unfold swap_bytes32.
  set (w := from_bytes [b0; b1; b2; b3]) in *.
  inversion_clear H as [|? ? H0 H1]. inversion_clear H1 as [|? ? H1' H2]. inversion_clear H2 as [|? ? H2' H3]. inversion_clear H3 as [|? ? H3' _].
  assert (A0 : Z.land w 255 = b0) by (change 255 with (Z.ones 8); rewrite Z.land_ones by lia; exact P0).
  assert (A1 : Z.land w 65280 = Z.shiftl b1 8) by (change 65280 with (Z.shiftl 255 8); rewrite land_byte, P1 by lia; reflexivity).
  assert (A2 : Z.land w 16711680 = Z.shiftl b2 16) by (change 16711680 with (Z.shiftl 255 16); rewrite land_byte, P2 by lia; reflexivity).
  rewrite A0, A1, A2, Z.shiftl_shiftl, Z.shiftr_shiftl_l, Z.shiftr_div_pow2, P3 by lia. change (8 + 8) with 16. change (16 - 8) with 8.
  rewrite !word_small by (rewrite Z.shiftl_mul_pow2 by lia; change (2 ^ 32) with 4294967296; change (2 ^ 24) with 16777216; change (2 ^ 16) with 65536; lia).
  rewrite lor_bytes by assumption. cbn [from_bytes]. change (2 ^ 24) with 16777216. change (2 ^ 16) with 65536. change (2 ^ 8) with 256. lia.
Qed.
Lemma combine_spec a0 a1 b0 b1 : bytes_ok [a0; a1] -> bytes_ok [b0; b1] ->
  swap_bytes_and_combine (from_bytes [a0; a1]) (from_bytes [b0; b1]) = from_bytes [b1; b0; a1; a0].
Proof.
  intros Ha Hb. inversion_clear Ha as [|? ? Ha0 Ha1]. inversion_clear Ha1 as [|? ? Ha1' _]. inversion_clear Hb as [|? ? Hb0 Hb1]. inversion_clear Hb1 as [|? ? Hb1' _].
  unfold swap_bytes_and_combine. cbn [from_bytes].
  replace (a0 + 256 * (a1 + 256 * 0)) with (a0 + 256 * a1) by lia. replace (b0 + 256 * (b1 + 256 * 0)) with (b0 + 256 * b1) by lia.
  destruct (div_bytes a1 a0 Ha0) as [Da Ma]. destruct (div_bytes b1 b0 Hb0) as [Db Mb].
  assert (A0 : forall x, Z.land x 255 = x mod 256) by (intros x; change 255 with (Z.ones 8); rewrite Z.land_ones by lia; reflexivity).
  rewrite !A0, Ma, Mb. change 65280 with (Z.shiftl 255 8). rewrite land_byte, Z.shiftr_div_pow2 by lia. change (2 ^ 8) with 256. rewrite Da, Db, (Z.mod_small a1) by lia.
  rewrite Z.shiftl_shiftl by lia. change (8 + 8) with 16. rewrite lor_bytes by assumption.
  change (2 ^ 24) with 16777216. change (2 ^ 16) with 65536. change (2 ^ 8) with 256.
  rewrite word_small by (change (2 ^ 32) with 4294967296; lia). lia.
Qed.
Lemma plateau_outside val width center : int32 val -> 0 <= width -> int32 (center + width / 2) -> int32 (center - width / 2) ->
  exists d, outside_by (center - width / 2) (center + width / 2) val d /\
    plateau val width center = if (- 2 ^ 31 <=? d) && (d <? 2 ^ 31) then Ok d else UB SignedOverflow.
Proof.
  intros Hv Hw Hh Hl. eexists. split; [|apply plateau_spec; assumption]. assert (0 <= width / 2) by (apply Z.div_pos; lia).
  unfold outside_by. rewrite Z.gtb_ltb. destruct (Z.ltb_spec (center + width / 2) val), (Z.ltb_spec val (center - width / 2)); lia.
Qed.
Lemma outside_by_steps lo hi v d d' : lo <= hi -> outside_by lo hi v d -> outside_by lo hi (v + 1) d' -> 0 <= d' - d <= 1.
Proof. unfold outside_by. lia. Qed.
Lemma plateau_wraps width center : int32 center -> 0 <= width < 2 ^ 32 -> 2 ^ 31 <= center + width / 2 -> plateau center width center = UB SignedOverflow.
Proof.
  unfold int32. intros Hc Hw H. unfold plateau. assert (E : 2 ^ 32 = 2 * 2 ^ 31) by reflexivity.
  assert (0 <= width / 2) by (apply Z.div_pos; lia). assert (width / 2 < 2 ^ 31) by (apply Z.div_lt_upper_bound; lia).
  rewrite sword_add_word. replace (sword 32 (center + width / 2)) with (center + width / 2 - 2 ^ 32).
  - rewrite Z.gtb_ltb. destruct (Z.ltb_spec (center + width / 2 - 2 ^ 32) center); [|lia].
    apply schk_bad. change (2 ^ (32 - 1)) with (2 ^ 31). lia.
  - unfold sword. change (2 ^ (32 - 1)) with (2 ^ 31).
    assert ((center + width / 2 + 2 ^ 31) mod 2 ^ 32 = center + width / 2 + 2 ^ 31 - 2 ^ 32); [|lia].
    symmetry. apply (Z.mod_unique _ _ 1); lia.
Qed.
Lemma wrap_int_wrong Max : 0 < Max <= 2 ^ 31 -> (2 ^ 32) mod Max <> 0 -> forall fuel val, int32 val -> val < 0 -> (Z.to_nat (2 ^ 32) < fuel)%nat ->
  wrap_max_int fuel Max val = Ok ((val + 2 ^ 32) mod Max) /\ (val + 2 ^ 32) mod Max <> val mod Max.
Proof.
  intros HM Hd fuel val Hv Hn Hf. unfold int32 in Hv.
  assert (E : word 32 val = val + 2 ^ 32) by (unfold word; symmetry; apply (Z.mod_unique _ _ (-1)); assert (2 ^ 32 = 2 * 2 ^ 31) by reflexivity; lia).
  split.
  - rewrite wrap_max_int_spec; [rewrite E; reflexivity|exact HM|exact Hv|]. pose proof (word_range 32 val ltac:(lia)). lia.
  - intros H. apply Hd. apply Z.mod_divide; [lia|].
    exists ((val + 2 ^ 32) / Max - val / Max). pose proof (Z.div_mod (val + 2 ^ 32) Max ltac:(lia)). pose proof (Z.div_mod val Max ltac:(lia)).
    rewrite H in *. nia.
Qed.
Lemma wrap_int_right Max : 0 < Max <= 2 ^ 31 -> forall fuel val, int32 val -> 0 <= val \/ (2 ^ 32) mod Max = 0 -> (Z.to_nat (2 ^ 32) < fuel)%nat ->
  wrap_max_int fuel Max val = Ok (val mod Max).
Proof.
  intros HM fuel val Hv Hd Hf. pose proof (word_range 32 val ltac:(lia)). rewrite wrap_max_int_spec by (assumption || lia). f_equal.
  unfold int32 in Hv. assert (2 ^ 32 = 2 * 2 ^ 31) by reflexivity. destruct (Z_lt_dec val 0).
  - destruct Hd as [|Hd]; [lia|]. assert (E : word 32 val = val + 2 ^ 32) by (unfold word; symmetry; apply (Z.mod_unique _ _ (-1)); lia).
    rewrite E. rewrite <- Z.add_mod_idemp_r, Hd, Z.add_0_r by lia. reflexivity.
  - rewrite word_small by lia. reflexivity.
Qed.
Lemma swap16_twice h : 0 <= h < 2 ^ 16 -> swap_bytes16 (swap_bytes16 h) = h.
Proof.
  intros H. change (2 ^ 16) with 65536 in H. pose proof (Z.div_mod h 256 ltac:(lia)). pose proof (Z.mod_pos_bound h 256 ltac:(lia)).
  assert (0 <= h / 256 < 256) by (split; [apply Z.div_pos|apply Z.div_lt_upper_bound]; lia).
  replace h with (from_bytes [h mod 256; h / 256]) by (cbn [from_bytes]; lia).
  rewrite !swap16_spec; [reflexivity| |]; repeat constructor; lia.
Qed.
Lemma swap32_twice w : 0 <= w < 2 ^ 32 -> swap_bytes32 (swap_bytes32 w) = w.
Proof.
  intros H. change (2 ^ 32) with 4294967296 in H.
  assert (E : w = from_bytes [w mod 256; w / 256 mod 256; w / 256 / 256 mod 256; w / 256 / 256 / 256]).
  { cbn [from_bytes]. pose proof (Z.div_mod w 256 ltac:(lia)). pose proof (Z.div_mod (w / 256) 256 ltac:(lia)). pose proof (Z.div_mod (w / 256 / 256) 256 ltac:(lia)). lia. }
  pose proof (Z.mod_pos_bound w 256 ltac:(lia)). pose proof (Z.mod_pos_bound (w / 256) 256 ltac:(lia)). pose proof (Z.mod_pos_bound (w / 256 / 256) 256 ltac:(lia)).
  assert (0 <= w / 256 / 256 / 256 < 256).
  { rewrite !Z.div_div by lia. split; [apply Z.div_pos; lia|apply Z.div_lt_upper_bound; lia]. }
  rewrite E. rewrite !swap32_spec; [reflexivity| |]; repeat constructor; lia.
Qed.
