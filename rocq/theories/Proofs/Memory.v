From Coq Require Import Znumtheory.
From Verif.Common Require Import Base Lemmas.
From Verif.Spec Require Import MemorySpec BinarySpec History.
From Verif.Model Require Import Memory.
From Verif.Proofs Require Import BytesLE Filter History.

(** monotonic allocator *)
Definition mop_ok (o : mop) : Prop := match o with MAlloc n => 0 <= n | _ => True end.
Definition total (bs : list (Z * Z)) : Z := zsum (map snd bs).
Record mono_inv (sz offset : Z) (bs : list (Z * Z)) : Prop := {
  mo_total : offset = total bs;
  mo_in : Forall (fun b => 0 <= fst b /\ 0 <= snd b /\ fst b + snd b <= offset) bs;
  mo_dis : ForallOrdPairs disjoint bs;
  mo_off : 0 <= offset /\ (bs <> [] -> offset < sz) }.
Lemma FOP_snoc {A} (R : A -> A -> Prop) l x : ForallOrdPairs R l -> Forall (fun y => R y x) l -> ForallOrdPairs R (l ++ [x]).
Proof.
  induction 1 as [|y l Hy Hl IH]; intros HF; cbn; [repeat constructor|]. inversion HF; subst. constructor; [|auto].
  apply Forall_app. auto.
Qed.
Lemma mono_step_inv sz offset bs o : mop_ok o -> 0 <= sz -> mono_inv sz offset bs ->
  mono_inv sz (fst (mono_step sz offset o)) (granted bs (o, snd (mono_step sz offset o))).
Proof.
  intros Ho Hs [H1 H2 H3 [H4 H5]]. destruct o as [n| | |]; cbn [mono_step].
  - destruct (Z.gtb_spec (sz - offset) n); cbn [fst snd granted]; [|split; auto]. cbn in Ho. split.
    + unfold total in *. rewrite map_app, zsum_app, <- H1. cbn. lia.
    + apply Forall_app. split; [|repeat constructor; cbn; lia]. eapply Forall_impl; [|exact H2]. cbn. intros. lia.
    + apply FOP_snoc; [exact H3|]. eapply Forall_impl; [|exact H2]. intros b Hb i; cbn beta in Hb; cbn [fst snd]. lia.
    + split; [lia|]. intros _. lia.
  - cbn [fst snd granted]. split; cbn; [reflexivity|constructor|constructor|split; [lia|congruence]].
  - cbn. split; auto.
  - cbn. split; auto.
Qed.
Lemma mono_run sz ops : forall offset bs, Forall mop_ok ops -> 0 <= sz -> mono_inv sz offset bs ->
  mono_inv sz (fst (srun (mono_step sz) offset ops)) (fold_left granted (combine ops (snd (srun (mono_step sz) offset ops))) bs).
Proof.
  induction ops as [|o ops IH]; intros offset bs HF Hs HI; [exact HI|]. inversion HF; subst. cbn [srun].
  pose proof (mono_step_inv sz offset bs o H1 Hs HI) as HJ. destruct (mono_step sz offset o) as [s1 r] eqn:E. cbn [fst snd] in HJ.
  specialize (IH s1 _ H2 Hs HJ). destruct (srun (mono_step sz) s1 ops) as [s2 rs]. exact IH.
Qed.
Lemma mono_blocks sz ops : Forall (fun o => match o with MAlloc n => 0 <= n | _ => True end) ops -> 0 <= sz ->
  let r := srun (mono_step sz) 0 ops in
  let bs := granted_after ops (snd r) in
  Forall (fun b => 0 <= fst b /\ fst b + snd b <= sz) bs /\ ForallOrdPairs disjoint bs /\
  (bs <> [] -> zsum (map snd bs) < sz) /\
  snd (mono_step sz (fst r) MFree) = MNum (sz - zsum (map snd bs)) /\
  forall n, 0 <= n -> (snd (mono_step sz (fst r) (MAlloc n)) = MBlock None <-> sz - zsum (map snd bs) <= n).
Proof.
  intros HF Hs r bs. assert (HI : mono_inv sz 0 []) by (split; cbn; auto; [constructor|split; [lia|congruence]]).
  destruct (mono_run sz ops 0 [] HF Hs HI) as [H1 H2 H3 [H4 H5]]. fold r in H1, H2, H3, H4, H5. change (fold_left granted (combine ops (snd r)) []) with bs in *.
  unfold total in H1. splits; auto.
  - destruct bs as [|b0 bs']; [constructor|]. specialize (H5 ltac:(discriminate)). eapply Forall_impl; [|exact H2]. cbn. intros. lia.
  - intros H. rewrite <- H1. auto.
  - cbn. rewrite H1. reflexivity.
  - intros n Hn. cbn. rewrite <- H1. destruct (Z.gtb_spec (sz - fst r) n); cbn [snd]; split; intros; try discriminate; try lia; reflexivity.
Qed.
Lemma mono_exact_fit sz : 0 <= sz -> snd (mono_step sz 0 (MAlloc sz)) = MBlock None.
Proof. intros H. cbn. destruct (Z.gtb_spec (sz - 0) sz); [lia|reflexivity]. Qed.

(** aligned allocator *)
Lemma round_up_least a n : 0 < a -> 0 <= n -> least_multiple a n ((n + a - 1) / a * a).
Proof.
  intros Ha Hn. pose proof (Z.div_mod (n + a - 1) a ltac:(lia)) as HD. pose proof (Z.mod_pos_bound (n + a - 1) a Ha) as HM.
  split; [exists ((n + a - 1) / a); ring|]. split; [nia|]. intros q [k ->] Hq. apply Z.mul_le_mono_nonneg_r; [lia|]. nia.
Qed.
Lemma aligned_ok w T A n : 0 < w -> 0 < T -> 0 < A -> 0 < n -> n * T + A - 1 < 2 ^ w ->
  exists r, aligned_request w T A n = Some r /\ least_multiple A (n * T) r.
Proof.
  intros Hw HT HA Hn HO. unfold aligned_request. destruct (Z.eqb_spec n 0); [lia|]. eexists. split; [reflexivity|].
  assert (H0 : 0 <= n * T) by nia. rewrite (word_small w (n * T)) by lia. rewrite (word_small w (n * T + A - 1)) by lia.
  rewrite word_small; [apply round_up_least; lia|].
  pose proof (Z.mul_div_le (n * T + A - 1) A HA). assert (0 <= (n * T + A - 1) / A) by (apply Z.div_pos; lia). nia.
Qed.
Lemma aligned_short w T A n : 0 < w -> 0 < T -> 0 < A < 2 ^ w -> 0 < n -> 2 ^ w <= n * T ->
  exists r, aligned_request w T A n = Some r /\ r < n * T.
Proof.
  intros Hw HT HA Hn HO. unfold aligned_request. destruct (Z.eqb_spec n 0); [lia|]. eexists. split; [reflexivity|].
  eapply Z.lt_le_trans; [apply Z.mod_pos_bound, pow2_pos; lia|exact HO].
Qed.
Lemma aligned_zero w T A n : 0 < w -> 0 < T -> 0 < A < 2 ^ w -> 0 < n -> n * T < 2 ^ w -> 2 ^ w <= n * T + A - 1 ->
  aligned_request w T A n = Some 0.
Proof.
  intros Hw HT HA Hn H1 H2. unfold aligned_request. destruct (Z.eqb_spec n 0); [lia|]. f_equal.
  assert (H0 : 0 <= n * T) by nia. rewrite (word_small w (n * T)) by lia.
  assert (E : word w (n * T + A - 1) = n * T + A - 1 - 2 ^ w) by (unfold word; symmetry; apply Z.mod_unique with 1; lia).
  rewrite E, Z.div_small by lia. apply word_small. lia.
Qed.
Lemma aligned_tiny w T A q : 0 < w -> 0 < T -> 0 < A -> T * q = 2 ^ w -> T + A - 1 < 2 ^ w ->
  exists r, aligned_request w T A (q + 1) = Some r /\ least_multiple A T r.
Proof.
  intros Hw HT HA Hq Hs. assert (0 < q) by nia. destruct (aligned_ok w T A 1) as (r & E & Hr); try lia.
  exists r. rewrite Z.mul_1_l in Hr. split; [|exact Hr]. rewrite <- E. unfold aligned_request.
  replace (q + 1 =? 0) with false by lia. replace (1 =? 0) with false by lia.
  replace (word w ((q + 1) * T)) with (word w (1 * T)); [reflexivity|].
  unfold word. replace ((q + 1) * T) with (1 * T + 1 * 2 ^ w) by lia. rewrite Z.mod_add by lia. reflexivity.
Qed.

(** padding *)
Lemma land_lnot_mask w x k : 0 <= k <= w -> 0 <= x < 2 ^ w -> Z.land x (word w (Z.lnot (2 ^ k - 1))) = x / 2 ^ k * 2 ^ k.
Proof.
  intros Hk Hx. unfold word. rewrite <- !Z.land_ones by lia. rewrite (Z.land_comm (Z.lnot _)), Z.land_assoc.
  rewrite (Z.land_ones x w), Z.mod_small by lia.
  replace (2 ^ k - 1) with (Z.ones k) by (rewrite Z.ones_equiv; lia). change (Z.land x (Z.lnot (Z.ones k))) with (Z.land x (Z.lnot (Z.ones k))).
  rewrite <- Z.ldiff_land, Z.ldiff_ones_r by lia. rewrite Z.shiftr_div_pow2, Z.shiftl_mul_pow2 by lia. reflexivity.
Qed.
Lemma padded_ok w d k : 0 <= k < w -> 0 <= d -> d + 2 ^ k - 1 < 2 ^ w ->
  least_multiple (2 ^ k) d (padded_aligned_sz w d (2 ^ k)) /\ d + padded_pad_sz w d (2 ^ k) = padded_aligned_sz w d (2 ^ k) /\
  0 <= padded_pad_sz w d (2 ^ k) < 2 ^ k.
Proof.
  intros Hk Hd HO. pose proof (pow2_pos k ltac:(lia)) as HP. pose proof (pow2_pos w ltac:(lia)) as HW.
  assert (E : padded_aligned_sz w d (2 ^ k) = (d + 2 ^ k - 1) / 2 ^ k * 2 ^ k).
  { unfold padded_aligned_sz. rewrite (word_small w (d + (2 ^ k - 1))) by lia. rewrite land_lnot_mask by lia. do 2 f_equal. lia. }
  pose proof (round_up_least (2 ^ k) d HP Hd) as HL. rewrite <- E in HL. unfold padded_pad_sz.
  pose proof (Z.div_mod (d + 2 ^ k - 1) (2 ^ k) ltac:(lia)) as HD. pose proof (Z.mod_pos_bound (d + 2 ^ k - 1) (2 ^ k) HP) as HM.
  assert (HB : 0 <= padded_aligned_sz w d (2 ^ k) - d < 2 ^ k) by (rewrite E; nia).
  assert (2 ^ k < 2 ^ w) by (apply Z.pow_lt_mono_r; lia).
  rewrite word_small by lia. splits; auto; lia.
Qed.

(** smallest integer types *)
Lemma smallest_unsigned_ok v : fits_unsigned 64 v ->
  let b := smallest_unsigned v in
  standard_width b /\ fits_unsigned b v /\ forall b', standard_width b' -> fits_unsigned b' v -> b <= b'.
Proof.
  unfold fits_unsigned, smallest_unsigned, standard_width. intros H.
  destruct (Z.leb_spec v (2 ^ 8 - 1)); [|destruct (Z.leb_spec v (2 ^ 16 - 1)); [|destruct (Z.leb_spec v (2 ^ 32 - 1))]];
    (split; [lia|]; split; [lia|]; intros b' [-> | [-> | [-> | ->]]]; lia).
Qed.
Lemma smallest_signed_ok lo hi : fits_signed 64 lo -> fits_signed 64 hi ->
  match smallest_signed lo hi with
  | Some b => lo <= hi /\ standard_width b /\ (forall v, lo <= v <= hi -> fits_signed b v) /\
      forall b', standard_width b' -> (forall v, lo <= v <= hi -> fits_signed b' v) -> b <= b'
  | None => hi < lo \/ 2 ^ 62 <= hi \/ lo < - 2 ^ 62
  end.
Proof.
  unfold fits_signed. change (64 - 1) with 63. intros H1 H2. unfold smallest_signed.
  destruct (Z.leb_spec lo hi) as [HL|HL]; cbn [negb]; [|lia]. destruct (Z.eqb_spec lo (- 2 ^ 63)) as [E|E]; [lia|].
  set (m := if hi >=? - lo then hi else - lo - 1). assert (HM : 0 <= m < 2 ^ 63) by (unfold m; destruct (Z.geb_spec hi (- lo)); lia).
  assert (HM1 : hi <= m /\ - m - 1 <= lo /\ (m = hi \/ m = - lo - 1)) by (unfold m; destruct (Z.geb_spec hi (- lo)); lia). clearbody m.
  destruct (Z_lt_le_dec m (2 ^ 62)) as [HS|HS].
  - rewrite sword_small by (change (2 ^ (64 - 1)) with (2 ^ 63); lia). destruct (Z.ltb_spec (m * 2) 0); [lia|].
    unfold smallest_unsigned, standard_width.
    assert (HV : forall b', standard_width b' -> (forall v, lo <= v <= hi -> - 2 ^ (b' - 1) <= v < 2 ^ (b' - 1)) -> m < 2 ^ (b' - 1)).
    { intros b' _ Hb. pose proof (Hb lo ltac:(lia)). pose proof (Hb hi ltac:(lia)). lia. }
    unfold standard_width in HV. split; [exact HL|].
    destruct (Z.leb_spec (m * 2) (2 ^ 8 - 1)); [|destruct (Z.leb_spec (m * 2) (2 ^ 16 - 1)); [|destruct (Z.leb_spec (m * 2) (2 ^ 32 - 1))]];
      (split; [lia|]; split; [intros v Hv; change (8 - 1) with 7; change (16 - 1) with 15; change (32 - 1) with 31; change (64 - 1) with 63; lia|]);
      intros b' Hb' Hv; specialize (HV b' Hb' Hv); destruct Hb' as [-> | [-> | [-> | ->]]];
      change (8 - 1) with 7 in *; change (16 - 1) with 15 in *; change (32 - 1) with 31 in *; change (64 - 1) with 63 in *; lia.
  - assert (ES : sword 64 (m * 2) = m * 2 - 2 ^ 64).
    { unfold sword. change (2 ^ (64 - 1)) with (2 ^ 63). assert (E2 : (m * 2 + 2 ^ 63) mod 2 ^ 64 = m * 2 + 2 ^ 63 - 2 ^ 64) by (symmetry; apply Z.mod_unique with 1; lia). rewrite E2. lia. }
    rewrite ES. destruct (Z.ltb_spec (m * 2 - 2 ^ 64) 0); [|lia]. lia.
Qed.

(** byte blocks *)
Lemma byte_of_spec x sh : 0 <= sh -> byte_of x sh = x / 2 ^ sh mod 256.
Proof. intros H. unfold byte_of. rewrite Z.shiftr_div_pow2 by lia. change 0xFF with (2 ^ 8 - 1). apply land_ones_mod. lia. Qed.
Lemma div_div_pow x a b : 0 <= a -> 0 <= b -> x / 2 ^ a / 2 ^ b = x / 2 ^ (a + b).
Proof. intros Ha Hb. pose proof (pow2_pos a Ha). pose proof (pow2_pos b Hb). rewrite Z.div_div, <- Z.pow_add_r by lia. reflexivity. Qed.
Definition bytes_of (o : bop) : list Z := match o with BU8 x => le 1 x | BU16 x => le 2 x | BU32 x => le 4 x | BRaw l => l end.
Lemma bb_step_eq data o : bb_step data o = data ++ bytes_of o.
Proof.
  destruct o as [x|x|x|l]; cbn [bb_step bytes_of le]; rewrite ?byte_of_spec by lia; rewrite <- ?app_assoc; cbn [app];
    change 256 with (2 ^ 8); rewrite ?div_div_pow by lia; cbn [Z.add Pos.add Pos.succ]; change (2 ^ 0) with 1; rewrite ?Z.div_1_r; reflexivity.
Qed.
Lemma bb_history ops data : fold_left bb_step ops data = data ++ concat (map bytes_of ops).
Proof.
  revert data. induction ops as [|o ops IH]; intros data; cbn [fold_left map concat]; [rewrite app_nil_r; reflexivity|].
  rewrite IH, bb_step_eq, app_assoc. reflexivity.
Qed.
Lemma bb_round_trip x :
  (0 <= x < 2 ^ 8 -> bb_step [] (BU8 x) = [x]) /\
  (0 <= x < 2 ^ 16 -> zlen (bb_step [] (BU16 x)) = 2 /\ unle (bb_step [] (BU16 x)) = x) /\
  (0 <= x < 2 ^ 32 -> zlen (bb_step [] (BU32 x)) = 4 /\ unle (bb_step [] (BU32 x)) = x).
Proof.
  rewrite !bb_step_eq. cbn [app bytes_of]. splits; intros H.
  - cbn. rewrite Z.mod_small by lia. reflexivity.
  - rewrite zlen_le, unle_le. split; [reflexivity|]. apply Z.mod_small. exact H.
  - rewrite zlen_le, unle_le. split; [reflexivity|]. apply Z.mod_small. exact H.
Qed.

(** the test pattern *)
Definition pat (i : nat) : Z := Nat.iter i encode initseed.
Lemma pat_S i : pat (S i) = encode (pat i). Proof. reflexivity. Qed.
Fixpoint geo (n : nat) : Z := match n with O => 0 | S n' => 0x55555555 * geo n' + 1 end.
Lemma iter_encode n x : word 32 (Nat.iter n encode x) = word 32 (x + ((0x55555555 - 1) * x + 0x00700707) * geo n).
Proof.
  induction n as [|n IH]; cbn [geo]; [cbn [Nat.iter nat_rect]; rewrite Z.mul_0_r, Z.add_0_r; reflexivity|].
  change (Nat.iter (S n) encode x) with (encode (Nat.iter n encode x)). unfold encode at 1. rewrite word_word.
  transitivity (word 32 (word 32 (Nat.iter n encode x) * 0x55555555 + 0x00700707)).
  { unfold word. rewrite <- (Z.add_mod_idemp_l (Nat.iter n encode x * 0x55555555)) by lia. rewrite <- (Z.add_mod_idemp_l ((_ mod _) * _)) by lia. rewrite Z.mul_mod_idemp_l by lia. reflexivity. }
  rewrite IH. unfold word. rewrite <- (Z.add_mod_idemp_l ((_ mod _) * _)) by lia. rewrite Z.mul_mod_idemp_l by lia. rewrite Z.add_mod_idemp_l by lia. f_equal. ring.
Qed.
Lemma geo_add n m : geo (n + m) = geo n + 0x55555555 ^ Z.of_nat n * geo m.
Proof.
  induction n as [|n IH]; [cbn [Nat.add geo Z.of_nat]; lia|]. change (S n + m)%nat with (S (n + m)). cbn [geo]. rewrite IH, Nat2Z.inj_succ, Z.pow_succ_r by lia. ring.
Qed.
Lemma pow_mod4 n : (0x55555555 ^ Z.of_nat n) mod 4 = 1.
Proof.
  induction n as [|n IH]; [reflexivity|]. rewrite Nat2Z.inj_succ, Z.pow_succ_r by lia. rewrite Z.mul_mod, IH by lia. reflexivity.
Qed.
Lemma geo_parity n : (geo n) mod 2 = Z.of_nat n mod 2.
Proof.
  induction n as [|n IH]; [reflexivity|]. cbn [geo]. rewrite Nat2Z.inj_succ. unfold Z.succ.
  replace (0x55555555 * geo n + 1) with (geo n + 1 + (0x2AAAAAAA * geo n) * 2) by lia. rewrite Z.mod_add by lia.
  rewrite <- Z.add_mod_idemp_l, IH, Z.add_mod_idemp_l by lia. reflexivity.
Qed.
Lemma coprime_pow2_odd k q : 0 <= k -> Z.gcd (2 ^ k) (1 + 2 * q) = 1.
Proof.
  intros Hk. apply Zgcd_1_rel_prime. pattern k. apply natlike_ind; [apply Zgcd_1_rel_prime; change (2 ^ 0) with 1; apply Z.gcd_1_l| |exact Hk].
  intros j Hj IH. rewrite Z.pow_succ_r by lia. apply rel_prime_sym, rel_prime_mult; apply rel_prime_sym; [|exact IH].
  apply Zgcd_1_rel_prime. rewrite (Z.mul_comm 2 q), Z.gcd_add_mult_diag_r. reflexivity.
Qed.
Lemma geo_pow k : forall n, 0 <= k -> ((2 ^ k | geo n) <-> (2 ^ k | Z.of_nat n)).
Proof.
  intros n Hk. revert n. pattern k. apply natlike_ind; [| |exact Hk].
  - intros n. cbn. split; intros _; apply Z.divide_1_l.
  - clear k Hk. intros k Hk IH n. destruct (Nat.Even_or_Odd n) as [[m ->]|[m ->]].
    + replace (2 * m)%nat with (m + m)%nat by lia. rewrite geo_add.
      replace (geo m + 0x55555555 ^ Z.of_nat m * geo m) with (2 * (geo m * ((1 + 0x55555555 ^ Z.of_nat m) / 2))).
      2:{ pose proof (pow_mod4 m). pose proof (Z.div_mod (0x55555555 ^ Z.of_nat m) 4 ltac:(lia)) as HD. rewrite H in HD.
          replace (1 + 0x55555555 ^ Z.of_nat m) with ((1 + 2 * (0x55555555 ^ Z.of_nat m / 4)) * 2) by lia. rewrite Z.div_mul by lia.
          rewrite HD at 2. ring. }
      rewrite Z.pow_succ_r by lia. rewrite Nat2Z.inj_add. replace (Z.of_nat m + Z.of_nat m) with (2 * Z.of_nat m) by lia.
      rewrite !Z.mul_divide_cancel_l by lia. rewrite <- IH. split; intros H.
      * apply Z.gauss with ((1 + 0x55555555 ^ Z.of_nat m) / 2); [rewrite Z.mul_comm; exact H|].
        pose proof (pow_mod4 m). pose proof (Z.div_mod (0x55555555 ^ Z.of_nat m) 4 ltac:(lia)) as HD. rewrite H0 in HD.
        assert (EO : (1 + 0x55555555 ^ Z.of_nat m) / 2 = 1 + 2 * (0x55555555 ^ Z.of_nat m / 4)).
        { replace (1 + 0x55555555 ^ Z.of_nat m) with ((1 + 2 * (0x55555555 ^ Z.of_nat m / 4)) * 2) by lia. apply Z.div_mul. lia. }
        rewrite EO. apply coprime_pow2_odd. exact Hk.
      * apply Z.divide_mul_l. exact H.
    + split; intros [q Hq]; exfalso.
      * pose proof (geo_parity (2 * m + 1)) as HP. rewrite Hq in HP. rewrite Z.pow_succ_r in HP by lia.
        replace (q * (2 * 2 ^ k)) with (q * 2 ^ k * 2) in HP by ring. rewrite Z.mod_mul in HP by lia.
        rewrite Nat2Z.inj_add, Nat2Z.inj_mul in HP. change (Z.of_nat 2) with 2 in HP. change (Z.of_nat 1) with 1 in HP. rewrite Z.add_comm, Z.mul_comm, Z.mod_add in HP by lia. discriminate.
      * rewrite Z.pow_succ_r in Hq by lia. lia.
Qed.
Lemma iter_range n : 0 <= pat n < 2 ^ 32.
Proof. destruct n; [unfold pat, initseed; cbn [Nat.iter nat_rect]; lia|]. rewrite pat_S. apply word_range. lia. Qed.
Lemma pat_iter i d : pat (d + i) = Nat.iter d encode (pat i).
Proof. induction d as [|d IH]; [reflexivity|]. change (S d + i)%nat with (S (d + i)). rewrite pat_S, IH. reflexivity. Qed.
Lemma pat_period i d : pat (d + i) = pat i <-> (2 ^ 32 | Z.of_nat d).
Proof.
  rewrite <- geo_pow by lia. rewrite pat_iter. pose proof (iter_encode d (pat i)) as E. rewrite <- pat_iter in *.
  rewrite !(word_small 32 (pat (d + i))) in E by apply iter_range. rewrite E. clear E. pose proof (iter_range i) as HR.
  set (x := pat i) in *. split; intros H.
  - assert (HM : ((0x55555555 - 1) * x + 0x00700707) * geo d mod 2 ^ 32 = 0).
    { unfold word in H. assert (HX : (x + ((0x55555555 - 1) * x + 0x00700707) * geo d - x) mod 2 ^ 32 = 0) by (rewrite Zminus_mod, H, (Z.mod_small x) by lia; rewrite Z.sub_diag; reflexivity).
      rewrite <- HX. f_equal. ring. }
    apply Z.mod_divide in HM; [|lia]. apply Z.gauss in HM; [exact HM|].
    replace ((0x55555555 - 1) * x + 0x00700707) with (1 + 2 * (0x2AAAAAAA * x + 0x380383)) by ring. apply (coprime_pow2_odd 32). lia.
  - destruct H as [q ->]. unfold word. rewrite Z.mul_assoc. rewrite Z.mod_add by lia. apply Z.mod_small. exact HR.
Qed.
Lemma pat_eq_iff i j : pat i = pat j <-> (Z.of_nat i - Z.of_nat j) mod 2 ^ 32 = 0.
Proof.
  rewrite Z.mod_divide by lia. destruct (Nat.le_ge_cases i j) as [H|H].
  - replace j with ((j - i) + i)%nat at 1 by lia. split; intros E.
    + symmetry in E. apply pat_period in E. replace (Z.of_nat i - Z.of_nat j) with (- Z.of_nat (j - i)) by lia. apply Z.divide_opp_r. exact E.
    + symmetry. apply pat_period. replace (Z.of_nat (j - i)) with (- (Z.of_nat i - Z.of_nat j)) by lia. apply Z.divide_opp_r. exact E.
  - replace i with ((i - j) + j)%nat at 1 by lia. rewrite pat_period. replace (Z.of_nat (i - j)) with (Z.of_nat i - Z.of_nat j) by lia. reflexivity.
Qed.

(** the test *)
Section MT.
Context {M : Type} (rdm : M -> Z -> Z) (wrm : M -> Z -> Z -> M).
(* number of words tested *)
Definition words (start stop : Z) : nat := Z.to_nat ((stop - start + 3) / 4).
Lemma words_step p stop : p < stop -> words p stop = S (words (p + 4) stop).
Proof.
  intros H. unfold words. replace (stop - (p + 4) + 3) with (stop - p + 3 + -1 * 4) by lia. rewrite Z.div_add by lia.
  assert (1 <= (stop - p + 3) / 4) by (apply Z.div_le_lower_bound; lia). lia.
Qed.
Lemma words_end p stop : stop <= p -> words p stop = O.
Proof. intros H. unfold words. assert ((stop - p + 3) / 4 < 1) by (apply Z.div_lt_upper_bound; lia). lia. Qed.
Lemma words_lt start stop i : (i < words start stop)%nat <-> start + 4 * Z.of_nat i < stop.
Proof.
  unfold words. pose proof (Z.div_mod (stop - start + 3) 4 ltac:(lia)). pose proof (Z.mod_pos_bound (stop - start + 3) 4 ltac:(lia)). lia.
Qed.
Definition written (m : M) (start : Z) (k n : nat) : M :=
  fold_left (fun m i => wrm m (start + 4 * Z.of_nat i) (pat i)) (seq k n) m.
Lemma write_pass_eq fuel : forall m start k p stop, p = start + 4 * Z.of_nat k -> stop - p <= 4 * Z.of_nat fuel ->
  write_pass wrm fuel m p stop (pat k) = Ok (written m start k (words p stop)).
Proof.
  induction fuel as [|f IH]; intros m start k p stop Hp HF; cbn [write_pass]; destruct (Z.ltb_spec p stop).
  - lia.
  - rewrite words_end by lia. reflexivity.
  - rewrite <- pat_S, (IH _ start (S k)) by lia. rewrite (words_step p stop) by lia. unfold written. cbn [seq fold_left]. rewrite <- Hp. reflexivity.
  - rewrite words_end by lia. reflexivity.
Qed.
Lemma read_pass_eq fuel : forall m start k p stop, p = start + 4 * Z.of_nat k -> stop - p <= 4 * Z.of_nat fuel ->
  exists r, read_pass rdm fuel m p stop (pat k) = Ok r /\
    (r = true <-> forall i, (k <= i)%nat -> start + 4 * Z.of_nat i < stop -> rdm m (start + 4 * Z.of_nat i) = pat i).
Proof.
  induction fuel as [|f IH]; intros m start k p stop Hp HF; cbn [read_pass]; destruct (Z.ltb_spec p stop).
  - lia.
  - exists true. split; [reflexivity|]. split; [intros _ i Hi Hs; lia|reflexivity].
  - destruct (Z.eqb_spec (rdm m p) (pat k)) as [E|E]; cbn [negb].
    + rewrite <- pat_S. destruct (IH m start (S k) (p + 4) stop ltac:(lia) ltac:(lia)) as (r & ER & HR). exists r. split; [exact ER|].
      rewrite HR. split; intros HH i Hi Hs; [|apply HH; lia]. destruct (Nat.eq_dec i k) as [->|Hk]; [rewrite <- Hp; exact E|apply HH; lia].
    + exists false. split; [reflexivity|]. split; [discriminate|]. intros HH. specialize (HH k ltac:(lia) ltac:(lia)). rewrite <- Hp in HH. contradiction.
  - exists true. split; [reflexivity|]. split; [intros _ i Hi Hs; lia|reflexivity].
Qed.
Lemma check_eq fuel m start stop : stop - start <= 4 * Z.of_nat fuel ->
  exists r, check rdm wrm fuel m start stop = Ok (written m start 0 (words start stop), r) /\
    (r = true <-> forall i, start + 4 * Z.of_nat i < stop -> rdm (written m start 0 (words start stop)) (start + 4 * Z.of_nat i) = pat i).
Proof.
  intros HF. unfold check. change initseed with (pat 0). rewrite (write_pass_eq fuel m start 0 start stop) by lia. cbn [bind].
  destruct (read_pass_eq fuel (written m start 0 (words start stop)) start 0 start stop ltac:(lia) HF) as (r & E & HR). rewrite E. cbn [bind].
  exists r. split; [reflexivity|]. rewrite HR. split; intros H i; [apply H; lia|]. intros _. apply H.
Qed.
Lemma written_snoc m start n : written m start 0 (S n) = wrm (written m start 0 n) (start + 4 * Z.of_nat n) (pat n).
Proof. unfold written. rewrite seq_S, fold_left_app. reflexivity. Qed.
Lemma good_written : good_memory rdm wrm -> forall m start n a,
  (forall i, (i < n)%nat -> a = start + 4 * Z.of_nat i -> rdm (written m start 0 n) a = pat i) /\
  ((forall i, (i < n)%nat -> a <> start + 4 * Z.of_nat i) -> rdm (written m start 0 n) a = rdm m a).
Proof.
  intros HG m start n a. induction n as [|n [IH1 IH2]]; [split; [intros; lia|reflexivity]|]. rewrite written_snoc. split; [intros i Hi Ha|intros H]; rewrite HG.
  - destruct (Z.eqb_spec (start + 4 * Z.of_nat n) a); [replace i with n by lia; reflexivity|]. apply IH1; [lia|exact Ha].
  - destruct (Z.eqb_spec (start + 4 * Z.of_nat n) a) as [E|E]; [exfalso; apply (H n); lia|]. apply IH2. intros i Hi. apply H. lia.
Qed.
Lemma check_good fuel m start stop : good_memory rdm wrm -> stop - start <= 4 * Z.of_nat fuel ->
  exists m', check rdm wrm fuel m start stop = Ok (m', true) /\
    (forall i, start + 4 * Z.of_nat i < stop -> rdm m' (start + 4 * Z.of_nat i) = pat i) /\
    (forall a, (forall i, start + 4 * Z.of_nat i < stop -> a <> start + 4 * Z.of_nat i) -> rdm m' a = rdm m a).
Proof.
  intros HG HF. destruct (check_eq fuel m start stop HF) as (r & E & HR). eexists.
  assert (H1 : forall i, start + 4 * Z.of_nat i < stop -> rdm (written m start 0 (words start stop)) (start + 4 * Z.of_nat i) = pat i).
  { intros i Hi. apply (good_written HG); [apply words_lt; exact Hi|reflexivity]. }
  apply HR in H1 as Hr. subst r. split; [exact E|]. split; [exact H1|].
  intros a Ha. apply (good_written HG). intros i Hi. apply Ha. apply words_lt. exact Hi.
Qed.
End MT.
Lemma wired_written phys m start n i : (i < n)%nat -> exists j, (i <= j < n)%nat /\ phys (start + 4 * Z.of_nat j) = phys (start + 4 * Z.of_nat i) /\
  written (wired_wr phys) m start 0 n (phys (start + 4 * Z.of_nat i)) = pat j.
Proof.
  induction n as [|n IH]; intros Hi; [lia|]. rewrite written_snoc. unfold wired_wr at 1.
  destruct (Z.eqb_spec (phys (start + 4 * Z.of_nat i)) (phys (start + 4 * Z.of_nat n))) as [E|E]; [exists n; split; [lia|auto]|].
  destruct (Nat.eq_dec i n) as [->|Hn]; [congruence|]. destruct (IH ltac:(lia)) as (j & Hj & E1 & E2). exists j. split; [lia|auto].
Qed.
Lemma check_alias fuel phys m start stop i j : stop - start <= 4 * Z.of_nat fuel -> stop - start < 4 * 2 ^ 32 ->
  (i < j)%nat -> start + 4 * Z.of_nat j < stop -> phys (start + 4 * Z.of_nat i) = phys (start + 4 * Z.of_nat j) ->
  exists m', check (wired_rd phys) (wired_wr phys) fuel m start stop = Ok (m', false).
Proof.
  intros HF HB Hij Hj HP. destruct (check_eq (wired_rd phys) (wired_wr phys) fuel m start stop HF) as (r & E & HR). eexists. rewrite E. f_equal. f_equal.
  destruct r; [exfalso|reflexivity]. pose proof (proj1 HR eq_refl) as HA. set (mm := written _ _ _ _ _) in HA.
  pose proof (HA i ltac:(lia)) as H1. pose proof (HA j Hj) as H2. unfold wired_rd in H1, H2. rewrite HP in H1. rewrite H1 in H2.
  apply pat_eq_iff in H2. apply Z.mod_divide in H2; [|lia]. destruct H2 as [q Hq]. nia.
Qed.
Lemma check_alias_far fuel phys m start stop i j : stop - start <= 4 * Z.of_nat fuel ->
  (i < j)%nat -> Z.of_nat j - Z.of_nat i < 2 ^ 32 -> start + 4 * Z.of_nat j < stop -> phys (start + 4 * Z.of_nat i) = phys (start + 4 * Z.of_nat j) ->
  exists m', check (wired_rd phys) (wired_wr phys) fuel m start stop = Ok (m', false).
Proof.
  intros HF Hij HB Hj HP. destruct (check_eq (wired_rd phys) (wired_wr phys) fuel m start stop HF) as (r & E & HR). eexists. rewrite E. f_equal. f_equal.
  destruct r; [exfalso|reflexivity]. pose proof (proj1 HR eq_refl) as HA. set (mm := written _ _ _ _ _) in HA.
  pose proof (HA i ltac:(lia)) as H1. pose proof (HA j Hj) as H2. unfold wired_rd in H1, H2. rewrite HP in H1. rewrite H1 in H2.
  apply pat_eq_iff in H2. apply Z.mod_divide in H2; [|lia]. destruct H2 as [q Hq]. nia.
Qed.
Lemma check_injective fuel phys m start stop : stop - start <= 4 * Z.of_nat fuel -> (forall a b, phys a = phys b -> a = b) ->
  exists m', check (wired_rd phys) (wired_wr phys) fuel m start stop = Ok (m', true).
Proof.
  intros HF HI. assert (HG : good_memory (wired_rd phys) (wired_wr phys)).
  { intros m0 a b v. unfold wired_rd, wired_wr. destruct (Z.eqb_spec (phys b) (phys a)) as [E|E], (Z.eqb_spec a b) as [E'|E']; try reflexivity; [apply HI in E; congruence|congruence]. }
  destruct (check_good _ _ fuel m start stop HG HF) as (m' & E & _). exists m'. exact E.
Qed.
Lemma last_word_beyond start stop : start < stop ->
  let a := start + 4 * ((stop - start - 1) / 4) in a < stop <= a + 4 /\ ((stop - start) mod 4 <> 0 -> stop < a + 4) /\
  forall (M : Type) (rdm : M -> Z -> Z) wrm fuel m, good_memory rdm wrm -> stop - start <= 4 * Z.of_nat fuel ->
    exists m' k, check rdm wrm fuel m start stop = Ok (m', true) /\ a = start + 4 * Z.of_nat k /\ rdm m' a = pat k.
Proof.
  intros H a. pose proof (Z.div_mod (stop - start - 1) 4 ltac:(lia)) as HD. pose proof (Z.mod_pos_bound (stop - start - 1) 4 ltac:(lia)) as HM.
  split; [unfold a; lia|]. split.
  - intros HN. destruct (Z.eq_dec ((stop - start - 1) mod 4) 3) as [E|E]; [|unfold a; lia]. exfalso. apply HN.
    replace (stop - start) with (((stop - start - 1) / 4 + 1) * 4) by lia. apply Z.mod_mul. lia.
  - intros M rdm wrm fuel m HG HF. destruct (check_good rdm wrm fuel m start stop HG HF) as (m' & E & H1 & _). exists m', (Z.to_nat ((stop - start - 1) / 4)).
    assert (0 <= (stop - start - 1) / 4) by (apply Z.div_pos; lia). rewrite Z2Nat.id by lia. split; [exact E|]. split; [reflexivity|].
    unfold a. replace ((stop - start - 1) / 4) with (Z.of_nat (Z.to_nat ((stop - start - 1) / 4))) at 1 by lia. apply H1. lia.
Qed.
Lemma check_iff {M : Type} (rdm : M -> Z -> Z) wrm fuel m start stop : stop - start <= 4 * Z.of_nat fuel ->
  exists m' r, check rdm wrm fuel m start stop = Ok (m', r) /\
    (r = true <-> forall i, start + 4 * Z.of_nat i < stop -> rdm m' (start + 4 * Z.of_nat i) = Nat.iter i encode initseed).
Proof. intros H. destruct (check_eq rdm wrm fuel m start stop H) as (r & E & HR). eauto. Qed.
Lemma check_addr_order {M : Type} (rdm : M -> Z -> Z) wrm fuel m start stop :
  (stop < start -> check_addr rdm wrm fuel m start stop = Ok (m, false)) /\
  (start <= stop -> check_addr rdm wrm fuel m start stop = check rdm wrm fuel m start stop).
Proof. unfold check_addr. destruct (Z.gtb_spec start stop); split; intros; try lia; reflexivity. Qed.
Lemma smallest_signed_refuses lo hi : fits_signed 64 lo -> fits_signed 64 hi -> lo <= hi -> 2 ^ 62 <= hi \/ lo < - 2 ^ 62 ->
  smallest_signed lo hi = None.
Proof.
  unfold fits_signed, smallest_signed. intros Hl Hh Hle Hw. replace (lo <=? hi) with true by lia. cbn [negb].
  destruct (Z.eqb_spec lo (- 2 ^ 63)); [reflexivity|].
  set (m := if hi >=? - lo then hi else - lo - 1). assert (Hm : 2 ^ 62 <= m < 2 ^ 63) by (unfold m; destruct (Z.geb_spec hi (- lo)); lia).
  clearbody m.
  assert (Es : sword 64 (m * 2) = m * 2 - 2 ^ 64).
  { unfold sword. replace (m * 2 + 2 ^ (64 - 1)) with (m * 2 - 2 ^ 63 + 1 * 2 ^ 64) by lia. rewrite Z.mod_add by lia. rewrite Z.mod_small by lia. lia. }
  rewrite Es. replace (m * 2 - 2 ^ 64 <? 0) with true by lia. reflexivity.
Qed.
