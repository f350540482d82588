From Coq Require Import QArith Qround Lqa Floats.SpecFloat.
From Verif.Common Require Import Base Lemmas Lists F32.
From Verif.Spec Require Import TableSpec.
From Verif.Model Require Import Table.
Open Scope Z_scope.

(** casts in exact arithmetic *)
Lemma floor_is q i : (inject_Z i <= q)%Q -> (q < inject_Z (i + 1))%Q -> Qfloor q = i.
Proof.
  intros H1 H2. pose proof (Qfloor_le q) as A. pose proof (Qlt_floor q) as B.
  assert (inject_Z (Qfloor q) < inject_Z (i + 1))%Q by lra. assert (inject_Z i < inject_Z (Qfloor q + 1))%Q by lra. rewrite <- Zlt_Qlt in *. lia.
Qed.
Lemma cast_floor q : (0 <= q)%Q -> (q < inject_Z (2 ^ 32))%Q -> Q_to_u32 q = Ok (Qfloor q).
Proof.
  intros H1 H2. unfold Q_to_u32. pose proof (Qfloor_le q) as A. pose proof (Qlt_floor q) as B.
  assert (HQ : Z.quot (Qnum q) (QDen q) = Qfloor q). { destruct q as [n d]. cbn. unfold Qle in H1. cbn in H1. apply Z.quot_div_nonneg; lia. }
  rewrite HQ. assert (0 <= Qfloor q) by (apply (Qfloor_resp_le 0 q) in H1; exact H1). assert (inject_Z (Qfloor q) < inject_Z (2 ^ 32))%Q by lra. rewrite <- Zlt_Qlt in H0.
  destruct (Z.leb_spec 0 (Qfloor q)), (Z.ltb_spec (Qfloor q) (2 ^ 32)); try lia. reflexivity.
Qed.
Lemma cast_int_frac q i t : (q == inject_Z i + t)%Q -> 0 <= i < 2 ^ 32 -> (0 <= t)%Q -> (t < 1)%Q -> Q_to_u32 q = Ok i.
Proof.
  intros E Hi Ht1 Ht2. assert (HI : (0 <= inject_Z i)%Q) by (change 0%Q with (inject_Z 0); rewrite <- Zle_Qle; lia).
  assert (HI2 : (inject_Z i + 1 <= inject_Z (2 ^ 32))%Q) by (change 1%Q with (inject_Z 1); rewrite <- inject_Z_plus, <- Zle_Qle; lia).
  rewrite cast_floor by lra. f_equal. apply floor_is; [lra|]. rewrite inject_Z_plus. change (inject_Z 1) with 1%Q. lra.
Qed.
Lemma Qle_bool_t x y : (x <= y)%Q -> Qle_bool x y = true. Proof. apply Qle_bool_iff. Qed.
Lemma Qle_bool_f x y : (y < x)%Q -> Qle_bool x y = false.
Proof. intros H. destruct (Qle_bool x y) eqn:E; [|reflexivity]. apply Qle_bool_iff in E. lra. Qed.
Lemma inj_pos n : 0 < n -> (0 < inject_Z n)%Q. Proof. intros H. change 0%Q with (inject_Z 0). rewrite <- Zlt_Qlt. exact H. Qed.

(** lookup *)
Section Lookup.
Context (pts : list Q) (mn mx : Q).
Let N := zlen pts.
Hypothesis HN : 2 <= N < 2 ^ 32.
Hypothesis Hm : ~ (mx == mn)%Q.
Let idx (val : Q) : Q := ((val - mn) / (mx - mn) * inject_Z (N - 1))%Q.
Lemma lookup_idx val j t lo up : 0 <= j < N - 1 -> (0 <= t)%Q -> (t < 1)%Q -> (idx val == inject_Z j + t)%Q ->
  znth pts j = Some lo -> znth pts (j + 1) = Some up -> gives (Qlookup pts mn mx val) (lerp lo up t).
Proof.
  intros Hj Ht1 Ht2 E Hlo Hup. unfold gives, Qlookup, lookup. fold N. change ((val - mn) / (mx - mn) * inject_Z (N - 1))%Q with (idx val).
  assert (HJ : (0 <= inject_Z j)%Q) by (change 0%Q with (inject_Z 0); rewrite <- Zle_Qle; lia).
  assert (HJ2 : (inject_Z j + 1 <= inject_Z (N - 1))%Q) by (change 1%Q with (inject_Z 1); rewrite <- inject_Z_plus, <- Zle_Qle; lia).
  destruct (Qlt_le_dec 0 (idx val)) as [HP|HP].
  - change (inject_Z 0) with 0%Q. rewrite Qle_bool_f by exact HP. rewrite Qle_bool_f by lra. rewrite (cast_int_frac _ j t E) by (lia || assumption). cbn [bind].
    rewrite (rd_ok _ _ _ Hlo). cbn [bind]. rewrite word_small by lia. rewrite (rd_ok _ _ _ Hup). cbn [bind]. eexists. split; [reflexivity|]. unfold lerp. rewrite E. ring.
  - assert (Ej : (inject_Z j == 0)%Q) by lra. assert (Et : (t == 0)%Q) by lra. change 0%Q with (inject_Z 0) in Ej. apply (proj1 (inject_Z_injective _ _)) in Ej. subst j.
    change (inject_Z 0) with 0%Q. rewrite Qle_bool_t by exact HP. rewrite (rd_ok _ _ _ Hlo). eexists. split; [reflexivity|]. unfold lerp. rewrite Et. ring.
Qed.
Lemma lookup_back val x : (inject_Z (N - 1) <= idx val)%Q -> znth pts (N - 1) = Some x -> gives (Qlookup pts mn mx val) x.
Proof.
  intros E Hx. unfold gives, Qlookup, lookup. fold N. change ((val - mn) / (mx - mn) * inject_Z (N - 1))%Q with (idx val). pose proof (inj_pos (N - 1) ltac:(lia)).
  change (inject_Z 0) with 0%Q. rewrite Qle_bool_f by lra. rewrite Qle_bool_t by exact E. rewrite (rd_ok _ _ _ Hx). eexists. split; reflexivity.
Qed.
Lemma lookup_front val x : (idx val <= 0)%Q -> znth pts 0 = Some x -> gives (Qlookup pts mn mx val) x.
Proof.
  intros E Hx. unfold gives, Qlookup, lookup. fold N. change ((val - mn) / (mx - mn) * inject_Z (N - 1))%Q with (idx val).
  change (inject_Z 0) with 0%Q. rewrite Qle_bool_t by exact E. rewrite (rd_ok _ _ _ Hx). eexists. split; reflexivity.
Qed.
Lemma idx_sample j t val : (val == sample_point N mn mx j + t * ((mx - mn) / inject_Z (N - 1)))%Q -> (idx val == inject_Z j + t)%Q.
Proof.
  intros E. unfold idx. rewrite E. unfold sample_point. pose proof (inj_pos (N - 1) ltac:(lia)). field. split; [|intros HE; apply Hm; lra]. intros HE. lra.
Qed.
Lemma lookup_between j t val lo up : 0 <= j < N - 1 -> (0 <= t <= 1)%Q ->
  (val == sample_point N mn mx j + t * ((mx - mn) / inject_Z (N - 1)))%Q ->
  at_ pts j lo -> at_ pts (j + 1) up -> gives (Qlookup pts mn mx val) (lerp lo up t).
Proof.
  intros Hj Ht E Hlo Hup. destruct (Qlt_le_dec t 1) as [H1|H1].
  - eapply lookup_idx; eauto; [lra|]. apply idx_sample. exact E.
  - assert (Et : (t == 1)%Q) by lra. pose proof (idx_sample j t val E) as EI.
    assert (EI' : (idx val == inject_Z (j + 1) + 0)%Q) by (rewrite inject_Z_plus, EI, Et; change (inject_Z 1) with 1%Q; ring).
    assert (HU : gives (Qlookup pts mn mx val) up).
    { destruct (Z.eq_dec (j + 1) (N - 1)) as [EJ|EJ].
      - apply lookup_back; [rewrite EI', EJ; lra|rewrite <- EJ; exact Hup].
      - destruct (znth_some pts (j + 1 + 1)) as [w Hw]; [fold N; lia|]. destruct (lookup_idx val (j + 1) 0 up w) as (r & Er & Hr); try (lia || lra || assumption).
        exists r. split; [exact Er|]. rewrite Hr. unfold lerp. ring. }
    destruct HU as (r & Er & Hr). exists r. split; [exact Er|]. rewrite Hr. unfold lerp. rewrite Et. ring.
Qed.
End Lookup.
Lemma lookup_sample pts mn mx i val x : 2 <= zlen pts < 2 ^ 32 -> ~ (mx == mn)%Q -> (val == sample_point (zlen pts) mn mx i)%Q -> at_ pts i x ->
  gives (Qlookup pts mn mx val) x.
Proof.
  intros HN Hm E Hx. pose proof (znth_some_range _ _ _ Hx). destruct (Z.eq_dec i (zlen pts - 1)) as [->|Hi].
  - apply lookup_back; auto. pose proof (idx_sample pts mn mx HN Hm (zlen pts - 1) 0 val) as EI. rewrite EI; [lra|]. rewrite E. ring.
  - destruct (znth_some pts (i + 1)) as [u Hu]; [lia|]. destruct (lookup_between pts mn mx HN Hm i 0 val x u) as (r & Er & Hr); auto; try lra; try lia; try (rewrite E; ring).
    exists r. split; [exact Er|]. rewrite Hr. unfold lerp. ring.
Qed.
Lemma lookup_clamps pts mn mx val : 2 <= zlen pts < 2 ^ 32 -> (mn < mx)%Q ->
  ((val <= mn)%Q -> forall x, at_ pts 0 x -> gives (Qlookup pts mn mx val) x) /\
  ((mx <= val)%Q -> forall x, at_ pts (zlen pts - 1) x -> gives (Qlookup pts mn mx val) x).
Proof.
  intros HN Hm. assert (HD : (0 < mx - mn)%Q) by lra. pose proof (inj_pos (zlen pts - 1) ltac:(lia)) as HP. split; intros Hv x Hx.
  - apply lookup_front; auto.
    assert (HQ : ((val - mn) / (mx - mn) <= 0)%Q) by (apply Qle_shift_div_r; lra). setoid_replace 0%Q with (0 * inject_Z (zlen pts - 1))%Q by ring. apply Qmult_le_compat_r; [exact HQ|lra].
  - apply lookup_back; auto.
    assert (HQ : (1 <= (val - mn) / (mx - mn))%Q) by (apply Qle_shift_div_l; lra). setoid_replace (inject_Z (zlen pts - 1)) with (1 * inject_Z (zlen pts - 1))%Q at 1 by ring. apply Qmult_le_compat_r; [exact HQ|lra].
Qed.
Lemma lookup_total pts mn mx val : 2 <= zlen pts < 2 ^ 32 -> ~ (mx == mn)%Q -> exists r, Qlookup pts mn mx val = Ok r.
Proof.
  intros HN Hm. set (q := ((val - mn) / (mx - mn) * inject_Z (zlen pts - 1))%Q).
  destruct (Qlt_le_dec 0 q) as [H0|H0]; [destruct (Qlt_le_dec q (inject_Z (zlen pts - 1))) as [H1|H1]|].
  - pose proof (Qfloor_le q) as A. pose proof (Qlt_floor q) as B. set (j := Qfloor q) in *. assert (0 <= j < zlen pts - 1).
    { split; [|assert (HX : (inject_Z j < inject_Z (zlen pts - 1))%Q) by lra; rewrite <- Zlt_Qlt in HX; exact HX].
      assert (HX : (inject_Z 0 < inject_Z (j + 1))%Q) by (change (inject_Z 0) with 0%Q; lra). rewrite <- Zlt_Qlt in HX. lia. }
    destruct (znth_some pts j) as [lo Hlo]; [lia|]. destruct (znth_some pts (j + 1)) as [up Hup]; [lia|].
    rewrite inject_Z_plus in B. change (inject_Z 1) with 1%Q in B.
    destruct (lookup_idx pts mn mx HN val j (q - inject_Z j) lo up) as (r & Er & _); auto; try lra; [fold q; ring|]. eauto.
  - destruct (znth_some pts (zlen pts - 1)) as [x Hx]; [lia|]. destruct (lookup_back pts mn mx HN val x H1 Hx) as (r & Er & _). eauto.
  - destruct (znth_some pts 0) as [x Hx]; [lia|]. destruct (lookup_front pts mn mx val x H0 Hx) as (r & Er & _). eauto.
Qed.
Lemma lookup_generated func N mn mx i : (forall x y, (x == y)%Q -> (func x == func y)%Q) -> 2 <= N < 2 ^ 32 -> ~ (mx == mn)%Q -> 0 <= i < N ->
  gives (Qlookup (Qgenerate N mn mx func) mn mx (sample_point N mn mx i)) (func (sample_point N mn mx i)).
Proof.
  intros HF HN Hm Hi. assert (HL : zlen (Qgenerate N mn mx func) = N) by (apply zlen_ztab; lia).
  destruct (lookup_sample (Qgenerate N mn mx func) mn mx i (sample_point N mn mx i) (func (mn + inject_Z i * (mx - mn) / inject_Z (N - 1))%Q)) as (r & Er & Hr); rewrite ?HL; auto; try lra; try lia.
  - unfold at_, Qgenerate, generate. rewrite znth_ztab by lia. reflexivity.
  - exists r. split; [exact Er|]. rewrite Hr. apply HF. unfold sample_point. field. intros E. pose proof (inj_pos (N - 1) ltac:(lia)). lra.
Qed.

(** InterpArray *)
Lemma wrap_loop_mod fuel : forall Size i, 0 < Size -> 0 <= i -> i / Size <= Z.of_nat fuel -> wrap_loop fuel Size i = Ok (i mod Size).
Proof.
  induction fuel as [|f IH]; intros Size i HS Hi HF; cbn [wrap_loop]; destruct (Z.geb_spec i Size) as [HG|HG].
  - assert (1 <= i / Size) by (apply Z.div_le_lower_bound; lia). lia.
  - rewrite Z.mod_small by lia. reflexivity.
  - rewrite IH; [|lia|lia|]. + f_equal. replace i with (i - Size + 1 * Size) at 2 by ring. rewrite Z.mod_add by lia. reflexivity.
    + replace i with (i - Size + 1 * Size) in HF by ring. rewrite Z.div_add in HF by lia. lia.
  - rewrite Z.mod_small by lia. reflexivity.
Qed.
Lemma wrap_loop_zero fuel i : 0 <= i -> wrap_loop fuel 0 i = OutOfFuel.
Proof. revert i. induction fuel as [|f IH]; intros i Hi; cbn [wrap_loop]; destruct (Z.geb_spec i 0); try lia; [reflexivity|]. rewrite Z.sub_0_r. apply IH. exact Hi. Qed.
Lemma next_mod Size i : 0 < Size < 2 ^ 32 -> 0 <= i < Size -> (if i =? Size - 1 then 0 else word 32 (i + 1)) = (i + 1) mod Size.
Proof. intros HS Hi. destruct (Z.eqb_spec i (Size - 1)) as [->|H]; [replace (Size - 1 + 1) with Size by ring; rewrite Z.mod_same by lia; reflexivity|]. rewrite word_small by lia. rewrite Z.mod_small by lia. reflexivity. Qed.
Lemma blend_lerp data i t x y : 0 <= i < zlen data -> zlen data < 2 ^ 32 -> at_ data i x -> at_ data ((i + 1) mod zlen data) y ->
  gives (blend Qplus Qminus Qmult inject_Z data i t) (lerp x y t).
Proof.
  intros Hi HS Hx Hy. unfold gives, blend. rewrite next_mod by lia. rewrite (rd_ok _ _ _ Hy), (rd_ok _ _ _ Hx). cbn [bind]. eexists. split; [reflexivity|]. unfold lerp. change (inject_Z 1) with 1%Q. ring.
Qed.
Lemma blend_ext data i t t' r : (t == t')%Q -> gives (blend Qplus Qminus Qmult inject_Z data i t) r -> gives (blend Qplus Qminus Qmult inject_Z data i t') r.
Proof.
  intros E (v & Ev & Hv). unfold blend in *. apply bind_inv in Ev as (d1 & E1 & Ev). apply bind_inv in Ev as (d0 & E0 & Ev). injection Ev as <-. rewrite E1, E0. cbn [bind]. eexists. split; [reflexivity|]. rewrite <- E. exact Hv.
Qed.
Lemma by_index_wrap fuel data i t index x y : 0 < zlen data < 2 ^ 32 -> 0 <= i < 2 ^ 32 -> (0 <= t)%Q -> (t < 1)%Q -> (index == inject_Z i + t)%Q -> i / zlen data <= Z.of_nat fuel ->
  at_ data (i mod zlen data) x -> at_ data ((i + 1) mod zlen data) y ->
  gives (Qinterp_by_index_wrap fuel data index) (lerp x y t).
Proof.
  intros HS Hi Ht1 Ht2 E HF Hx Hy. unfold Qinterp_by_index_wrap, interp_by_index_wrap. rewrite (cast_int_frac index i t E) by (lia || assumption). cbn [bind]. rewrite wrap_loop_mod by lia. cbn [bind].
  pose proof (Z.mod_pos_bound i (zlen data)). apply blend_ext with t; [rewrite E; ring|]. apply blend_lerp; auto; try lia. rewrite Zplus_mod_idemp_l. exact Hy.
Qed.
Lemma wrap_phase fuel data k i t phase x y : 0 < zlen data < 2 ^ 32 -> 0 <= k -> 0 <= i < zlen data -> (0 <= t)%Q -> (t < 1)%Q ->
  (phase == inject_Z k + (inject_Z i + t) / inject_Z (zlen data))%Q -> (k + 1) * zlen data <= 2 ^ 32 -> k <= Z.of_nat fuel ->
  at_ data i x -> at_ data ((i + 1) mod zlen data) y ->
  gives (Qinterp_wrap fuel data phase) (lerp x y t).
Proof.
  intros HS Hk Hi Ht1 Ht2 E HB HF Hx Hy. pose proof (inj_pos (zlen data) ltac:(lia)) as HP. unfold Qinterp_wrap, interp_wrap. set (S := zlen data) in *.
  apply (by_index_wrap fuel data (k * S + i) t); auto; try (fold S).
  - nia.
  - rewrite E, inject_Z_plus, inject_Z_mult. field. intros HE. lra.
  - rewrite Z.div_add_l by lia. rewrite Z.div_small by lia. lia.
  - rewrite Z.add_comm, Z.mod_add by lia. rewrite Z.mod_small by lia. exact Hx.
  - replace (k * S + i + 1) with (i + 1 + k * S) by ring. rewrite Z.mod_add by lia. exact Hy.
Qed.
Lemma interp_phase data i t phase x y : 1 < zlen data < 2 ^ 32 -> 0 <= i < zlen data -> (0 <= t)%Q -> (t < 1)%Q ->
  (phase == (inject_Z i + t) / inject_Z (zlen data - 1))%Q -> at_ data i x -> at_ data ((i + 1) mod zlen data) y ->
  gives (Qinterp data phase) (lerp x y t).
Proof.
  intros HS Hi Ht1 Ht2 E Hx Hy. pose proof (inj_pos (zlen data - 1) ltac:(lia)) as HP. unfold Qinterp, interp, interp_by_index. set (S := zlen data) in *.
  assert (EI : (phase * inject_Z (S - 1) == inject_Z i + t)%Q) by (rewrite E; field; intros HE; lra).
  rewrite (cast_int_frac _ i t EI) by (lia || assumption). cbn [bind]. apply blend_ext with t; [rewrite EI; ring|]. apply blend_lerp; auto; lia.
Qed.
Lemma interp_beyond data phase : 1 < zlen data < 2 ^ 32 -> (inject_Z (zlen data) <= phase * inject_Z (zlen data - 1))%Q -> (phase * inject_Z (zlen data - 1) < inject_Z (2 ^ 32 - 1))%Q ->
  Qinterp data phase = UB OutOfBounds.
Proof.
  intros HS H1 H2. unfold Qinterp, interp, interp_by_index. set (q := (phase * inject_Z (zlen data - 1))%Q) in *. pose proof (inj_pos (zlen data) ltac:(lia)) as HP.
  assert (HX : (inject_Z (2 ^ 32 - 1) < inject_Z (2 ^ 32))%Q) by (rewrite <- Zlt_Qlt; lia). rewrite cast_floor by lra. cbn [bind].
  pose proof (Qfloor_le q) as A. pose proof (Qlt_floor q) as B. assert (HJ : zlen data <= Qfloor q < 2 ^ 32 - 1).
  { split; [assert (HY : (inject_Z (zlen data) < inject_Z (Qfloor q + 1))%Q) by lra; rewrite <- Zlt_Qlt in HY; lia|]. assert (HY : (inject_Z (Qfloor q) < inject_Z (2 ^ 32 - 1))%Q) by lra. rewrite <- Zlt_Qlt in HY. lia. }
  unfold blend. destruct (Z.eqb_spec (Qfloor q) (zlen data - 1)); [lia|]. rewrite word_small by lia. unfold rd. rewrite znth_none by lia. reflexivity.
Qed.
Lemma closest_floor data i t phase x : 1 < zlen data < 2 ^ 32 -> 0 <= i < zlen data -> (0 <= t)%Q -> (t < 1)%Q ->
  (phase == (inject_Z i + t) / inject_Z (zlen data - 1))%Q -> at_ data i x -> Qclosest data phase = Ok x.
Proof.
  intros HS Hi Ht1 Ht2 E Hx. pose proof (inj_pos (zlen data - 1) ltac:(lia)) as HP. unfold Qclosest, closest.
  assert (EI : (phase * inject_Z (zlen data - 1) == inject_Z i + t)%Q) by (rewrite E; field; intros HE; lra).
  rewrite (cast_int_frac _ i t EI) by (lia || assumption). cbn [bind]. apply rd_ok. exact Hx.
Qed.
Lemma closest_wrap_floor fuel data k i t phase x : 0 < zlen data < 2 ^ 32 -> 0 <= k -> 0 <= i < zlen data -> (0 <= t)%Q -> (t < 1)%Q ->
  (phase == inject_Z k + (inject_Z i + t) / inject_Z (zlen data))%Q -> (k + 1) * zlen data <= 2 ^ 32 -> k <= Z.of_nat fuel -> at_ data i x ->
  Qclosest_wrap fuel data phase = Ok x.
Proof.
  intros HS Hk Hi Ht1 Ht2 E HB HF Hx. pose proof (inj_pos (zlen data) ltac:(lia)) as HP. unfold Qclosest_wrap, closest_wrap.
  assert (EI : (phase * inject_Z (zlen data) == inject_Z (k * zlen data + i) + t)%Q) by (rewrite E, inject_Z_plus, inject_Z_mult; field; intros HE; lra).
  rewrite (cast_int_frac _ (k * zlen data + i) t EI) by (nia || assumption). cbn [bind]. rewrite wrap_loop_mod; [|lia|nia|rewrite Z.div_add_l by lia; rewrite Z.div_small by lia; lia].
  cbn [bind]. rewrite Z.add_comm, Z.mod_add by lia. rewrite Z.mod_small by lia. apply rd_ok. exact Hx.
Qed.
Lemma wrap_negative fuel data t x y : 1 < zlen data < 2 ^ 32 -> (- (1) < t)%Q -> (t < 0)%Q -> at_ data 0 x -> at_ data 1 y ->
  gives (Qinterp_wrap fuel data (t / inject_Z (zlen data))) (lerp x y t).
Proof.
  intros HS H1 H2 Hx Hy. pose proof (inj_pos (zlen data) ltac:(lia)) as HP. unfold Qinterp_wrap, interp_wrap, interp_by_index_wrap.
  assert (EI : (t / inject_Z (zlen data) * inject_Z (zlen data) == t)%Q) by (field; intros HE; lra). set (q := (t / inject_Z (zlen data) * inject_Z (zlen data))%Q) in *.
  assert (EC : Q_to_u32 q = Ok 0).
  { unfold Q_to_u32. assert (HQ : Z.quot (Qnum q) (QDen q) = 0); [|rewrite HQ; reflexivity].
    assert (HA : (- (1) < q)%Q) by lra. assert (HB : (q < 0)%Q) by lra. destruct q as [n d]. unfold Qlt in HA, HB. cbn in HA, HB |- *. rewrite <- (Z.opp_involutive n), Z.quot_opp_l by lia. rewrite Z.quot_small by lia. reflexivity. }
  rewrite EC. cbn [bind]. rewrite wrap_loop_mod; [|lia|lia|rewrite Z.div_small by lia; lia]. cbn [bind]. rewrite Z.mod_0_l by lia. apply blend_ext with t; [rewrite EI; change (inject_Z 0) with 0%Q; ring|].
  apply blend_lerp; auto; [lia|lia|]. rewrite Z.mod_small by lia. exact Hy.
Qed.
Lemma wrap_negative_ub fuel data phase : 0 < zlen data -> (phase * inject_Z (zlen data) <= - (1))%Q -> Qinterp_wrap fuel data phase = UB BadCast.
Proof.
  intros HS H. unfold Qinterp_wrap, interp_wrap, interp_by_index_wrap. set (q := (phase * inject_Z (zlen data))%Q) in *. unfold Q_to_u32.
  assert (HQ : Z.quot (Qnum q) (QDen q) < 0).
  { destruct q as [n d]. unfold Qle in H. cbn in H |- *. rewrite <- (Z.opp_involutive n), Z.quot_opp_l by lia. assert (1 <= (- n) ÷ Z.pos d); [|lia]. rewrite Z.quot_div_nonneg by lia. apply Z.div_le_lower_bound; lia. }
  destruct (Z.leb_spec 0 (Qnum q ÷ QDen q)); [lia|]. reflexivity.
Qed.
