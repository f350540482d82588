From Verif.Common Require Import Base Lemmas Lists.
From Verif.Spec Require Import Digits.

Fixpoint fixed (b : Z) (n : nat) (v : Z) : list Z :=
  match n with O => [] | S m => v / b ^ Z.of_nat m :: fixed b m (v mod b ^ Z.of_nat m) end.

Section B.
Variable b : Z.
Hypothesis Hb : 1 < b.

Lemma bpow n : 0 < b ^ Z.of_nat n.
Proof using Hb. apply Z.pow_pos_nonneg; lia. Qed.
Lemma bpow_S n : b ^ Z.of_nat (S n) = b * b ^ Z.of_nat n.
Proof using Hb. rewrite Nat2Z.inj_succ, Z.pow_succ_r by lia. reflexivity. Qed.

Lemma value_acc l : forall a, fold_left (fun a d => a * b + d) l a = a * b ^ Z.of_nat (length l) + value b l.
Proof using Hb.
  unfold value. induction l as [|d l IH]; intros a; cbn [fold_left length].
  - cbn. lia.
  - rewrite IH, (IH (0 * b + d)), bpow_S. ring.
Qed.
Lemma value_cons d l : value b (d :: l) = d * b ^ Z.of_nat (length l) + value b l.
Proof using Hb. unfold value at 1. cbn [fold_left]. rewrite value_acc. ring. Qed.
Lemma value_app l1 l2 : value b (l1 ++ l2) = value b l1 * b ^ Z.of_nat (length l2) + value b l2.
Proof using Hb. unfold value at 1. rewrite fold_left_app, value_acc. reflexivity. Qed.
Lemma value_range l : Forall (fun d => 0 <= d < b) l -> 0 <= value b l < b ^ Z.of_nat (length l).
Proof using Hb.
  induction 1 as [|d l Hd _ IH].
  - cbn. lia.
  - rewrite value_cons. cbn [length]. rewrite bpow_S. pose proof (bpow (length l)). nia.
Qed.
Lemma fixed_length n v : length (fixed b n v) = n.
Proof using. revert v; induction n as [|n IH]; intros v; cbn [fixed length]; [reflexivity|]. rewrite IH. reflexivity. Qed.
Lemma fixed_spec n v : 0 <= v < b ^ Z.of_nat n -> Forall (fun d => 0 <= d < b) (fixed b n v) /\ value b (fixed b n v) = v.
Proof using Hb.
  revert v; induction n as [|n IH]; intros v Hv; cbn [fixed].
  - split; [constructor|]. cbn in *. lia.
  - rewrite bpow_S in Hv. pose proof (bpow n) as Hp. pose proof (Z.mod_pos_bound v _ Hp) as Hm.
    destruct (IH (v mod b ^ Z.of_nat n) Hm) as [IH1 IH2]. split.
    + constructor; [|exact IH1]. split; [apply Z.div_pos; lia|]. apply Z.div_lt_upper_bound; lia.
    + rewrite value_cons, fixed_length, IH2. pose proof (Z.div_mod v (b ^ Z.of_nat n)). lia.
Qed.
Lemma fixed_value l : Forall (fun d => 0 <= d < b) l -> fixed b (length l) (value b l) = l.
Proof using Hb.
  induction 1 as [|d l Hd Hl IH]; cbn [fixed length]; [reflexivity|].
  pose proof (value_range l Hl) as Hr. pose proof (bpow (length l)) as Hp. rewrite value_cons.
  rewrite Z.add_comm, Z.div_add, Z.mod_add by lia. rewrite Z.div_small, Z.mod_small by lia. rewrite IH. reflexivity.
Qed.
Lemma fixed_pad k n v : 0 <= v < b ^ Z.of_nat n -> fixed b (k + n) v = repeat 0 k ++ fixed b n v.
Proof using Hb.
  intros Hv. induction k as [|k IH]; [reflexivity|]. cbn [fixed plus repeat app].
  assert (b ^ Z.of_nat n <= b ^ Z.of_nat (k + n)) by (apply Z.pow_le_mono_r; lia).
  rewrite Z.div_small, Z.mod_small by lia. rewrite IH. reflexivity.
Qed.
Lemma numeral_fixed v l n : numeral b v l -> v < b ^ Z.of_nat n -> (0 < n)%nat ->
  (length l <= n)%nat /\ fixed b n v = repeat 0 (n - length l) ++ l.
Proof using Hb.
  intros (Hl & Hv & Hd) Hn Hn0.
  assert (Hle : (length l <= n)%nat).
  { destruct Hd as [-> |(d & r & -> & Hd)]; [cbn; lia|].
    destruct (le_lt_dec (length (d :: r)) n) as [?|Hgt]; [assumption|]. exfalso.
    inversion Hl as [|? ? Hd0 Hr]; subst. rewrite value_cons in Hn. pose proof (value_range r Hr) as Hrr.
    cbn [length] in Hgt. assert (b ^ Z.of_nat n <= b ^ Z.of_nat (length r)) by (apply Z.pow_le_mono_r; lia).
    pose proof (bpow (length r)). nia. }
  split; [exact Hle|]. replace n with ((n - length l) + length l)%nat at 1 by lia. subst v.
  rewrite fixed_pad by (apply value_range; exact Hl). rewrite fixed_value by exact Hl. reflexivity.
Qed.
Lemma numeral_unique v l1 l2 : numeral b v l1 -> numeral b v l2 -> l1 = l2.
Proof using Hb.
  intros H1 H2.
  assert (G : forall l1 l2, numeral b v l1 -> numeral b v l2 -> (length l1 <= length l2)%nat -> l1 = l2).
  { clear l1 l2 H1 H2. intros l1 l2 H1 H2 Hle.
    assert (Hn : v < b ^ Z.of_nat (length l2)) by (destruct H2 as (Hf & <- & _); apply value_range; exact Hf).
    assert (Hp : (0 < length l2)%nat) by (destruct H2 as (_ & _ & [-> |(d & r & -> & _)]); cbn; lia).
    destruct (numeral_fixed v l1 (length l2) H1 Hn Hp) as [_ E1]. destruct (numeral_fixed v l2 (length l2) H2 Hn Hp) as [_ E2].
    rewrite Nat.sub_diag in E2. cbn [repeat app] in E2. rewrite E2 in E1.
    destruct (length l2 - length l1)%nat as [|k] eqn:Ek; [cbn in E1; congruence|].
    exfalso. destruct H2 as (_ & Hv2 & [-> |(d & r & -> & Hd)]).
    - cbn [length] in Ek. destruct H1 as (_ & _ & [-> |(d & r & -> & _)]); cbn in Ek; lia.
    - cbn [repeat app] in E1. congruence. }
  destruct (le_lt_dec (length l1) (length l2)); [apply G; assumption|symmetry; apply G; try assumption; lia].
Qed.
Lemma numeral_exists_n n v : 0 <= v < b ^ Z.of_nat n -> (0 < n)%nat -> exists l, numeral b v l /\ (length l <= n)%nat.
Proof using Hb.
  revert v; induction n as [|n IH]; intros v Hv Hn; [lia|].
  destruct (Z.eq_dec v 0) as [->|Hv0].
  { exists [0]. split; [|cbn; lia]. split; [|split]; [constructor; [lia|constructor]|reflexivity|left; reflexivity]. }
  destruct (Z_lt_le_dec v (b ^ Z.of_nat n)) as [Hlt|Hge].
  - assert ((0 < n)%nat) by (destruct n; [cbn in Hlt; lia|lia]).
    destruct (IH v ltac:(lia) ltac:(lia)) as (l & H1 & H2). exists l. split; [exact H1|lia].
  - exists (fixed b (S n) v). destruct (fixed_spec (S n) v Hv) as [A B]. split; [|rewrite fixed_length; lia].
    split; [exact A|]. split; [exact B|]. right. eexists _, _. split; [reflexivity|].
    pose proof (bpow n). assert (1 <= v / b ^ Z.of_nat n) by (apply Z.div_le_lower_bound; lia). lia.
Qed.
Lemma numeral_exists v : 0 <= v -> exists l, numeral b v l.
Proof using Hb.
  intros Hv. destruct (numeral_exists_n (S (Z.to_nat v)) v) as (l & H & _); [|lia|eauto].
  split; [exact Hv|]. rewrite Nat2Z.inj_succ, Z2Nat.id by exact Hv.
  pose proof (Z.pow_gt_lin_r b (Z.succ v) Hb ltac:(lia)). lia.
Qed.
Lemma numeral_pos_hd v l : numeral b v l -> 0 < v -> exists d r, l = d :: r /\ d <> 0.
Proof using. intros (_ & Hv & [-> |H]) Hp; [cbn in Hv; lia|exact H]. Qed.
Lemma numeral_hd_pos v l d r : numeral b v l -> l = d :: r -> d <> 0 -> 0 < v.
Proof using Hb.
  intros (Hf & Hv & _) -> Hd. inversion Hf as [|? ? Hd0 Hr]; subst. rewrite value_cons.
  pose proof (value_range r Hr). pose proof (bpow (length r)). nia.
Qed.
End B.

Lemma non_zero_app l1 l2 : non_zero (l1 ++ l2) = non_zero l1 ++ non_zero l2.
Proof. unfold non_zero. apply filter_app. Qed.
Lemma non_zero_repeat k : non_zero (repeat 0 k) = [].
Proof. induction k; [reflexivity|exact IHk]. Qed.
Lemma non_zero_id l : non_zero l = l <-> ~ In 0 l.
Proof.
  induction l as [|d l IH]; [cbn; tauto|]. cbn [non_zero filter In]. fold (non_zero l).
  destruct (Z.eqb_spec d 0) as [->|Hd]; cbn [negb].
  - split; [|tauto]. intros E. exfalso.
    assert (H : (length (non_zero l) <= length l)%nat) by (clear; unfold non_zero; induction l as [|x l IH]; cbn; [lia|]; destruct (negb (x =? 0)); cbn; lia).
    apply (f_equal (@length Z)) in E. cbn [length] in E. lia.
  - split; intros H.
    + injection H as H. intros [?|Hin]; [congruence|]. apply IH in H. tauto.
    + f_equal. apply IH. tauto.
Qed.
Lemma non_zero_le l : (length (non_zero l) <= length l)%nat.
Proof. unfold non_zero; induction l as [|x l IH]; cbn; [lia|]; destruct (negb (x =? 0)); cbn; lia. Qed.
