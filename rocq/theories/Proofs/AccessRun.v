From Verif.Common Require Import Base Lemmas Lists.
From Verif.Model Require Import CircularExt.
From Verif.Spec Require Import AccessSpec AccessRunSpec.
From Verif.Proofs Require Import CircularExt.

Section Access.
Context {T : Type}.
Variables (W : Z) (mix : T -> T -> T) (zero : T).
Lemma tab_ext n (f g : Z -> option T) : (forall i, f i = g i) -> ztab n f = ztab n g.
Proof using. intros H. unfold ztab. apply map_ext. intros a. apply H. Qed.
Lemma fwd (s : acc T) n : acc_ok W s -> 0 <= n -> exists s' ds, acc_read W s n = Ok (s', ds, a_sz s <=? a_rd s + n) /\ reads_block 1 s s' n ds.
Proof using.
  clear mix zero. intros HI Hn. destruct (read_ok W s n HI Hn) as (ds & E & H). do 2 eexists. split; [exact E|]. split; [do 2 f_equal; lia|]. rewrite H. apply tab_ext. intros i. do 2 f_equal; lia.
Qed.
Lemma bwd (s : acc T) n : acc_ok W s -> 0 <= n -> exists s' ds, acc_read_reverse W s n = Ok (s', ds, a_rd s - n <? 0) /\ reads_block (-1) s s' n ds.
Proof using.
  clear mix zero. intros HI Hn. destruct (read_reverse_ok W s n HI Hn) as (ds & E & H). do 2 eexists. split; [exact E|]. split; [do 2 f_equal; lia|]. rewrite H. apply tab_ext. intros i. do 2 f_equal; lia.
Qed.
Lemma step_rel (s : acc T) o : acc_ok W s -> op_pos_ok (a_sz s) o ->
  exists s' r, acc_step W mix zero s o = Ok (s', r) /\ acc_rel mix zero s o r s' /\ acc_ok W s' /\ a_sz s' = a_sz s.
Proof using.
  intros HI HO. destruct (step_safe W mix zero s o HI HO) as (s' & r & E & H1 & H2). exists s', r. split; [exact E|]. split; [|auto]. clear H1 H2. pose proof HI as (Hs & Hz & Hr & Hw).
  destruct o as [n|n|d|d|n m|n m|d m| |p|p| |]; cbn [acc_step op_pos_ok] in *; unfold acc_rel.
  - destruct (fwd s n HI HO) as (s1 & ds & F & H). rewrite F in E. cbn [bind] in E. injection E as <- <-. eauto.
  - destruct (bwd s n HI HO) as (s1 & ds & F & H). rewrite F in E. cbn [bind] in E. injection E as <- <-. eauto.
  - destruct (write_ok W mix s d HI) as (s1 & F & H). rewrite F in E. cbn [bind] in E. injection E as <- <-. eauto.
  - destruct (write_reverse_ok W mix s d HI) as (s1 & F & H). rewrite F in E. cbn [bind] in E. injection E as <- <-. eauto.
  - destruct (acc_read_check W s n m) as [[[s1 ds] b]|k|] eqn:F; cbn [bind] in E; [|discriminate E..]. injection E as <- <-. exists ds, b. split; [reflexivity|]. split.
    + destruct (fwd s n HI HO) as (s2 & ds2 & G & H). unfold acc_read_check in F. rewrite G in F. cbn [bind] in F. injection F as <- <- <-. exact H.
    + intros Hn Hm. destruct (read_check_ok W s n m HI ltac:(lia) Hm) as (s2 & ds2 & b2 & G & H). rewrite F in G. injection G as <- <- <-. rewrite H. unfold passes. rewrite (Z.mod_small m) by lia. split; intros (i & Hi & Ei); exists i; (split; [exact Hi|]); rewrite <- Ei; f_equal; lia.
  - destruct (acc_read_reverse_check W s n m) as [[[s1 ds] b]|k|] eqn:F; cbn [bind] in E; [|discriminate E..]. injection E as <- <-. exists ds, b. split; [reflexivity|]. split.
    + destruct (bwd s n HI HO) as (s2 & ds2 & G & H). unfold acc_read_reverse_check in F. rewrite G in F. cbn [bind] in F. injection F as <- <- <-. exact H.
    + intros Hn Hm. destruct (read_reverse_check_ok W s n m HI ltac:(lia) Hm) as (s2 & ds2 & b2 & G & H). rewrite F in G. injection G as <- <- <-. rewrite H. unfold passes. split; intros (i & Hi & Ei); exists i; (split; [exact Hi|]); rewrite <- Ei; f_equal; lia.
  - destruct (acc_write_check W mix s d m) as [[s1 b]|k|] eqn:F; cbn [bind] in E; [|discriminate E..]. injection E as <- <-. exists b. split; [reflexivity|]. split.
    + destruct (write_ok W mix s d HI) as (s2 & G & H). unfold acc_write_check in F. rewrite G in F. cbn [bind] in F. injection F as <- <-. exact H.
    + intros Hn Hm. destruct (write_check_ok W mix s d m HI Hn Hm) as (s2 & b2 & G & H). rewrite F in G. injection G as <- <-. rewrite H. unfold passes. split; intros (i & Hi & Ei); exists i; (split; [exact Hi|]); rewrite <- Ei; f_equal; lia.
  - destruct (clear_ok W zero s HI) as (s1 & F & E1 & E2 & E3 & E4). rewrite F in E. cbn [bind] in E. injection E as <- <-. split; [reflexivity|]. destruct s1; cbn in *. congruence.
  - injection E as <- <-. split; [reflexivity|]. unfold acc_set_rd. rewrite word_small by lia. reflexivity.
  - injection E as <- <-. split; [reflexivity|]. unfold acc_set_wr. rewrite word_small by lia. reflexivity.
  - injection E as <- <-. auto.
  - injection E as <- <-. auto.
Qed.
Theorem every_history ops : forall s : acc T, acc_ok W s -> Forall (op_pos_ok (a_sz s)) ops ->
  exists s' outs, run (acc_step W mix zero) s ops = Ok (s', outs) /\ rel_run (acc_rel mix zero) s ops outs s'.
Proof using.
  induction ops as [|o ops IH]; intros s HI HF; cbn [run].
  - do 2 eexists; split; [reflexivity|]. cbn. auto.
  - inversion HF as [|? ? Ho HF']; subst. destruct (step_rel s o HI Ho) as (s1 & r & -> & HR & HI1 & E1). cbn [bind].
    rewrite <- E1 in HF'. destruct (IH s1 HI1 HF') as (s2 & rs & -> & H2). cbn [bind]. do 2 eexists; split; [reflexivity|]. cbn. eauto.
Qed.
End Access.
