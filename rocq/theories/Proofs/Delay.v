From Verif.Common Require Import Base Lemmas Lists.
From Verif.Spec Require Import AccessSpec DelaySpec.
From Verif.Model Require Import CircularExt.
From Verif.Proofs Require Import CircularExt.

Lemma mod_shift a b n : 0 < n -> ((a mod n) + b) mod n = (a + b) mod n.
Proof. intros H. apply Zplus_mod_idemp_l. Qed.
Lemma mod_apart p i j n : 0 <= i < n -> 0 <= j < n -> (p + i) mod n = (p + j) mod n -> i = j.
Proof.
  intros Hi Hj E. assert (X : (i - j) mod n = 0).
  { replace (i - j) with ((p + i) - (p + j)) by lia. rewrite Zminus_mod, E, Z.sub_diag. apply Zmod_0_l. }
  apply Z.mod_divide in X; [|lia]. destruct X as [c Hc]. assert (c = 0); [|subst; lia]. assert (-1 < c) by (apply Z.mul_lt_mono_pos_r with (p := n); lia). assert (c < 1) by (apply Z.mul_lt_mono_pos_r with (p := n); lia). lia.
Qed.
Lemma map_some_inj {A} (a b : list A) : map Some a = map Some b -> a = b.
Proof. revert b. induction a as [|x a IH]; intros [|y b] H; cbn in H; try discriminate; [reflexivity|]. injection H as <- H. f_equal. auto. Qed.

Section Delay.
Context {T : Type}.
Variables (W : Z) (mix : T -> T -> T) (zero : T).
Hypothesis Hmix : forall d o, mix d o = d.
Notation step := (acc_step W mix zero).
(* [q] waits between the positions *)
Definition waits (s : acc T) (q : list T) : Prop :=
  acc_ok W s /\ zlen q <= a_sz s /\ a_wr s = (a_rd s + zlen q) mod a_sz s /\ (forall i, 0 <= i < zlen q -> znth (a_buf s) ((a_rd s + i) mod a_sz s) = znth q i).

Lemma waits_write s q d : waits s q -> zlen q + zlen d <= a_sz s -> exists s' b, step s (AWrite d) = Ok (s', AFlag b) /\ a_sz s' = a_sz s /\ waits s' (q ++ d).
Proof using All.
  intros (Hs & Hq & Hw & Hc) Hd. destruct (write_ok W mix s d Hs) as (s' & E & (B1 & B2 & B3 & B4 & _ & B5 & B6)). exists s'. eexists. cbn [acc_step]. rewrite E. cbn [bind].
  split; [reflexivity|]. split; [exact B2|]. destruct Hs as (S1 & S2 & S3 & S4). pose proof (zlen_nonneg q). pose proof (zlen_nonneg d).
  unfold waits, acc_ok. rewrite B1, B2, B3, B4, zlen_app, Z.mul_1_l. rewrite Hw, mod_shift by lia. pose proof (Z.mod_pos_bound (a_rd s + zlen q + zlen d) (a_sz s) ltac:(lia)). splits; auto; try lia.
  - f_equal. lia.
  - intros i Hi. rewrite znth_app. destruct (Z.ltb_spec i (zlen q)).
    + rewrite <- Hc by lia. apply B6; [apply Z.mod_pos_bound; lia|]. intros j Hj Ej. rewrite Z.mul_1_l, Hw, mod_shift in Ej by lia. rewrite <- Z.add_assoc in Ej. apply mod_apart in Ej; lia.
    + destruct (znth_some d (i - zlen q)) as [x Hx]; [lia|]. rewrite Hx. specialize (B5 Hmix (i - zlen q) x Hx ltac:(lia)). rewrite Z.mul_1_l, Hw, mod_shift in B5 by lia. rewrite <- B5. do 2 f_equal. lia.
Qed.
Lemma waits_read s q k : waits s q -> 0 <= k <= zlen q -> exists s' b, step s (ARead k) = Ok (s', AData (firstn (Z.to_nat k) q) b) /\ a_sz s' = a_sz s /\ waits s' (skipn (Z.to_nat k) q).
Proof using All.
  intros (Hs & Hq & Hw & Hc) Hk. destruct (read_ok W s k Hs ltac:(lia)) as (ds & E & Hd). exists (Acc (a_buf s) (a_sz s) ((a_rd s + k) mod a_sz s) (a_wr s)). eexists. cbn [acc_step]. rewrite E. cbn [bind].
  assert (X : ds = firstn (Z.to_nat k) q).
  { apply map_some_inj. rewrite Hd. apply znth_opt_ext. intros i Hi. rewrite znth_map, znth_firstn_if.
    destruct (Z.ltb_spec i k).
    - rewrite znth_ztab by lia. rewrite Hc by lia. destruct (znth_some q i) as [x Hx]; [lia|]. rewrite Hx. reflexivity.
    - apply znth_none. rewrite zlen_ztab by lia. lia. }
  rewrite X. split; [reflexivity|]. split; [reflexivity|]. destruct Hs as (S1 & S2 & S3 & S4). pose proof (Z.mod_pos_bound (a_rd s + k) (a_sz s) ltac:(lia)).
  unfold waits, acc_ok. cbn [a_buf a_sz a_rd a_wr]. rewrite zlen_skipn_max by lia. splits; auto; try lia.
  - rewrite mod_shift by lia. rewrite Hw. f_equal. lia.
  - intros i Hi. rewrite mod_shift by lia. rewrite znth_skipn by lia. rewrite <- Hc by lia. do 2 f_equal. lia.
Qed.
Lemma waits_run : forall ops s q, waits s q -> in_step (a_sz s) (zlen q) ops ->
  exists s' outs rest, run step s ops = Ok (s', outs) /\ waits s' rest /\ a_sz s' = a_sz s /\ heard outs ++ rest = q ++ written ops.
Proof using All.
  induction ops as [|o ops IH]; intros s q Hs Ho; cbn [run in_step] in *.
  - exists s, [], q. cbn. rewrite app_nil_r. auto.
  - destruct o; try contradiction; destruct Ho as [H1 H2].
    + destruct (waits_read s q n Hs H1) as (s1 & b & E & Hz & Hw). destruct (IH s1 _ Hw) as (s' & outs & rest & Er & Hr & Hz' & Hh); [rewrite Hz, zlen_skipn_max by lia; replace (Z.max 0 (zlen q - n)) with (zlen q - n) by lia; exact H2|].
      exists s', (AData (firstn (Z.to_nat n) q) b :: outs), rest. rewrite E. cbn [bind]. rewrite Er. split; [reflexivity|]. split; [exact Hr|]. split; [congruence|].
      unfold heard, written in *. cbn [flat_map]. cbn [app]. rewrite <- app_assoc, Hh, app_assoc, firstn_skipn. reflexivity.
    + destruct (waits_write s q d Hs H1) as (s1 & b & E & Hz & Hw). destruct (IH s1 _ Hw) as (s' & outs & rest & Er & Hr & Hz' & Hh); [rewrite Hz, zlen_app; exact H2|].
      exists s', (AFlag b :: outs), rest. rewrite E. cbn [bind]. rewrite Er. split; [reflexivity|]. split; [exact Hr|]. split; [congruence|].
      unfold heard, written in *. cbn [flat_map]. cbn [app]. rewrite Hh, <- app_assoc. reflexivity.
Qed.
Lemma waits_init buf D : 0 <= D < zlen buf -> zlen buf < 2 ^ W -> waits (acc_init buf D) (firstn (Z.to_nat D) buf).
Proof using All.
  intros H HW. unfold waits, acc_ok, acc_init. cbn [a_buf a_sz a_rd a_wr]. rewrite zlen_firstn by lia. splits; try lia.
  - rewrite Z.mod_small; lia.
  - intros i Hi. rewrite Z.mod_small by lia. rewrite znth_firstn_if. replace (i <? D) with true by lia. reflexivity.
Qed.
Theorem delay_line buf D ops : 0 <= D < zlen buf -> zlen buf < 2 ^ W -> in_step (zlen buf) D ops ->
  exists s' outs rest, run step (acc_init buf D) ops = Ok (s', outs) /\ heard outs ++ rest = firstn (Z.to_nat D) buf ++ written ops.
Proof using All.
  intros H HW Ho. destruct (waits_run ops _ _ (waits_init buf D H HW)) as (s' & outs & rest & E & _ & _ & Hh); [rewrite zlen_firstn by lia; exact Ho|]. eauto.
Qed.
Lemma echo_in_step n p : 0 <= p -> forall blocks, Forall (fun b : list T => p + zlen b <= n) blocks -> in_step n p (echo blocks).
Proof using All.
  intros Hp. induction blocks as [|b bs IH]; intros HF; cbn [echo flat_map app in_step]; [exact I|]. inversion HF; subst. pose proof (zlen_nonneg b). split; [assumption|]. split; [lia|].
  replace (p + zlen b - zlen b) with p by lia. apply IH. assumption.
Qed.
Lemma echo_written : forall blocks, written (@echo T blocks) = concat blocks.
Proof using All. induction blocks as [|b bs IH]; cbn; [reflexivity|]. unfold written, echo in *. rewrite IH. reflexivity. Qed.
Lemma run_heard : forall ops s s' outs, Forall (fun o : aop T => match o with AWrite _ | ARead _ => True | _ => False end) ops -> run step s ops = Ok (s', outs) -> acc_ok W s -> Forall (op_pos_ok (a_sz s)) ops ->
  zlen (heard outs) = fold_right (fun o n => match o with ARead k => k + n | _ => n end) 0 ops.
Proof using All.
  induction ops as [|o ops IH]; intros s s' outs HF E Hs Hp; cbn [run] in E; [injection E as <- <-; reflexivity|].
  inversion HF; subst. inversion Hp; subst. destruct o; try contradiction; cbn [acc_step] in E; cbn [op_pos_ok] in *.
  - destruct (read_ok W s n Hs ltac:(lia)) as (ds & Er & Hd). rewrite Er in E. cbn [bind] in E. destruct (run step _ ops) as [[s1 o1]| |] eqn:E1; cbn [bind] in E; [|discriminate E..]. injection E as <- <-.
    assert (X : zlen ds = n) by (rewrite <- (zlen_map Some ds), Hd; apply zlen_ztab; lia).
    apply IH in E1; auto; [|destruct Hs as (? & ? & ? & ?); unfold acc_ok; cbn; pose proof (Z.mod_pos_bound (a_rd s + n) (a_sz s) ltac:(lia)); splits; auto; lia].
    unfold heard in *. cbn [flat_map fold_right]. rewrite zlen_app, X, E1. reflexivity.
  - destruct (write_ok W mix s d Hs) as (sw & Ew & (B1 & B2 & B3 & B4 & _)). rewrite Ew in E. cbn [bind] in E. destruct (run step sw ops) as [[s1 o1]| |] eqn:E1; cbn [bind] in E; [|discriminate E..]. injection E as <- <-.
    assert (Hsw : acc_ok W sw) by (destruct Hs as (? & ? & ? & ?); unfold acc_ok; rewrite B1, B2, B3, B4; pose proof (Z.mod_pos_bound (a_wr s + 1 * zlen d) (a_sz s) ltac:(lia)); splits; auto; lia).
    apply IH in E1; [|assumption|exact Hsw|rewrite B2; assumption].
    unfold heard in *. cbn [flat_map fold_right app]. exact E1.
Qed.
Theorem echo_delay buf D blocks : 0 <= D < zlen buf -> zlen buf < 2 ^ W -> Forall (fun b => D + zlen b <= zlen buf) blocks ->
  exists s' outs, run step (acc_init buf D) (echo blocks) = Ok (s', outs) /\
    heard outs = firstn (length (concat blocks)) (firstn (Z.to_nat D) buf ++ concat blocks).
Proof using All.
  intros H HW HF. destruct (delay_line buf D (echo blocks) H HW (echo_in_step _ _ (proj1 H) _ HF)) as (s' & outs & rest & E & Hh). rewrite echo_written in Hh. exists s', outs. split; [exact E|].
  assert (L : length (heard outs) = length (concat blocks)).
  { apply Nat2Z.inj. change (zlen (heard outs) = zlen (concat blocks)). erewrite run_heard; [| |exact E|exact (proj1 (waits_init buf D H HW))|].
    - clear. induction blocks as [|b bs IH]; cbn; [reflexivity|]. unfold echo in IH. rewrite IH, zlen_app. reflexivity.
    - clear. induction blocks as [|b bs IH]; cbn; [constructor|]. repeat constructor. exact IH.
    - clear. induction blocks as [|b bs IH]; cbn; [constructor|]. constructor; [exact I|]. constructor; [cbn; apply zlen_nonneg|exact IH]. }
  rewrite <- L, <- Hh, firstn_app, Nat.sub_diag, firstn_all2 by lia. cbn. rewrite app_nil_r. reflexivity.
Qed.
Lemma write_loop_app x : forall d s w, write_loop W mix (d ++ [x]) s w = (let* (s2, w2) := write_loop W mix d s w in write_loop W mix [x] s2 w2).
Proof using All.
  induction d as [|a d IH]; intros s w; cbn [app write_loop]; [reflexivity|].
  destruct (rd (a_buf s) (a_wr s)); cbn [bind]; [|reflexivity..]. destruct (wr _ _ _); cbn [bind]; [|reflexivity..]. destruct (word W (a_wr s + 1) >=? a_sz s); apply IH.
Qed.
(* one element too many: the oldest waiting element is replaced by the newest *)
Theorem overtaken buf D ops x d : 0 <= D < zlen buf -> zlen buf < 2 ^ W -> in_step (zlen buf) D ops ->
  forall s outs y rest, run step (acc_init buf D) ops = Ok (s, outs) -> heard outs ++ y :: rest = firstn (Z.to_nat D) buf ++ written ops -> zlen (y :: rest) = zlen buf - zlen d ->
  exists s' b b', run step s [AWrite (d ++ [x]); ARead 1] = Ok (s', [AFlag b; AData [x] b']).
Proof using All.
  intros H HW Ho s outs y rest E Hh Hl. destruct (waits_run ops _ _ (waits_init buf D H HW)) as (s1 & o1 & r1 & E1 & Hw & Hz & Hh1); [rewrite zlen_firstn by lia; exact Ho|].
  rewrite E in E1. injection E1 as <- <-. rewrite <- Hh in Hh1. apply app_inv_head in Hh1. subst r1. cbn [acc_init a_sz] in Hz.
  destruct (waits_write s _ d Hw ltac:(lia)) as (s2 & b2 & E2 & Hz2 & Hw2).
  destruct Hw2 as (Hs2 & Hq2 & Hwr & Hc2). assert (P : a_wr s2 = a_rd s2).
  { rewrite Hwr. rewrite zlen_app. replace (a_rd s2 + (zlen (y :: rest) + zlen d)) with (a_rd s2 + 1 * a_sz s2) by lia. rewrite Z_mod_plus_full. apply Z.mod_small. apply Hs2. }
  destruct (write_ok W mix s (d ++ [x]) (proj1 Hw)) as (s' & Ew & _). 
  assert (Sp : acc_write W mix s (d ++ [x]) = (let* (s2, w) := acc_write W mix s d in write_loop W mix [x] s2 w)).
  { apply write_loop_app. }
  cbn [acc_step] in E2. destruct (acc_write W mix s d) as [[s2' w2]| |] eqn:Ed; cbn [bind] in E2; [|discriminate E2..]. injection E2 as -> <-. cbn [bind] in Sp.
  destruct (Hs2) as (S1 & S2 & S3 & S4). destruct (znth_some (a_buf s2) (a_wr s2)) as [old Hold]; [lia|].
  cbn [run acc_step]. rewrite Sp. cbn [write_loop]. rewrite (rd_ok _ _ _ Hold). cbn [bind]. rewrite wr_ok by lia. cbn [bind]. rewrite Hmix.
  set (b3 := zupd (a_buf s2) (a_wr s2) x). destruct (word W (a_wr s2 + 1) >=? a_sz s2); cbn [bind]; unfold acc_read; cbn [Z.to_nat Pos.to_nat Pos.iter_op read_loop a_buf a_rd a_sz a_wr Nat.add].
  all: change (Pos.to_nat 1) with 1%nat; cbn [read_loop a_buf a_rd a_sz a_wr]; rewrite (rd_ok b3 (a_rd s2) x) by (unfold b3; rewrite <- P; apply znth_zupd_eq; lia); cbn [bind].
  all: destruct (word W (a_rd s2 + 1) >=? a_sz s2); cbn [bind]; do 3 eexists; reflexivity.
Qed.
End Delay.
