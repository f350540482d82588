(* CircularBufferAccess: one side of an interrupt reads and the other writes. *)
From Verif.Common Require Import Base Lemmas Lists.
From Verif.Model Require Import CircularExt Irq AccessIrq.
From Verif.Spec Require Import AccessSpec AccessIrqSpec.
From Verif.Proofs Require Import CircularExt Irq Readers.

Lemma merged_app {A} (a b t a' b' t' : list A) : merged a b t -> merged a' b' t' -> merged (a ++ a') (b ++ b') (t ++ t').
Proof. intros H H'. induction H; cbn; [exact H'|constructor; assumption..]. Qed.
Lemma merged_others {A} (b : list A) : merged [] b b.
Proof. induction b; constructor; assumption. Qed.

Section Reach.
Context {S O R : Type} (step : S -> O -> outcome (S * R)).
(* from [p] in [s] the program comes to [p'] in [s'], the handler having got [q] *)
Definition reach (p : prog S R) (s : S) (gaps : list (list O)) (p' : prog S R) (s' : S) (gaps' : list (list O)) (q : list R) : Prop :=
  iexec step p s gaps = (let* (x, q2) := iexec step p' s' gaps' in Ok (x, q ++ q2)).
Lemma reach_refl p s gaps : reach p s gaps p s gaps [].
Proof using. unfold reach. destruct (iexec step p s gaps) as [[x q]|k|]; reflexivity. Qed.
Lemma reach_trans p s g p1 s1 g1 q1 p2 s2 g2 q2 : reach p s g p1 s1 g1 q1 -> reach p1 s1 g1 p2 s2 g2 q2 -> reach p s g p2 s2 g2 (q1 ++ q2).
Proof using.
  unfold reach. intros -> ->. destruct (iexec step p2 s2 g2) as [[x q]|k|]; cbn [bind]; [|reflexivity..]. rewrite app_assoc. reflexivity.
Qed.
Lemma reach_acc f s gaps s1 q1 s2 p : run step s (hd [] gaps) = Ok (s1, q1) -> f s1 = Ok (s2, p) -> reach (Acc f) s gaps p s2 (tl gaps) q1.
Proof using. unfold reach. intros E1 E2. cbn [iexec]. rewrite E1. cbn [bind]. rewrite E2. reflexivity. Qed.
End Reach.

Section Access.
Context {T : Type}.
Variables (W : Z) (mix : T -> T -> T) (zero : T).
Notation step := (acc_step W mix zero).
Definition with_rd (r : Z) (s : acc T) : acc T := CircularExt.Acc (a_buf s) (a_sz s) r (a_wr s).
Definition with_wr (p : Z) (s : acc T) : acc T := CircularExt.Acc (a_buf s) (a_sz s) (a_rd s) p.
Lemma with_rd_same s : with_rd (a_rd s) s = s.
Proof using. destruct s; reflexivity. Qed.
Lemma with_wr_same s : with_wr (a_wr s) s = s.
Proof using. destruct s; reflexivity. Qed.

(* the writing side takes no notice of the read position *)
Lemma write_loop_rd r data : forall s w, write_loop W mix data (with_rd r s) w =
  (let* (s', b) := write_loop W mix data s w in Ok (with_rd r s', b)).
Proof using.
  clear zero. induction data as [|d ds IH]; intros s w; [reflexivity|]. cbn [write_loop with_rd a_buf a_sz a_rd a_wr].
  destruct (rd (a_buf s) (a_wr s)) as [old|k|]; cbn [bind]; [|reflexivity..]. destruct (wr (a_buf s) (a_wr s) (mix d old)) as [b|k|]; cbn [bind]; [|reflexivity..].
  destruct (word W (a_wr s + 1) >=? a_sz s); exact (IH (CircularExt.Acc b (a_sz s) (a_rd s) _) _).
Qed.
Lemma write_reverse_loop_rd r data : forall s w, write_reverse_loop W mix data (with_rd r s) w =
  (let* (s', b) := write_reverse_loop W mix data s w in Ok (with_rd r s', b)).
Proof using.
  clear zero. induction data as [|d ds IH]; intros s w; [reflexivity|]. cbn [write_reverse_loop with_rd a_buf a_sz a_rd a_wr].
  destruct (rd (a_buf s) (a_wr s)) as [old|k|]; cbn [bind]; [|reflexivity..]. destruct (wr (a_buf s) (a_wr s) (mix d old)) as [b|k|]; cbn [bind]; [|reflexivity..].
  destruct (word W (a_wr s - 1) >=? a_sz s); exact (IH (CircularExt.Acc b (a_sz s) (a_rd s) _) _).
Qed.
Lemma read_loop_wr p n : forall s w, read_loop W n (with_wr p s) w = (let* (s', ds, b) := read_loop W n s w in Ok (with_wr p s', ds, b)).
Proof using.
  clear mix zero. induction n as [|n IH]; intros s w; [reflexivity|]. cbn [read_loop with_wr a_buf a_sz a_rd a_wr].
  destruct (rd (a_buf s) (a_rd s)) as [d|k|]; cbn [bind]; [|reflexivity..].
  destruct (word W (a_rd s + 1) >=? a_sz s);
    (match goal with |- context [read_loop W n (CircularExt.Acc ?b ?z ?r p) ?w] => change (CircularExt.Acc b z r p) with (with_wr p (CircularExt.Acc b z r (a_wr s))); rewrite (IH (CircularExt.Acc b z r (a_wr s)) w) end);
    (destruct (read_loop W n _ _) as [[[s' ds] b]|k|]; reflexivity).
Qed.
Lemma read_reverse_loop_wr p n : forall s w, read_reverse_loop W n (with_wr p s) w = (let* (s', ds, b) := read_reverse_loop W n s w in Ok (with_wr p s', ds, b)).
Proof using.
  clear mix zero. induction n as [|n IH]; intros s w; [reflexivity|]. cbn [read_reverse_loop with_wr a_buf a_sz a_rd a_wr].
  destruct (rd (a_buf s) (a_rd s)) as [d|k|]; cbn [bind]; [|reflexivity..].
  destruct (word W (a_rd s - 1) >=? a_sz s);
    (match goal with |- context [read_reverse_loop W n (CircularExt.Acc ?b ?z ?r p) ?w] => change (CircularExt.Acc b z r p) with (with_wr p (CircularExt.Acc b z r (a_wr s))); rewrite (IH (CircularExt.Acc b z r (a_wr s)) w) end);
    (destruct (read_reverse_loop W n _ _) as [[[s' ds] b]|k|]; reflexivity).
Qed.
Lemma write_side_rd r s o : writing_side o -> step (with_rd r s) o = (let* (s', q) := step s o in Ok (with_rd r s', q)).
Proof using.
  intros H. destruct o; try contradiction H; cbn [acc_step].
  - unfold acc_write. rewrite write_loop_rd. destruct (write_loop W mix d s false) as [[s' b]|k|]; reflexivity.
  - unfold acc_write_reverse. rewrite write_reverse_loop_rd. destruct (write_reverse_loop W mix d s false) as [[s' b]|k|]; reflexivity.
  - unfold acc_write_check, acc_write. rewrite write_loop_rd. destruct (write_loop W mix d s false) as [[s' b]|k|]; reflexivity.
  - unfold acc_clear. cbn [with_rd a_buf a_sz]. destruct (clear_loop zero (Z.to_nat (a_sz s)) 0 (a_buf s)) as [b|k|]; reflexivity.
  - reflexivity.
  - reflexivity.
Qed.
Lemma read_side_wr p s o : reading_side o -> step (with_wr p s) o = (let* (s', q) := step s o in Ok (with_wr p s', q)).
Proof using.
  intros H. destruct o; try contradiction H; cbn [acc_step].
  - unfold acc_read. rewrite read_loop_wr. destruct (read_loop W _ s false) as [[[s' ds] b]|k|]; reflexivity.
  - unfold acc_read_reverse. rewrite read_reverse_loop_wr. destruct (read_reverse_loop W _ s false) as [[[s' ds] b]|k|]; reflexivity.
  - unfold acc_read_check, acc_read. rewrite read_loop_wr. destruct (read_loop W _ s false) as [[[s' ds] b]|k|]; reflexivity.
  - unfold acc_read_reverse_check, acc_read_reverse. rewrite read_reverse_loop_wr. destruct (read_reverse_loop W _ s false) as [[[s' ds] b]|k|]; reflexivity.
  - reflexivity.
  - reflexivity.
Qed.

(* the handler's calls, whatever the position of the other side *)
Definition handles (side : aop T -> Prop) (sz : Z) (o : aop T) : Prop := side o /\ op_pos_ok sz o.
Lemma chunk_rd ops : forall t, acc_ok W t -> Forall (handles writing_side (a_sz t)) ops ->
  exists t1 oth, map fst oth = ops /\ run step t ops = Ok (t1, map snd oth) /\ (forall r, run step (with_rd r t) ops = Ok (with_rd r t1, map snd oth)) /\
    acc_ok W t1 /\ a_rd t1 = a_rd t /\ a_sz t1 = a_sz t.
Proof using.
  induction ops as [|o ops IH]; intros t HI HF; [exists t, []; cbn; auto 10|]. inversion HF as [|? ? [Ho Hp] HF']; subst.
  destruct (step_safe W mix zero t o HI Hp) as (t1 & q & E & HI1 & Ez). rewrite <- Ez in HF'.
  assert (Er : a_rd t1 = a_rd t). { pose proof (write_side_rd (a_rd t) t o Ho) as H. rewrite with_rd_same, E in H. cbn [bind] in H. injection H as ->. reflexivity. }
  destruct (IH t1 HI1 HF') as (t2 & oth & E1 & E2 & E3 & HI2 & Er2 & Ez2). exists t2, ((o, q) :: oth). cbn [map fst snd run].
  rewrite E. cbn [bind]. rewrite E2. cbn [bind]. splits; try congruence. intros r. rewrite (write_side_rd r t o Ho), E. cbn [bind]. rewrite E3. reflexivity.
Qed.
Lemma read_keeps s o s' q : reading_side o -> step s o = Ok (s', q) -> a_buf s' = a_buf s /\ a_wr s' = a_wr s.
Proof using.
  intros Ho E.
  assert (R1 : forall n (s : acc T) w s' ds b, read_loop W n s w = Ok (s', ds, b) -> a_buf s' = a_buf s /\ a_wr s' = a_wr s).
  { clear. induction n as [|n IH]; intros s w s' ds b H; cbn [read_loop] in H; [injection H as <- _ _; auto|].
    destruct (rd (a_buf s) (a_rd s)) as [d|k|]; cbn [bind] in H; [|discriminate H..].
    destruct (word W (a_rd s + 1) >=? a_sz s); (destruct (read_loop W n _ _) as [[[s1 ds1] b1]|k|] eqn:E; cbn [bind] in H; [|discriminate H..]; injection H as <- _ _; apply (IH _ _ _ _ _ E)). }
  assert (R2 : forall n (s : acc T) w s' ds b, read_reverse_loop W n s w = Ok (s', ds, b) -> a_buf s' = a_buf s /\ a_wr s' = a_wr s).
  { clear. induction n as [|n IH]; intros s w s' ds b H; cbn [read_reverse_loop] in H; [injection H as <- _ _; auto|].
    destruct (rd (a_buf s) (a_rd s)) as [d|k|]; cbn [bind] in H; [|discriminate H..].
    destruct (word W (a_rd s - 1) >=? a_sz s); (destruct (read_reverse_loop W n _ _) as [[[s1 ds1] b1]|k|] eqn:E; cbn [bind] in H; [|discriminate H..]; injection H as <- _ _; apply (IH _ _ _ _ _ E)). }
  destruct o; try contradiction Ho; cbn [acc_step] in E.
  - unfold acc_read in E. destruct (read_loop W _ s false) as [[[s1 ds] b]|k|] eqn:E1; cbn [bind] in E; [|discriminate E..]. injection E as <- _. eapply R1; eauto.
  - unfold acc_read_reverse in E. destruct (read_reverse_loop W _ s false) as [[[s1 ds] b]|k|] eqn:E1; cbn [bind] in E; [|discriminate E..]. injection E as <- _. eapply R2; eauto.
  - unfold acc_read_check, acc_read in E. destruct (read_loop W _ s false) as [[[s1 ds] b]|k|] eqn:E1; cbn [bind] in E; [|discriminate E..]. injection E as <- _. eapply R1; eauto.
  - unfold acc_read_reverse_check, acc_read_reverse in E. destruct (read_reverse_loop W _ s false) as [[[s1 ds] b]|k|] eqn:E1; cbn [bind] in E; [|discriminate E..]. injection E as <- _. eapply R2; eauto.
  - injection E as <- _. auto.
  - injection E as <- _. auto.
Qed.
Lemma chunk_wr ops : forall t, acc_ok W t -> Forall (handles reading_side (a_sz t)) ops ->
  exists t1 oth, map fst oth = ops /\ run step t ops = Ok (t1, map snd oth) /\ (forall p, run step (with_wr p t) ops = Ok (with_wr p t1, map snd oth)) /\
    acc_ok W t1 /\ a_wr t1 = a_wr t /\ a_sz t1 = a_sz t /\ a_buf t1 = a_buf t.
Proof using.
  induction ops as [|o ops IH]; intros t HI HF; [exists t, []; cbn; auto 10|]. inversion HF as [|? ? [Ho Hp] HF']; subst.
  destruct (step_safe W mix zero t o HI Hp) as (t1 & q & E & HI1 & Ez). rewrite <- Ez in HF'. destruct (read_keeps _ _ _ _ Ho E) as [Eb Ew].
  destruct (IH t1 HI1 HF') as (t2 & oth & E1 & E2 & E3 & HI2 & Ew2 & Ez2 & Eb2). exists t2, ((o, q) :: oth). cbn [map fst snd run].
  rewrite E. cbn [bind]. rewrite E2. cbn [bind]. splits; try congruence. intros p. rewrite (read_side_wr p t o Ho), E. cbn [bind]. rewrite E3. reflexivity.
Qed.

(* one access of the main program *)
Lemma go_rd f r t gaps : acc_ok W t -> Forall (handles writing_side (a_sz t)) (concat gaps) ->
  exists t1 oth, map fst oth = hd [] gaps /\ run step t (map fst oth) = Ok (t1, map snd oth) /\
    acc_ok W t1 /\ a_rd t1 = a_rd t /\ a_sz t1 = a_sz t /\ Forall (handles writing_side (a_sz t1)) (concat (tl gaps)) /\
    (forall s2 p, f (with_rd r t1) = Ok (s2, p) -> reach step (Acc f) (with_rd r t) gaps p s2 (tl gaps) (map snd oth)).
Proof using.
  intros HI HF. destruct (split_gaps _ _ HF) as [H1 H2]. destruct (chunk_rd _ t HI H1) as (t1 & oth & E1 & E2 & E3 & HI1 & Er & Ez).
  exists t1, oth. rewrite E1, Ez. splits; auto. intros s2 p E. eapply reach_acc; [apply E3|exact E].
Qed.
Lemma go_wr f p0 t gaps : acc_ok W t -> Forall (handles reading_side (a_sz t)) (concat gaps) ->
  exists t1 oth, map fst oth = hd [] gaps /\ run step t (map fst oth) = Ok (t1, map snd oth) /\
    acc_ok W t1 /\ a_wr t1 = a_wr t /\ a_sz t1 = a_sz t /\ a_buf t1 = a_buf t /\ Forall (handles reading_side (a_sz t1)) (concat (tl gaps)) /\
    (forall s2 p, f (with_wr p0 t1) = Ok (s2, p) -> reach step (Acc f) (with_wr p0 t) gaps p s2 (tl gaps) (map snd oth)).
Proof using.
  intros HI HF. destruct (split_gaps _ _ HF) as [H1 H2]. destruct (chunk_wr _ t HI H1) as (t1 & oth & E1 & E2 & E3 & HI1 & Ew & Ez & Eb).
  exists t1, oth. rewrite E1, Ez. splits; auto. intros s2 p E. eapply reach_acc; [apply E3|exact E].
Qed.

(* progress of the main program through [p] to [p'] while [own] of its elements are transferred *)
Definition passes (side : aop T -> Prop) (p : prog (acc T) (aout T)) t gaps p' t' gaps' (own : list (aop T * aout T)) : Prop :=
  exists oth tr, reach step p t gaps p' t' gaps' (map snd oth) /\ concat gaps = map fst oth ++ concat gaps' /\ merged own oth tr /\
    run step t (map fst tr) = Ok (t', map snd tr) /\ acc_ok W t' /\ a_sz t' = a_sz t /\ Forall (handles side (a_sz t')) (concat gaps').
Lemma passes_trans side p t g p1 t1 g1 o1 p2 t2 g2 o2 : passes side p t g p1 t1 g1 o1 -> passes side p1 t1 g1 p2 t2 g2 o2 -> passes side p t g p2 t2 g2 (o1 ++ o2).
Proof using.
  intros (oth & tr & R1 & C1 & M1 & E1 & H1 & Z1 & F1) (oth' & tr' & R2 & C2 & M2 & E2 & H2 & Z2 & F2). exists (oth ++ oth'), (tr ++ tr').
  rewrite !map_app. splits; try congruence; try assumption.
  - eapply reach_trans; eauto.
  - rewrite C1, C2, app_assoc. reflexivity.
  - apply merged_app; assumption.
  - eapply run_cat_ok; eauto.
Qed.

Definition next_of (up : bool) (n sz : Z) : Z := if next_pos W up n >=? sz then from_end W up sz else next_pos W up n.
Definition rd_op (up : bool) : aop T := if up then ARead 1 else AReadRev 1.
Definition loop (up : bool) := if up then read_loop (T := T) W else read_reverse_loop W.
Lemma rd_one up (t : acc T) d : znth (a_buf t) (a_rd t) = Some d ->
  step t (rd_op up) = Ok (with_rd (next_of up (a_rd t) (a_sz t)) t, AData [d] (next_pos W up (a_rd t) >=? a_sz t)).
Proof using.
  intros E. unfold rd_op. destruct up; cbn [acc_step]; unfold acc_read, acc_read_reverse, next_of, next_pos, from_end; change (Z.to_nat 1) with 1%nat; cbn [read_loop read_reverse_loop];
    rewrite (rd_ok _ _ _ E); cbn [bind]; destruct (_ >=? _); reflexivity.
Qed.
Lemma loop_step up n (s : acc T) w d : znth (a_buf s) (a_rd s) = Some d ->
  loop up (S n) s w = (let* (s', ds, b) := loop up n (with_rd (next_of up (a_rd s) (a_sz s)) s) (if next_pos W up (a_rd s) >=? a_sz s then true else w) in Ok (s', d :: ds, b)).
Proof using.
  clear. intros E. unfold loop. destruct up; cbn [read_loop read_reverse_loop]; unfold next_of, next_pos, from_end; rewrite (rd_ok _ _ _ E); cbn [bind]; destruct (_ >=? _); reflexivity.
Qed.
Lemma next_inside up n sz : 0 < sz < 2 ^ W -> 0 <= n < sz -> 0 <= next_of up n sz < sz.
Proof using.
  clear. intros Hs Hn. unfold next_of, next_pos, from_end, word. destruct (_ >=? sz) eqn:E.
  - destruct up; [lia|]. rewrite Z.mod_small; lia.
  - assert (0 <= (if up then n + 1 else n - 1) mod 2 ^ W) by (apply Z.mod_pos_bound; lia). lia.
Qed.
Lemma ok_next up t : acc_ok W t -> acc_ok W (with_rd (next_of up (a_rd t) (a_sz t)) t).
Proof using. clear. intros (H1 & H2 & H3 & H4). pose proof (next_inside up _ _ H2 H3). unfold acc_ok, with_rd; cbn. splits; lia. Qed.
Lemma stored_here (t : acc T) : acc_ok W t -> exists d, znth (a_buf t) (a_rd t) = Some d.
Proof using. clear. intros (H1 & H2 & H3 & H4). apply znth_some. lia. Qed.

(* [f] done in a quiet access *)
Lemma quiet_rd f t gaps p : acc_ok W t -> Forall (handles writing_side (a_sz t)) (concat gaps) -> (forall s, a_rd s = a_rd t -> a_sz s = a_sz t -> f s = Ok (s, p)) ->
  exists t1, passes writing_side (Acc f) t gaps p t1 (tl gaps) [] /\ a_rd t1 = a_rd t.
Proof using.
  intros HI HF Hf. destruct (go_rd f (a_rd t) t gaps HI HF) as (t1 & oth & E1 & E2 & HI1 & Er & Ez & HF1 & Hr). exists t1. split; [|assumption].
  exists oth, oth. splits; try assumption.
  - rewrite <- (with_rd_same t) at 1. apply Hr. rewrite <- Er, with_rd_same. apply Hf; assumption.
  - rewrite E1. apply concat_hd.
  - apply merged_others.
Qed.
Lemma quiet_wr f t gaps p : acc_ok W t -> Forall (handles reading_side (a_sz t)) (concat gaps) ->
  (forall s, a_wr s = a_wr t -> a_sz s = a_sz t -> a_buf s = a_buf t -> f s = Ok (s, p)) ->
  exists t1, passes reading_side (Acc f) t gaps p t1 (tl gaps) [] /\ a_wr t1 = a_wr t /\ a_buf t1 = a_buf t.
Proof using.
  intros HI HF Hf. destruct (go_wr f (a_wr t) t gaps HI HF) as (t1 & oth & E1 & E2 & HI1 & Er & Ez & Eb & HF1 & Hr). exists t1. split; [|auto].
  exists oth, oth. splits; try assumption.
  - rewrite <- (with_wr_same t) at 1. apply Hr. rewrite <- Er, with_wr_same. apply Hf; assumption.
  - rewrite E1. apply concat_hd.
  - apply merged_others.
Qed.

(* one element is read *)
Lemma read_elem up (k : T -> bool -> prog (acc T) (aout T)) t gaps : acc_ok W t -> Forall (handles writing_side (a_sz t)) (concat gaps) ->
  let w := next_pos W up (a_rd t) >=? a_sz t in
  exists d t1 rest, passes writing_side
    (load_rd (fun r _ => store_rd (next_pos W up r) (load_buf r (fun d => load_rd (fun r sz => if r >=? sz then store_rd (from_end W up sz) (k d true) else k d false)))))
    t gaps (k d w) t1 rest [(rd_op up, AData [d] w)] /\ a_rd t1 = next_of up (a_rd t) (a_sz t).
Proof using.
  intros HI HF w. set (n := next_pos W up (a_rd t)) in *. unfold load_rd, store_rd, load_buf.
  match goal with |- context [passes _ (Acc ?f) _ _ _ _ _ _] => destruct (go_rd f (a_rd t) t gaps HI HF) as (t1 & o1 & F1 & E1 & I1 & R1 & Z1 & HF1 & Hr1) end.
  rewrite with_rd_same in Hr1. specialize (Hr1 _ _ eq_refl). cbn [with_rd a_rd] in Hr1.
  match type of Hr1 with reach _ _ _ _ (Acc ?f) _ _ _ => destruct (go_rd f (a_rd t) t1 (tl gaps) I1 HF1) as (t2 & o2 & F2 & E2 & I2 & R2 & Z2 & HF2 & Hr2) end.
  specialize (Hr2 _ _ eq_refl). cbn [with_rd a_buf a_sz a_wr] in Hr2.
  change (CircularExt.Acc (a_buf t2) (a_sz t2) (next_pos W up (a_rd t)) (a_wr t2)) with (with_rd n t2) in Hr2.
  match type of Hr2 with reach _ _ _ _ (Acc ?f) _ _ _ => destruct (go_rd f n t2 (tl (tl gaps)) I2 HF2) as (t3 & o3 & F3 & E3 & I3 & R3 & Z3 & HF3 & Hr3) end.
  destruct (stored_here t3 I3) as (d & Ed). cbn [with_rd a_buf] in Hr3. assert (Ed' : znth (a_buf t3) (a_rd t) = Some d) by (rewrite <- Ed; f_equal; congruence).
  rewrite (rd_ok _ _ _ Ed') in Hr3. specialize (Hr3 _ _ eq_refl). cbn beta in Hr3.
  set (t3' := with_rd (next_of up (a_rd t3) (a_sz t3)) t3). assert (I3' : acc_ok W t3') by (apply ok_next; exact I3).
  pose proof (rd_one up t3 d Ed) as E3'. fold t3' in E3'.
  change (CircularExt.Acc (a_buf t3) (a_sz t3) n (a_wr t3)) with (with_rd n t3') in Hr3.
  assert (Z3' : a_sz t3' = a_sz t3) by reflexivity. rewrite <- Z3' in HF3.
  match type of Hr3 with reach _ _ _ _ (Acc ?f) _ _ _ => destruct (go_rd f n t3' (tl (tl (tl gaps))) I3' HF3) as (t4 & o4 & F4 & E4 & I4 & R4 & Z4 & HF4 & Hr4) end.
  specialize (Hr4 _ _ eq_refl). cbn [with_rd a_buf a_sz a_wr a_rd] in Hr4. change (CircularExt.Acc (a_buf t4) (a_sz t4) n (a_wr t4)) with (with_rd n t4) in Hr4.
  assert (Zt : a_sz t4 = a_sz t) by (rewrite Z4, Z3'; congruence). rewrite Zt in Hr4. fold w in Hr4.
  assert (Rn : a_rd t3' = next_of up (a_rd t) (a_sz t)) by (cbn; f_equal; congruence).
  assert (Hw : (next_pos W up (a_rd t3) >=? a_sz t3) = w) by (unfold w, n; f_equal; [f_equal|]; congruence). rewrite Hw in E3'.
  assert (Hall : forall p5 t5 rest o5, map fst o5 ++ concat rest = concat (tl (tl (tl (tl gaps)))) -> run step t4 (map fst o5) = Ok (t5, map snd o5) -> acc_ok W t5 -> a_rd t5 = a_rd t4 -> a_sz t5 = a_sz t ->
     reach step (if w then store_rd (from_end W up (a_sz t)) (k d true) else k d false) (with_rd n t4) (tl (tl (tl (tl gaps)))) p5 t5 rest (map snd o5) -> Forall (handles writing_side (a_sz t5)) (concat rest) ->
     passes writing_side (load_rd (fun r _ => store_rd (next_pos W up r) (load_buf r (fun d => load_rd (fun r sz => if r >=? sz then store_rd (from_end W up sz) (k d true) else k d false))))) t gaps p5 t5 rest [(rd_op up, AData [d] w)] /\ a_rd t5 = next_of up (a_rd t) (a_sz t)).
  { intros p5 t5 rest o5 C5 E5 I5 R5 Z5 Hr5 HF5. split; [|congruence].
    exists ((o1 ++ o2 ++ o3) ++ (o4 ++ o5)), ((o1 ++ o2 ++ o3) ++ (rd_op up, AData [d] w) :: (o4 ++ o5)). rewrite !map_app. splits; try assumption.
    - rewrite <- !app_assoc. eapply reach_trans; [exact Hr1|]. eapply reach_trans; [|eapply reach_trans; [exact Hr3|eapply reach_trans; [exact Hr4|exact Hr5]]].
      rewrite <- (with_rd_same t1), R1. exact Hr2.
    - rewrite F1, F2, F3, F4, <- !app_assoc, C5. rewrite (concat_hd gaps), (concat_hd (tl gaps)), (concat_hd (tl (tl gaps))), (concat_hd (tl (tl (tl gaps)))). reflexivity.
    - apply (merged_app [] (o1 ++ o2 ++ o3) (o1 ++ o2 ++ o3) [(rd_op up, AData [d] w)] (o4 ++ o5)); [apply merged_others|]. apply merged_left, merged_others.
    - eapply run_cat_ok; [eapply run_cat_ok; [exact E1|eapply run_cat_ok; [exact E2|exact E3]]|]. cbn [map fst snd]. eapply run_one; [exact E3'|]. rewrite !map_app. eapply run_cat_ok; eauto. }
  assert (R4' : a_rd t4 = next_of up (a_rd t) (a_sz t)) by congruence.
  destruct w eqn:Ew.
  - destruct (go_rd (fun s => Ok (CircularExt.Acc (a_buf s) (a_sz s) (from_end W up (a_sz t)) (a_wr s), k d true)) n t4 _ I4 HF4) as (t5 & o5 & F5 & E5 & I5 & R5 & Z5 & HF5 & Hr5).
    specialize (Hr5 _ _ eq_refl). exists d, t5, (tl (tl (tl (tl (tl gaps))))). apply (Hall _ t5 _ o5); try assumption; try congruence.
    + rewrite F5. symmetry. apply concat_hd.
    + cbn [with_rd a_buf a_sz a_wr] in Hr5. change (CircularExt.Acc (a_buf t5) (a_sz t5) (from_end W up (a_sz t)) (a_wr t5)) with (with_rd (from_end W up (a_sz t)) t5) in Hr5.
      replace (with_rd (from_end W up (a_sz t)) t5) with t5 in Hr5; [exact Hr5|]. rewrite <- (with_rd_same t5) at 1. f_equal. rewrite R5, R4'. unfold next_of. fold n. change (n >=? a_sz t) with w. rewrite Ew. reflexivity.
  - exists d, t4, (tl (tl (tl (tl gaps)))). apply (Hall _ t4 _ []); try assumption; try congruence; try reflexivity.
    cbn [map]. replace (with_rd n t4) with t4; [apply reach_refl|]. rewrite <- (with_rd_same t4) at 1. f_equal. rewrite R4'. unfold next_of. fold n. change (n >=? a_sz t) with w. rewrite Ew. reflexivity.
Qed.

Lemma passes_refl side p t gaps : acc_ok W t -> Forall (handles side (a_sz t)) (concat gaps) -> passes side p t gaps p t gaps [].
Proof using. intros HI HF. exists [], []. splits; try assumption; try reflexivity; [apply reach_refl|constructor]. Qed.
Lemma passes_keep side p t g p' t' g' own : passes side p t g p' t' g' own -> acc_ok W t' /\ a_sz t' = a_sz t /\ Forall (handles side (a_sz t')) (concat g').
Proof using. intros (oth & tr & _ & _ & _ & _ & H1 & H2 & H3). auto. Qed.

Lemma read_all up n : forall t s got w k gaps s0 ds0 b, acc_ok W t -> acc_ok W s -> a_rd t = a_rd s -> a_sz t = a_sz s ->
  Forall (handles writing_side (a_sz t)) (concat gaps) -> loop up n s w = Ok (s0, ds0, b) ->
  exists ds t1 rest own, passes writing_side (read_prog W up n got w k) t gaps (k (rev got ++ ds) b) t1 rest own /\
    map fst own = repeat (rd_op up) n /\ flat_map data_of (map snd own) = ds /\ a_rd t1 = a_rd s0.
Proof using.
  induction n as [|n IH]; intros t s got w k gaps s0 ds0 b HI HS Er Ez HF E.
  - assert (s0 = s /\ b = w) as [-> ->] by (unfold loop in E; destruct up; cbn in E; injection E as <- _ <-; auto).
    exists [], t, gaps, []. rewrite app_nil_r. splits; try reflexivity; [|assumption]. apply passes_refl; assumption.
  - destruct (stored_here s HS) as (d0 & Ed0). rewrite (loop_step up n s w d0 Ed0) in E.
    destruct (loop up n _ _) as [[[s1 ds1] b1]|kk|] eqn:E1; cbn [bind] in E; [|discriminate E..]. injection E as <- <- <-.
    destruct (read_elem up (fun d x => read_prog W up n (d :: got) (if x then true else w) k) t gaps HI HF) as (d & t1 & rest & HP & Er1).
    destruct (passes_keep _ _ _ _ _ _ _ _ HP) as (HI1 & Ez1 & HF1).
    rewrite <- Er, <- Ez in E1.
    destruct (IH t1 (with_rd (next_of up (a_rd t) (a_sz t)) s) (d :: got) (if next_pos W up (a_rd t) >=? a_sz t then true else w) k rest s1 ds1 b1) as (ds & t2 & rest2 & own & HP2 & Eo & Ed & Er2).
    + exact HI1.
    + rewrite Er, Ez. apply ok_next. exact HS.
    + exact Er1.
    + cbn. congruence.
    + exact HF1.
    + exact E1.
    + exists (d :: ds), t2, rest2, ((rd_op up, AData [d] (next_pos W up (a_rd t) >=? a_sz t)) :: own). splits.
      * cbn [rev] in HP2. rewrite <- app_assoc in HP2. exact (passes_trans _ _ _ _ _ _ _ _ _ _ _ _ HP HP2).
      * cbn. congruence.
      * cbn. congruence.
      * assumption.
Qed.

Definition wr_op (up : bool) (d : T) : aop T := if up then AWrite [d] else AWriteRev [d].
Definition wloop (up : bool) := if up then write_loop W mix else write_reverse_loop W mix.
Definition put (x : T) (t : acc T) : acc T := CircularExt.Acc (zupd (a_buf t) (a_wr t) x) (a_sz t) (a_rd t) (a_wr t).
Lemma wr_one up (t : acc T) d old : acc_ok W t -> znth (a_buf t) (a_wr t) = Some old ->
  step t (wr_op up d) = Ok (with_wr (next_of up (a_wr t) (a_sz t)) (put (mix d old) t), AFlag (next_pos W up (a_wr t) >=? a_sz t)).
Proof using.
  intros (H1 & H2 & H3 & H4) E. unfold wr_op. destruct up; cbn [acc_step]; unfold acc_write, acc_write_reverse, next_of, next_pos, from_end; cbn [write_loop write_reverse_loop];
    rewrite (rd_ok _ _ _ E); cbn [bind]; (rewrite wr_ok by lia); cbn [bind]; destruct (_ >=? _); reflexivity.
Qed.
Lemma wloop_step up ds d (s : acc T) w old : acc_ok W s -> znth (a_buf s) (a_wr s) = Some old ->
  wloop up (d :: ds) s w = wloop up ds (with_wr (next_of up (a_wr s) (a_sz s)) (put (mix d old) s)) (if next_pos W up (a_wr s) >=? a_sz s then true else w).
Proof using.
  clear zero. intros (H1 & H2 & H3 & H4) E. unfold wloop. destruct up; cbn [write_loop write_reverse_loop]; unfold next_of, next_pos, from_end; rewrite (rd_ok _ _ _ E); cbn [bind]; (rewrite wr_ok by lia); cbn [bind]; destruct (_ >=? _); reflexivity.
Qed.
Lemma ok_put up x t : acc_ok W t -> acc_ok W (with_wr (next_of up (a_wr t) (a_sz t)) (put x t)).
Proof using. clear. intros (H1 & H2 & H3 & H4). pose proof (next_inside up _ _ H2 H4). unfold acc_ok, with_wr, put; cbn. rewrite zlen_zupd. splits; lia. Qed.
Lemma stored_there (t : acc T) : acc_ok W t -> exists d, znth (a_buf t) (a_wr t) = Some d.
Proof using. clear. intros (H1 & H2 & H3 & H4). apply znth_some. lia. Qed.

(* the second half of writing one element *)
Lemma write_half up d old (k : bool -> prog (acc T) (aout T)) t gaps : acc_ok W t -> Forall (handles reading_side (a_sz t)) (concat gaps) -> znth (a_buf t) (a_wr t) = Some old ->
  let w := next_pos W up (a_wr t) >=? a_sz t in
  exists t1 rest, passes reading_side
    (store_wr (next_pos W up (a_wr t)) (store_buf (a_wr t) (mix d old) (load_wr (fun p sz => if p >=? sz then store_wr (from_end W up sz) (k true) else k false))))
    t gaps (k w) t1 rest [(wr_op up d, AFlag w)] /\ a_wr t1 = next_of up (a_wr t) (a_sz t).
Proof using.
  intros HI HF Ho w. set (n := next_pos W up (a_wr t)) in *. unfold store_wr, store_buf, load_wr.
  match goal with |- context [passes _ (Acc ?f) _ _ _ _ _ _] => destruct (go_wr f (a_wr t) t gaps HI HF) as (t1 & o1 & F1 & E1 & I1 & R1 & Z1 & B1 & HF1 & Hr1) end.
  rewrite with_wr_same in Hr1. specialize (Hr1 _ _ eq_refl). cbn [with_wr a_buf a_sz a_rd] in Hr1.
  change (CircularExt.Acc (a_buf t1) (a_sz t1) (a_rd t1) n) with (with_wr n t1) in Hr1.
  match type of Hr1 with reach _ _ _ _ (Acc ?f) _ _ _ => destruct (go_wr f n t1 (tl gaps) I1 HF1) as (t2 & o2 & F2 & E2 & I2 & R2 & Z2 & B2 & HF2 & Hr2) end.
  cbn [with_wr a_buf a_sz a_rd a_wr] in Hr2. rewrite wr_ok in Hr2 by (destruct HI as (X1 & X2 & X3 & X4); rewrite B2, B1; lia). cbn [bind] in Hr2. specialize (Hr2 _ _ eq_refl).
  set (t2' := with_wr (next_of up (a_wr t2) (a_sz t2)) (put (mix d old) t2)). assert (I2' : acc_ok W t2') by (apply ok_put; exact I2).
  assert (Ho2 : znth (a_buf t2) (a_wr t2) = Some old) by (rewrite B2, B1, R2, R1; exact Ho).
  pose proof (wr_one up t2 d old I2 Ho2) as E2'. fold t2' in E2'.
  assert (X : CircularExt.Acc (zupd (a_buf t2) (a_wr t) (mix d old)) (a_sz t2) (a_rd t2) n = with_wr n t2') by (unfold t2', with_wr, put; cbn; do 2 f_equal; congruence).
  rewrite X in Hr2. assert (Z2' : a_sz t2' = a_sz t2) by reflexivity. rewrite <- Z2' in HF2.
  match type of Hr2 with reach _ _ _ _ (Acc ?f) _ _ _ => destruct (go_wr f n t2' (tl (tl gaps)) I2' HF2) as (t4 & o4 & F4 & E4 & I4 & R4 & Z4 & B4 & HF4 & Hr4) end.
  specialize (Hr4 _ _ eq_refl). cbn [with_wr a_buf a_sz a_wr a_rd] in Hr4. change (CircularExt.Acc (a_buf t4) (a_sz t4) (a_rd t4) n) with (with_wr n t4) in Hr4.
  assert (Zt : a_sz t4 = a_sz t) by (rewrite Z4, Z2'; congruence). rewrite Zt in Hr4. fold w in Hr4.
  assert (Rn : a_wr t2' = next_of up (a_wr t) (a_sz t)) by (cbn; f_equal; congruence).
  assert (Hw : (next_pos W up (a_wr t2) >=? a_sz t2) = w) by (unfold w, n; f_equal; [f_equal|]; congruence). rewrite Hw in E2'.
  assert (Hall : forall p5 t5 rest o5, map fst o5 ++ concat rest = concat (tl (tl (tl gaps))) -> run step t4 (map fst o5) = Ok (t5, map snd o5) -> acc_ok W t5 -> a_wr t5 = a_wr t4 -> a_sz t5 = a_sz t ->
     reach step (if w then store_wr (from_end W up (a_sz t)) (k true) else k false) (with_wr n t4) (tl (tl (tl gaps))) p5 t5 rest (map snd o5) -> Forall (handles reading_side (a_sz t5)) (concat rest) ->
     passes reading_side (store_wr n (store_buf (a_wr t) (mix d old) (load_wr (fun p sz => if p >=? sz then store_wr (from_end W up sz) (k true) else k false)))) t gaps p5 t5 rest [(wr_op up d, AFlag w)] /\ a_wr t5 = next_of up (a_wr t) (a_sz t)).
  { intros p5 t5 rest o5 C5 E5 I5 R5 Z5 Hr5 HF5. split; [|congruence].
    exists ((o1 ++ o2) ++ (o4 ++ o5)), ((o1 ++ o2) ++ (wr_op up d, AFlag w) :: (o4 ++ o5)). rewrite !map_app. splits; try assumption.
    - rewrite <- !app_assoc. eapply reach_trans; [exact Hr1|]. eapply reach_trans; [exact Hr2|eapply reach_trans; [exact Hr4|exact Hr5]].
    - rewrite F1, F2, F4, <- !app_assoc, C5. rewrite (concat_hd gaps), (concat_hd (tl gaps)), (concat_hd (tl (tl gaps))). reflexivity.
    - apply (merged_app [] (o1 ++ o2) (o1 ++ o2) [(wr_op up d, AFlag w)] (o4 ++ o5)); [apply merged_others|]. apply merged_left, merged_others.
    - eapply run_cat_ok; [eapply run_cat_ok; [exact E1|exact E2]|]. cbn [map fst snd]. eapply run_one; [exact E2'|]. rewrite !map_app. eapply run_cat_ok; eauto. }
  assert (R4' : a_wr t4 = next_of up (a_wr t) (a_sz t)) by congruence.
  destruct w eqn:Ew.
  - destruct (go_wr (fun s => Ok (CircularExt.Acc (a_buf s) (a_sz s) (a_rd s) (from_end W up (a_sz t)), k true)) n t4 _ I4 HF4) as (t5 & o5 & F5 & E5 & I5 & R5 & Z5 & B5 & HF5 & Hr5).
    specialize (Hr5 _ _ eq_refl). exists t5, (tl (tl (tl (tl gaps)))). apply (Hall _ t5 _ o5); try assumption; try congruence.
    + rewrite F5. symmetry. apply concat_hd.
    + cbn [with_wr a_buf a_sz a_rd] in Hr5. change (CircularExt.Acc (a_buf t5) (a_sz t5) (a_rd t5) (from_end W up (a_sz t))) with (with_wr (from_end W up (a_sz t)) t5) in Hr5.
      replace (with_wr (from_end W up (a_sz t)) t5) with t5 in Hr5; [exact Hr5|]. rewrite <- (with_wr_same t5) at 1. f_equal. rewrite R5, R4'. unfold next_of. fold n. change (n >=? a_sz t) with w. rewrite Ew. reflexivity.
  - exists t4, (tl (tl (tl gaps))). apply (Hall _ t4 _ []); try assumption; try congruence; try reflexivity.
    cbn [map]. replace (with_wr n t4) with t4; [apply reach_refl|]. rewrite <- (with_wr_same t4) at 1. f_equal. rewrite R4'. unfold next_of. fold n. change (n >=? a_sz t) with w. rewrite Ew. reflexivity.
Qed.
Lemma write_all up ds : forall t s w k gaps s0 b, acc_ok W t -> acc_ok W s -> a_wr t = a_wr s -> a_sz t = a_sz s ->
  Forall (handles reading_side (a_sz t)) (concat gaps) -> wloop up ds s w = Ok (s0, b) ->
  exists t1 rest own, passes reading_side (write_prog W mix up ds w k) t gaps (k b) t1 rest own /\ map fst own = map (wr_op up) ds /\ [] = flat_map data_of (map snd own) /\ a_wr t1 = a_wr s0.
Proof using.
  induction ds as [|d ds IH]; intros t s w k gaps s0 b HI HS Er Ez HF E.
  - assert (s0 = s /\ b = w) as [-> ->] by (unfold wloop in E; destruct up; cbn in E; injection E as <- <-; auto).
    exists t, gaps, []. splits; try reflexivity; [|assumption]. apply passes_refl; assumption.
  - destruct (stored_there s HS) as (d0 & Ed0). rewrite (wloop_step up ds d s w d0 HS Ed0) in E.
    destruct (stored_there t HI) as (old & Eo). cbn [write_prog].
    match goal with |- context [passes _ (load_wr ?f)] => destruct (quiet_wr (fun s => Ok (s, f (a_wr s) (a_sz s))) t gaps (f (a_wr t) (a_sz t)) HI HF) as (ta & Pa & Wa & Ba) end; [intros x Hx Hy _; rewrite ?Hx, ?Hy; reflexivity|].
    destruct (passes_keep _ _ _ _ _ _ _ _ Pa) as (Ia & Za & Fa). cbn beta in Pa.
    match type of Pa with passes _ _ _ _ (load_buf ?i ?f) _ _ _ => destruct (quiet_wr (fun s => let* x := rd (a_buf s) i in Ok (s, f x)) ta (tl gaps) (f old) Ia Fa) as (tb & Pb & Wb & Bb) end.
    { intros x _ _ ->. rewrite Ba, (rd_ok _ _ _ Eo). reflexivity. }
    destruct (passes_keep _ _ _ _ _ _ _ _ Pb) as (Ib & Zb & Fb). cbn beta in Pb.
    match type of Pb with passes _ _ _ _ (load_wr ?f) _ _ _ => destruct (quiet_wr (fun s => Ok (s, f (a_wr s) (a_sz s))) tb (tl (tl gaps)) (f (a_wr tb) (a_sz tb)) Ib Fb) as (tc & Pc & Wc & Bc) end; [intros x Hx Hy _; rewrite ?Hx, ?Hy; reflexivity|].
    destruct (passes_keep _ _ _ _ _ _ _ _ Pc) as (Ic & Zc & Fc). cbn beta in Pc.
    assert (Eoc : znth (a_buf tc) (a_wr tc) = Some old) by (rewrite Bc, Bb, Ba, Wc, Wb, Wa; exact Eo).
    destruct (write_half up d old (fun x => write_prog W mix up ds (if x then true else w) k) tc _ Ic Fc Eoc) as (t1 & rest & HP & Ew1).
    destruct (passes_keep _ _ _ _ _ _ _ _ HP) as (HI1 & Ez1 & HF1).
    assert (Wt : a_wr tc = a_wr t) by congruence. assert (Zt : a_sz tc = a_sz t) by congruence. rewrite Wt, Zt in *.
    rewrite <- Er, <- Ez in E.
    destruct (IH t1 (with_wr (next_of up (a_wr t) (a_sz t)) (put (mix d d0) s)) (if next_pos W up (a_wr t) >=? a_sz t then true else w) k rest s0 b) as (t2 & rest2 & own & HP2 & Eo2 & Ed2 & Er2).
    + exact HI1.
    + rewrite Er, Ez. apply ok_put. exact HS.
    + exact Ew1.
    + cbn. congruence.
    + exact HF1.
    + exact E.
    + exists t2, rest2, ((wr_op up d, AFlag (next_pos W up (a_wr t) >=? a_sz t)) :: own). splits.
      * rewrite Wb, Wa in Pc. pose proof (passes_trans _ _ _ _ _ _ _ _ _ _ _ _ Pa (passes_trans _ _ _ _ _ _ _ _ _ _ _ _ Pb (passes_trans _ _ _ _ _ _ _ _ _ _ _ _ Pc (passes_trans _ _ _ _ _ _ _ _ _ _ _ _ HP HP2)))) as H. exact H.
      * cbn. congruence.
      * exact Ed2.
      * assumption.
Qed.

Lemma finish side p t gaps t1 rest own r : passes side p t gaps (Ret r) t1 rest own ->
  (forall t ops, acc_ok W t -> Forall (handles side (a_sz t)) ops -> exists t1 oth, map fst oth = ops /\ run step t ops = Ok (t1, map snd oth) /\ acc_ok W t1 /\ (side = writing_side -> a_rd t1 = a_rd t) /\ (side = reading_side -> a_wr t1 = a_wr t)) ->
  exists t' q tr, iexec step p t gaps = Ok (t', r, q) /\ length q = length (concat gaps) /\ merged own (combine (concat gaps) q) tr /\ run step t (map fst tr) = Ok (t', map snd tr) /\
    acc_ok W t' /\ (side = writing_side -> a_rd t' = a_rd t1) /\ (side = reading_side -> a_wr t' = a_wr t1).
Proof using.
  intros (oth & tr & HR & HC & HM & HE & HI & HZ & HF) HH. destruct (HH t1 (concat rest) HI HF) as (t2 & o2 & F2 & E2 & I2 & P2).
  exists t2, (map snd (oth ++ o2)), (tr ++ o2). splits; try assumption; try apply P2.
  - rewrite HR. cbn [iexec]. rewrite E2. cbn [bind]. rewrite map_app. reflexivity.
  - rewrite HC, <- F2, map_length, !app_length, !map_length. reflexivity.
  - rewrite HC, <- F2, <- map_app. replace (combine (map fst (oth ++ o2)) (map snd (oth ++ o2))) with (oth ++ o2).
    + rewrite <- (app_nil_r own). apply merged_app; [exact HM|apply merged_others].
    + generalize (oth ++ o2). induction l as [|[a b] l IH]; cbn; [reflexivity|]. f_equal. exact IH.
  - rewrite !map_app. eapply run_cat_ok; [exact HE|]. rewrite F2. exact E2.
Qed.
Lemma finish_rd p t gaps t1 rest own r : passes writing_side p t gaps (Ret r) t1 rest own ->
  exists t' q tr, iexec step p t gaps = Ok (t', r, q) /\ length q = length (concat gaps) /\ merged own (combine (concat gaps) q) tr /\ run step t (map fst tr) = Ok (t', map snd tr) /\
    acc_ok W t' /\ a_rd t' = a_rd t1.
Proof using.
  intros H. destruct (finish _ _ _ _ _ _ _ _ H) as (t' & q & tr & H1 & H2 & H3 & H4 & H5 & H6 & _).
  - intros u ops HI HF. destruct (chunk_rd _ _ HI HF) as (u1 & oth & A1 & A2 & _ & A3 & A4 & A5). exists u1, oth. splits; auto. intros E. exfalso.
    assert (X : writing_side (T := T) AGetWr = reading_side AGetWr) by (rewrite E; reflexivity). cbn in X. rewrite <- X. exact I.
  - exists t', q, tr. splits; auto.
Qed.
Lemma finish_wr p t gaps t1 rest own r : passes reading_side p t gaps (Ret r) t1 rest own ->
  exists t' q tr, iexec step p t gaps = Ok (t', r, q) /\ length q = length (concat gaps) /\ merged own (combine (concat gaps) q) tr /\ run step t (map fst tr) = Ok (t', map snd tr) /\
    acc_ok W t' /\ a_wr t' = a_wr t1.
Proof using.
  intros H. destruct (finish _ _ _ _ _ _ _ _ H) as (t' & q & tr & H1 & H2 & H3 & H4 & H5 & _ & H6).
  - intros u ops HI HF. destruct (chunk_wr _ _ HI HF) as (u1 & oth & A1 & A2 & _ & A3 & A4 & A5 & A6). exists u1, oth. splits; auto. intros E. exfalso.
    assert (X : reading_side (T := T) AGetWr = writing_side AGetWr) by (rewrite E; reflexivity). cbn in X. rewrite X. exact I.
  - exists t', q, tr. splits; auto.
Qed.

Lemma read_plain up n s gaps : acc_ok W s -> Forall (handles writing_side (a_sz s)) (concat gaps) ->
  exists s0 ds0 b, loop up n s false = Ok (s0, ds0, b) /\ exists ds t1 rest own, passes writing_side (read_prog W up n [] false (fun d w => Ret (AData d w))) s gaps (Ret (AData ds b)) t1 rest own /\
    map fst own = repeat (rd_op up) n /\ flat_map data_of (map snd own) = ds /\ a_rd t1 = a_rd s0.
Proof using.
  intros HI HF. assert (exists s0 ds0 b, loop up n s false = Ok (s0, ds0, b)) as (s0 & ds0 & b & E).
  { pose proof (read_ok W s (Z.of_nat n) HI ltac:(lia)) as (ds & A & _). pose proof (read_reverse_ok W s (Z.of_nat n) HI ltac:(lia)) as (ds' & A' & _).
    unfold acc_read, acc_read_reverse in *. rewrite Nat2Z.id in *. unfold loop. destruct up; eauto. }
  exists s0, ds0, b. split; [exact E|]. exact (read_all up n s s [] false _ gaps s0 ds0 b HI HI eq_refl eq_refl HF E).
Qed.
Lemma read_marked up n m s gaps : acc_ok W s -> Forall (handles writing_side (a_sz s)) (concat gaps) ->
  exists s0 ds0 b, loop up n s false = Ok (s0, ds0, b) /\ exists ds t1 rest own,
    passes writing_side (load_rd (fun r0 _ => read_prog W up n [] false (fun d w => load_rd (fun r1 _ => Ret (AData d (crossed (r0 <=? m) (r1 <=? m) w)))))) s gaps
      (Ret (AData ds (crossed (a_rd s <=? m) (a_rd s0 <=? m) b))) t1 rest own /\
    map fst own = repeat (rd_op up) n /\ flat_map data_of (map snd own) = ds /\ a_rd t1 = a_rd s0.
Proof using.
  intros HI HF. destruct (read_plain up n s gaps HI HF) as (s0 & ds0 & b & E & _). exists s0, ds0, b. split; [exact E|].
  match goal with |- context [passes _ (load_rd ?f)] => destruct (quiet_rd (fun s => Ok (s, f (a_rd s) (a_sz s))) s gaps (f (a_rd s) (a_sz s)) HI HF) as (ta & Pa & Ra) end; [intros x Hx Hy; rewrite ?Hx, ?Hy; reflexivity|].
  destruct (passes_keep _ _ _ _ _ _ _ _ Pa) as (Ia & Za & Fa). cbn beta in Pa.
  destruct (read_all up n ta s [] false (fun d w => load_rd (fun r1 _ => Ret (AData d (crossed (a_rd s <=? m) (r1 <=? m) w)))) (tl gaps) s0 ds0 b Ia HI Ra Za Fa E) as (ds & t1 & rest & own & Pb & Eo & Ed & Rb).
  destruct (passes_keep _ _ _ _ _ _ _ _ Pb) as (Ib & Zb & Fb). cbn beta in Pb.
  match type of Pb with passes _ _ _ _ (load_rd ?f) _ _ _ => destruct (quiet_rd (fun s => Ok (s, f (a_rd s) (a_sz s))) t1 rest (f (a_rd t1) (a_sz t1)) Ib Fb) as (tc & Pc & Rc) end; [intros x Hx Hy; rewrite ?Hx, ?Hy; reflexivity|].
  exists ds, tc, (tl rest), own. splits; try assumption; [|congruence].
  rewrite <- Rb. pose proof (passes_trans _ _ _ _ _ _ _ _ _ _ _ _ Pa (passes_trans _ _ _ _ _ _ _ _ _ _ _ _ Pb Pc)) as H. cbn [app] in H. rewrite app_nil_r in H. exact H.
Qed.
Lemma write_plain up ds s gaps : acc_ok W s -> Forall (handles reading_side (a_sz s)) (concat gaps) ->
  exists s0 b, wloop up ds s false = Ok (s0, b) /\ exists t1 rest own, passes reading_side (write_prog W mix up ds false (fun w => Ret (AFlag w))) s gaps (Ret (AFlag b)) t1 rest own /\
    map fst own = map (wr_op up) ds /\ [] = flat_map data_of (map snd own) /\ a_wr t1 = a_wr s0.
Proof using.
  intros HI HF. assert (exists s0 b, wloop up ds s false = Ok (s0, b)) as (s0 & b & E).
  { unfold wloop. destruct up; [rewrite write_spec by exact HI|rewrite write_reverse_spec by exact HI]; eauto. }
  exists s0, b. split; [exact E|]. exact (write_all up ds s s false _ gaps s0 b HI HI eq_refl eq_refl HF E).
Qed.
Lemma write_marked ds m s gaps : acc_ok W s -> Forall (handles reading_side (a_sz s)) (concat gaps) ->
  exists s0 b, wloop true ds s false = Ok (s0, b) /\ exists t1 rest own,
    passes reading_side (load_wr (fun p0 _ => write_prog W mix true ds false (fun w => load_wr (fun p1 _ => Ret (AFlag (crossed (p0 <? m) (p1 <? m) w)))))) s gaps
      (Ret (AFlag (crossed (a_wr s <? m) (a_wr s0 <? m) b))) t1 rest own /\
    map fst own = map (wr_op true) ds /\ [] = flat_map data_of (map snd own) /\ a_wr t1 = a_wr s0.
Proof using.
  intros HI HF. destruct (write_plain true ds s gaps HI HF) as (s0 & b & E & _). exists s0, b. split; [exact E|].
  match goal with |- context [passes _ (load_wr ?f)] => destruct (quiet_wr (fun s => Ok (s, f (a_wr s) (a_sz s))) s gaps (f (a_wr s) (a_sz s)) HI HF) as (ta & Pa & Ra & _) end; [intros x Hx Hy _; rewrite ?Hx, ?Hy; reflexivity|].
  destruct (passes_keep _ _ _ _ _ _ _ _ Pa) as (Ia & Za & Fa). cbn beta in Pa.
  destruct (write_all true ds ta s false (fun w => load_wr (fun p1 _ => Ret (AFlag (crossed (a_wr s <? m) (p1 <? m) w)))) (tl gaps) s0 b Ia HI Ra Za Fa E) as (t1 & rest & own & Pb & Eo & Ed & Rb).
  destruct (passes_keep _ _ _ _ _ _ _ _ Pb) as (Ib & Zb & Fb). cbn beta in Pb.
  match type of Pb with passes _ _ _ _ (load_wr ?f) _ _ _ => destruct (quiet_wr (fun s => Ok (s, f (a_wr s) (a_sz s))) t1 rest (f (a_wr t1) (a_sz t1)) Ib Fb) as (tc & Pc & Rc & _) end; [intros x Hx Hy _; rewrite ?Hx, ?Hy; reflexivity|].
  exists tc, (tl rest), own. splits; try assumption; [|congruence].
  rewrite <- Rb. pose proof (passes_trans _ _ _ _ _ _ _ _ _ _ _ _ Pa (passes_trans _ _ _ _ _ _ _ _ _ _ _ _ Pb Pc)) as H. cbn [app] in H. rewrite app_nil_r in H. exact H.
Qed.

Theorem interrupted_block s m gaps : acc_ok W s -> transfers m -> op_pos_ok (a_sz s) m ->
  (reading_side m /\ Forall (fun o => writing_side o /\ op_pos_ok (a_sz s) o) (concat gaps) \/
   writing_side m /\ Forall (fun o => reading_side o /\ op_pos_ok (a_sz s) o) (concat gaps)) ->
  exists s' r q own tr s0 r0, iexec step (a_main W mix zero m) s gaps = Ok (s', r, q) /\ step s m = Ok (s0, r0) /\ acc_ok W s' /\
    flag_of r = flag_of r0 /\ (reading_side m -> a_rd s' = a_rd s0) /\ (writing_side m -> a_wr s' = a_wr s0) /\
    map fst own = one_by_one m /\ data_of r = flat_map data_of (map snd own) /\
    length q = length (concat gaps) /\ merged own (combine (concat gaps) q) tr /\ run step s (map fst tr) = Ok (s', map snd tr).
Proof using.
  intros HI HT HO [[Hm HF]|[Hm HF]]; destruct m; try contradiction Hm; try contradiction HT; cbn [acc_step a_main one_by_one op_pos_ok] in *.
  - destruct (read_plain true (Z.to_nat n) s gaps HI HF) as (s0 & ds0 & b & E & ds & t1 & rest & own & HP & Eo & Ed & Er).
    destruct (finish_rd _ _ _ _ _ _ _ HP) as (t' & q & tr & H1 & H2 & H3 & H4 & H5 & H6).
    exists t', (AData ds b), q, own, tr, s0, (AData ds0 b). unfold acc_read. unfold loop in E. rewrite E. splits; auto; try congruence. intros [].
  - destruct (read_plain false (Z.to_nat n) s gaps HI HF) as (s0 & ds0 & b & E & ds & t1 & rest & own & HP & Eo & Ed & Er).
    destruct (finish_rd _ _ _ _ _ _ _ HP) as (t' & q & tr & H1 & H2 & H3 & H4 & H5 & H6).
    exists t', (AData ds b), q, own, tr, s0, (AData ds0 b). unfold acc_read_reverse. unfold loop in E. rewrite E. splits; auto; try congruence. intros [].
  - destruct (read_marked true (Z.to_nat n) m s gaps HI HF) as (s0 & ds0 & b & E & ds & t1 & rest & own & HP & Eo & Ed & Er).
    destruct (finish_rd _ _ _ _ _ _ _ HP) as (t' & q & tr & H1 & H2 & H3 & H4 & H5 & H6).
    do 7 eexists. split; [exact H1|]. split; [unfold acc_read_check, acc_read; unfold loop in E; rewrite E; reflexivity|]. splits; eauto; try congruence. intros [].
  - destruct (read_marked false (Z.to_nat n) m s gaps HI HF) as (s0 & ds0 & b & E & ds & t1 & rest & own & HP & Eo & Ed & Er).
    destruct (finish_rd _ _ _ _ _ _ _ HP) as (t' & q & tr & H1 & H2 & H3 & H4 & H5 & H6).
    do 7 eexists. split; [exact H1|]. split; [unfold acc_read_reverse_check, acc_read_reverse; unfold loop in E; rewrite E; reflexivity|]. splits; eauto; try congruence. intros [].
  - destruct (write_plain true d s gaps HI HF) as (s0 & b & E & t1 & rest & own & HP & Eo & Ed & Er).
    destruct (finish_wr _ _ _ _ _ _ _ HP) as (t' & q & tr & H1 & H2 & H3 & H4 & H5 & H6).
    do 7 eexists. split; [exact H1|]. split; [unfold acc_write; unfold wloop in E; rewrite E; reflexivity|]. splits; eauto; try congruence; intros [].
  - destruct (write_plain false d s gaps HI HF) as (s0 & b & E & t1 & rest & own & HP & Eo & Ed & Er).
    destruct (finish_wr _ _ _ _ _ _ _ HP) as (t' & q & tr & H1 & H2 & H3 & H4 & H5 & H6).
    do 7 eexists. split; [exact H1|]. split; [unfold acc_write_reverse; unfold wloop in E; rewrite E; reflexivity|]. splits; eauto; try congruence; intros [].
  - destruct (write_marked d m s gaps HI HF) as (s0 & b & E & t1 & rest & own & HP & Eo & Ed & Er).
    destruct (finish_wr _ _ _ _ _ _ _ HP) as (t' & q & tr & H1 & H2 & H3 & H4 & H5 & H6).
    do 7 eexists. split; [exact H1|]. split; [unfold acc_write_check, acc_write; unfold wloop in E; rewrite E; reflexivity|]. splits; eauto; try congruence; intros [].
Qed.

(* reading where the handler does not write *)
Lemma total_pos (l : list (aop T)) : 0 <= total_written l.
Proof using. clear. unfold total_written. induction l as [|o l IH]; cbn; [lia|]. destruct o; cbn; try lia. pose proof (zlen_nonneg d). lia. Qed.
Lemma apart_run own oth tr : merged own oth tr -> forall t t' n, acc_ok W t -> run step t (map fst tr) = Ok (t', map snd tr) -> map fst own = repeat (ARead 1) n ->
  Forall (fun o => exists d, o = AWrite d) (map fst oth) ->
  (forall i j, 0 <= i < Z.of_nat n -> 0 <= j < total_written (map fst oth) -> (a_rd t + i) mod a_sz t <> (a_wr t + j) mod a_sz t) ->
  let ds := flat_map data_of (map snd own) in zlen ds = Z.of_nat n /\ forall i, 0 <= i < Z.of_nat n -> znth ds i = znth (a_buf t) ((a_rd t + i) mod a_sz t).
Proof using.
  intros HM. induction HM as [|x own oth tr HM IH|x own oth tr HM IH]; intros t t' n HI HE HN HF HD; cbn zeta.
  - destruct n; [|discriminate HN]. cbn. split; [reflexivity|]. intros i Hi; lia.
  - destruct n as [|n]; [discriminate HN|]. cbn in HN. injection HN as Ex HN. destruct x as [o r]; cbn [fst] in Ex; subst o. cbn [map fst snd run] in HE.
    destruct (stored_here t HI) as (d & Ed). change (ARead 1) with (rd_op true) in HE. rewrite (rd_one true t d Ed) in HE. cbn [bind] in HE.
    destruct (run step _ (map fst tr)) as [[t1 q]|k|] eqn:E1; cbn [bind] in HE; [|discriminate HE..]. injection HE as -> <- ->.
    pose proof HI as (X1 & X2 & X3 & X4).
    assert (En : next_of true (a_rd t) (a_sz t) = (a_rd t + 1) mod a_sz t).
    { unfold next_of, next_pos, from_end. rewrite word_small by lia. apply incmod. assumption. }
    destruct (IH _ _ n (ok_next true t HI) E1 HN HF) as [L1 L2].
    { intros i j Hi Hj. cbn [with_rd a_rd a_sz a_wr]. rewrite En, Zplus_mod_idemp_l, <- Z.add_assoc. apply HD; lia. }
    cbn [map snd flat_map data_of app]. rewrite zlen_cons, L1. split; [lia|]. intros i Hi. rewrite znth_cons. destruct (Z.eqb_spec i 0) as [->|Hz].
    + rewrite Z.add_0_r, Z.mod_small by lia. congruence.
    + cbn [with_rd a_rd a_sz a_buf] in L2. rewrite L2 by lia. rewrite En, Zplus_mod_idemp_l. replace (a_rd t + 1 + (i - 1)) with (a_rd t + i) by lia. replace (i <? 0) with false by lia. reflexivity.
  - destruct x as [o r]. cbn [map fst] in HF. inversion HF as [|? ? [d Eo] HF']; subst o. cbn [map fst snd run] in HE. cbn [acc_step] in HE.
    destruct (write_ok W mix t d HI) as (t1 & E & B1 & B2 & B3 & B4 & _ & _ & B5). rewrite E in HE. cbn [bind] in HE.
    destruct (run step t1 (map fst tr)) as [[t2 q]|k|] eqn:E1; cbn [bind] in HE; [|discriminate HE..]. injection HE as -> <- ->.
    pose proof HI as (X1 & X2 & X3 & X4). assert (HI1 : acc_ok W t1). { unfold acc_ok. rewrite B1, B2, B3, B4. splits; try lia; apply Z.mod_pos_bound; lia. }
    assert (Ht : total_written (map fst ((AWrite d, AFlag (a_sz t <=? a_wr t + zlen d)) :: oth)) = zlen d + total_written (map fst oth)) by reflexivity. rewrite Ht in HD.
    pose proof (total_pos (map fst oth)). pose proof (zlen_nonneg d).
    destruct (IH _ _ n HI1 E1 HN HF') as [L1 L2].
    { intros i j Hi Hj. rewrite B2, B3, B4, Zplus_mod_idemp_l. replace (a_wr t + 1 * zlen d + j) with (a_wr t + (zlen d + j)) by lia. apply HD; lia. }
    split; [exact L1|]. intros i Hi. rewrite L2 by exact Hi. rewrite B2, B3. apply B5; [apply Z.mod_pos_bound; lia|].
    intros j Hj. rewrite Z.mul_1_l. apply not_eq_sym, HD; lia.
Qed.
Theorem read_apart s n gaps : acc_ok W s -> 0 <= n -> Forall (fun o => exists d, o = AWrite d) (concat gaps) ->
  (forall i j, 0 <= i < n -> 0 <= j < total_written (concat gaps) -> (a_rd s + i) mod a_sz s <> (a_wr s + j) mod a_sz s) ->
  exists s' r q s0, iexec step (a_main W mix zero (ARead n)) s gaps = Ok (s', r, q) /\ step s (ARead n) = Ok (s0, r).
Proof using.
  intros HI Hn HF HD.
  assert (HF' : Forall (handles writing_side (a_sz s)) (concat gaps)) by (eapply Forall_impl; [|exact HF]; intros o (d & ->); split; exact I).
  destruct (read_plain true (Z.to_nat n) s gaps HI HF') as (s0 & ds0 & b & E & ds & t1 & rest & own & HP & Eo & Ed & Er).
  destruct (finish_rd _ _ _ _ _ _ _ HP) as (t' & q & tr & H1 & H2 & H3 & H4 & H5 & H6).
  exists t', (AData ds b), q, s0. split; [exact H1|]. cbn [acc_step]. unfold loop in E. unfold acc_read. rewrite E. cbn [bind]. do 3 f_equal.
  assert (Ec : map fst (combine (concat gaps) q) = concat gaps).
  { clear -H2. revert q H2. induction (concat gaps) as [|o l IH]; intros [|x q] H; cbn in *; try discriminate H; [reflexivity|]. f_equal. apply IH. lia. }
  destruct (apart_run _ _ _ H3 s t' (Z.to_nat n) HI H4 Eo) as [L1 L2]; [rewrite Ec; exact HF|rewrite Ec; intros i j Hi Hj; apply HD; lia|].
  cbn zeta in L1, L2. rewrite Ed in L1, L2.
  destruct (read_ok W s n HI Hn) as (ds1 & E1 & M1). unfold acc_read in E1. rewrite E in E1. injection E1 as _ -> _.
  pose proof (f_equal (@length (option T)) M1) as Hl. rewrite map_length in Hl. unfold ztab in Hl. rewrite map_length, seq_length in Hl.
  apply znth_ext; [unfold zlen in *; lia|]. intros i Hi. rewrite L2 by (unfold zlen in *; lia).
  pose proof (f_equal (fun l => znth l i) M1) as Hi1. cbn beta in Hi1. rewrite znth_ztab in Hi1 by (unfold zlen in *; lia).
  destruct (znth_some ds1 i) as (y & Ey); [exact Hi|].
  rewrite Ey. rewrite (znth_map Some) in Hi1. rewrite Ey in Hi1. cbn in Hi1. congruence.
Qed.

(* what goes wrong *)
Lemma complete_w data t w : acc_ok W t -> exists t' r, iexec step (write_prog W mix true data w (fun w => Ret (AFlag w))) t [] = Ok (t', r, []).
Proof using.
  intros HI. assert (exists s0 b, wloop true data t w = Ok (s0, b)) as (s0 & b & E) by (unfold wloop; rewrite write_spec by exact HI; eauto).
  destruct (write_all true data t t w (fun w => Ret (AFlag w)) [] s0 b HI HI eq_refl eq_refl (Forall_nil _) E) as (t1 & rest & own & HP & _).
  destruct (finish_wr _ _ _ _ _ _ _ HP) as (t' & q & tr & H1 & H2 & _). destruct q; [|discriminate H2]. eauto.
Qed.
Lemma complete_r n t got w : acc_ok W t -> exists t' r, iexec step (read_prog W true n got w (fun d w => Ret (AData d w))) t [] = Ok (t', r, []).
Proof using.
  intros HI. assert (exists s0 ds0 b, loop true n t w = Ok (s0, ds0, b)) as (s0 & ds0 & b & E).
  { unfold loop. clear -HI. revert t w HI. induction n as [|n IH]; intros t w HI; [cbn; eauto|]. destruct (stored_here t HI) as (d & Ed).
    pose proof (loop_step true n t w d Ed) as Hl. unfold loop in Hl. rewrite Hl. destruct (IH (with_rd (next_of true (a_rd t) (a_sz t)) t) (if next_pos W true (a_rd t) >=? a_sz t then true else w) (ok_next true t HI)) as (s0 & ds0 & b & ->). cbn [bind]. eauto. }
  destruct (read_all true n t t got w (fun d w => Ret (AData d w)) [] s0 ds0 b HI HI eq_refl eq_refl (Forall_nil _) E) as (ds & t1 & rest & own & HP & _).
  destruct (finish_rd _ _ _ _ _ _ _ HP) as (t' & q & tr & H1 & H2 & _). destruct q; [|discriminate H2]. eauto.
Qed.
Lemma go_quiet f s g s2 p : f s = Ok (s2, p) -> reach step (Acc f) s ([] :: g) p s2 g [].
Proof using. intros E. apply (reach_acc step f s ([] :: g) s [] s2 p); [reflexivity|exact E]. Qed.
Lemma go_last f s s2 p : f s = Ok (s2, p) -> reach step (Acc f) s [] p s2 [] [].
Proof using. intros E. apply (reach_acc step f s [] s [] s2 p); [reflexivity|exact E]. Qed.

(* the write position is outside the buffer *)
Lemma outside_w data : forall s w, acc_ok W s -> a_sz s <= a_wr s + zlen data ->
  exists g s1 f, (forall h, reach step (write_prog W mix true data w (fun w => Ret (AFlag w))) s (g ++ [h]) (Acc f) s1 [h] []) /\ concat g = [] /\
    a_wr s1 = a_sz s /\ a_sz s1 = a_sz s /\ a_sz s1 = zlen (a_buf s1) /\ exists s2 p s3 r, f s1 = Ok (s2, p) /\ iexec step p s2 [] = Ok (s3, r, []).
Proof using.
  induction data as [|d ds IH]; intros s w HI Hc; pose proof HI as (X1 & X2 & X3 & X4); [change (zlen (@nil T)) with 0 in Hc; lia|].
  rewrite zlen_cons in Hc. destruct (stored_there s HI) as (old & Eo).
  assert (En : next_pos W true (a_wr s) = a_wr s + 1) by (apply word_small; lia).
  pose proof (ok_put true (mix d old) s HI) as HI1. unfold next_of in HI1. rewrite En in HI1. unfold from_end in HI1.
  destruct (Z.geb_spec (a_wr s + 1) (a_sz s)) as [Hw|Hw].
  - exists [[]; []; []; []], (with_wr (a_wr s + 1) s). eexists. split; [|split; [reflexivity|]].
    + intros h. cbn [write_prog app]. eapply (reach_trans _ _ _ _ _ _ _ [] _ _ _ []); [apply go_quiet; reflexivity|]. cbn beta.
      eapply (reach_trans _ _ _ _ _ _ _ [] _ _ _ []); [apply go_quiet; rewrite (rd_ok _ _ _ Eo); reflexivity|]. cbn beta.
      eapply (reach_trans _ _ _ _ _ _ _ [] _ _ _ []); [apply go_quiet; reflexivity|]. cbn beta. rewrite En. apply go_quiet. reflexivity.
    + cbn [with_wr a_wr a_sz a_buf]. splits; try lia. rewrite wr_ok by lia. cbn [bind].
      destruct (complete_w ds _ true HI1) as (t' & r & Hc'). do 4 eexists. split; [reflexivity|].
      cbn [with_wr a_buf a_sz a_rd a_wr]. unfold load_wr, store_wr. cbn [iexec hd tl run bind a_buf a_sz a_rd a_wr]. replace (a_wr s + 1 >=? a_sz s) with true by lia.
      cbn [iexec hd tl run bind a_buf a_sz a_rd a_wr]. unfold with_wr, put in Hc'. cbn [a_buf a_sz a_rd a_wr] in Hc'. unfold from_end. rewrite Hc'. reflexivity.
  - cbn [with_wr put a_sz a_wr a_buf] in *.
    destruct (IH (with_wr (a_wr s + 1) (put (mix d old) s)) w HI1) as (g & s1 & f & Hg & Cg & W1 & Z1 & L1 & Hf).
    { cbn [with_wr put a_sz a_wr a_buf]. lia. }
    exists ([] :: [] :: [] :: [] :: [] :: [] :: g), s1, f. splits; try assumption.
    + intros h. cbn [write_prog app]. eapply (reach_trans _ _ _ _ _ _ _ [] _ _ _ []); [apply go_quiet; reflexivity|]. cbn beta.
      eapply (reach_trans _ _ _ _ _ _ _ [] _ _ _ []); [apply go_quiet; rewrite (rd_ok _ _ _ Eo); reflexivity|]. cbn beta.
      eapply (reach_trans _ _ _ _ _ _ _ [] _ _ _ []); [apply go_quiet; reflexivity|]. cbn beta. rewrite En.
      eapply (reach_trans _ _ _ _ _ _ _ [] _ _ _ []); [apply go_quiet; reflexivity|]. cbn beta.
      eapply (reach_trans _ _ _ _ _ _ _ [] _ _ _ []); [apply go_quiet; cbn [a_buf]; rewrite wr_ok by lia; reflexivity|].
      eapply (reach_trans _ _ _ _ _ _ _ [] _ _ _ []); [apply go_quiet; reflexivity|]. cbn [a_buf a_sz a_rd a_wr].
      replace (a_wr s + 1 >=? a_sz s) with false by lia. exact (Hg h).
Qed.
Lemma outside_r n : forall s got w, acc_ok W s -> a_sz s <= a_rd s + Z.of_nat n ->
  exists g s1 f, (forall h, reach step (read_prog W true n got w (fun d w => Ret (AData d w))) s (g ++ [h]) (Acc f) s1 [h] []) /\ concat g = [] /\
    a_rd s1 = a_sz s /\ a_sz s1 = a_sz s /\ a_sz s1 = zlen (a_buf s1) /\ exists s2 p s3 r, f s1 = Ok (s2, p) /\ iexec step p s2 [] = Ok (s3, r, []).
Proof using.
  induction n as [|n IH]; intros s got w HI Hc; pose proof HI as (X1 & X2 & X3 & X4); [lia|].
  destruct (stored_here s HI) as (d & Ed).
  assert (En : next_pos W true (a_rd s) = a_rd s + 1) by (apply word_small; lia).
  pose proof (ok_next true s HI) as HI1. unfold next_of in HI1. rewrite En in HI1. unfold from_end in HI1.
  destruct (Z.geb_spec (a_rd s + 1) (a_sz s)) as [Hw|Hw].
  - exists [[]; []], (with_rd (a_rd s + 1) s). eexists. split; [|split; [reflexivity|]].
    + intros h. cbn [read_prog app]. eapply (reach_trans _ _ _ _ _ _ _ [] _ _ _ []); [apply go_quiet; reflexivity|]. cbn beta. rewrite En. apply go_quiet. reflexivity.
    + cbn [with_rd a_rd a_sz a_buf]. splits; try lia. rewrite (rd_ok _ _ _ Ed). cbn [bind].
      destruct (complete_r n _ (d :: got) true HI1) as (t' & r & Hc'). do 4 eexists. split; [reflexivity|].
      unfold load_rd, store_rd. cbn [iexec hd tl run bind a_buf a_sz a_rd a_wr with_rd]. replace (a_rd s + 1 >=? a_sz s) with true by lia.
      cbn [iexec hd tl run bind a_buf a_sz a_rd a_wr]. unfold with_rd in Hc'. unfold from_end. cbn [a_buf a_sz a_rd a_wr with_rd]. rewrite Hc'. reflexivity.
  - destruct (IH (with_rd (a_rd s + 1) s) (d :: got) w HI1) as (g & s1 & f & Hg & Cg & W1 & Z1 & L1 & Hf); [cbn; lia|].
    exists ([] :: [] :: [] :: [] :: g), s1, f. splits; try assumption.
    + intros h. cbn [read_prog app]. eapply (reach_trans _ _ _ _ _ _ _ [] _ _ _ []); [apply go_quiet; reflexivity|]. cbn beta. rewrite En.
      eapply (reach_trans _ _ _ _ _ _ _ [] _ _ _ []); [apply go_quiet; reflexivity|]. cbn beta.
      eapply (reach_trans _ _ _ _ _ _ _ [] _ _ _ []); [apply go_quiet; cbn [a_buf]; rewrite (rd_ok _ _ _ Ed); reflexivity|]. cbn beta.
      eapply (reach_trans _ _ _ _ _ _ _ [] _ _ _ []); [apply go_quiet; reflexivity|]. cbn [a_buf a_sz a_rd a_wr].
      replace (a_rd s + 1 >=? a_sz s) with false by lia. exact (Hg h).
Qed.
Theorem wr_pos_outside s data : acc_ok W s -> a_sz s <= a_wr s + zlen data ->
  exists gaps s' r, concat gaps = [AGetWr] /\ iexec step (a_main W mix zero (AWrite data)) s gaps = Ok (s', r, [APos (a_sz s)]).
Proof using.
  intros HI Hc. destruct (outside_w data s false HI Hc) as (g & s1 & f & Hg & Cg & W1 & Z1 & L1 & s2 & p & s3 & r & Ef & Ep).
  exists (g ++ [[AGetWr]]), s3, r. split; [rewrite concat_app, Cg; reflexivity|]. cbn [a_main]. rewrite (Hg [AGetWr]). cbn [iexec hd tl run bind acc_step]. rewrite Ef, Ep, W1. reflexivity.
Qed.
Theorem rd_pos_outside s n : acc_ok W s -> a_sz s <= a_rd s + n ->
  exists gaps s' r, concat gaps = [AGetRd] /\ iexec step (a_main W mix zero (ARead n)) s gaps = Ok (s', r, [APos (a_sz s)]).
Proof using.
  intros HI Hc. pose proof HI as (X1 & X2 & X3 & X4). destruct (outside_r (Z.to_nat n) s [] false HI) as (g & s1 & f & Hg & Cg & W1 & Z1 & L1 & s2 & p & s3 & r & Ef & Ep); [lia|].
  exists (g ++ [[AGetRd]]), s3, r. split; [rewrite concat_app, Cg; reflexivity|]. cbn [a_main]. rewrite (Hg [AGetRd]). cbn [iexec hd tl run bind acc_step]. rewrite Ef, Ep, W1. reflexivity.
Qed.
Theorem two_writers s data y : acc_ok W s -> a_sz s <= a_wr s + zlen data ->
  exists gaps, concat gaps = [AWrite [y]] /\ iexec step (a_main W mix zero (AWrite data)) s gaps = UB OutOfBounds.
Proof using.
  intros HI Hc. destruct (outside_w data s false HI Hc) as (g & s1 & f & Hg & Cg & W1 & Z1 & L1 & _).
  exists (g ++ [[AWrite [y]]]). split; [rewrite concat_app, Cg; reflexivity|]. cbn [a_main]. rewrite (Hg [AWrite [y]]). cbn [iexec hd run acc_step]. rewrite bad_position by lia. reflexivity.
Qed.
Theorem two_readers s n : acc_ok W s -> a_sz s <= a_rd s + n ->
  exists gaps, concat gaps = [ARead 1] /\ iexec step (a_main W mix zero (ARead n)) s gaps = UB OutOfBounds.
Proof using.
  intros HI Hc. pose proof HI as (X1 & X2 & X3 & X4). destruct (outside_r (Z.to_nat n) s [] false HI) as (g & s1 & f & Hg & Cg & W1 & Z1 & L1 & _); [lia|].
  exists (g ++ [[ARead 1]]). split; [rewrite concat_app, Cg; reflexivity|]. cbn [a_main]. rewrite (Hg [ARead 1]). cbn [iexec hd run acc_step]. unfold acc_read. change (Z.to_nat 1) with 1%nat. cbn [read_loop].
  unfold rd, guarded. rewrite W1. destruct (znth (a_buf s1) (a_sz s)) eqn:E; [|reflexivity]. apply znth_some_range in E. lia.
Qed.
Theorem position_ahead s d ds old : acc_ok W s -> a_wr s + 1 < a_sz s -> znth (a_buf s) (a_wr s) = Some old ->
  exists gaps s' r, concat gaps = [AGetWr; ASetRd (a_wr s); ARead 1] /\
    iexec step (a_main W mix zero (AWrite (d :: ds))) s gaps = Ok (s', r, [APos (a_wr s + 1); ANone; AData [old] false]).
Proof using.
  intros HI Hw Eo. pose proof HI as (X1 & X2 & X3 & X4). assert (En : next_pos W true (a_wr s) = a_wr s + 1) by (apply word_small; lia).
  assert (HI1 : acc_ok W (CircularExt.Acc (zupd (a_buf s) (a_wr s) (mix d old)) (a_sz s) (a_wr s + 1) (a_wr s + 1))) by (unfold acc_ok; cbn; rewrite zlen_zupd; splits; lia).
  destruct (complete_w ds _ false HI1) as (t' & r & Hc'). exists [[]; []; []; []; [AGetWr; ASetRd (a_wr s); ARead 1]], t', r. split; [reflexivity|].
  assert (R : forall h, reach step (a_main W mix zero (AWrite (d :: ds))) s [[]; []; []; []; h] (store_buf (a_wr s) (mix d old) (load_wr (fun p sz =>
      if p >=? sz then store_wr (from_end W true sz) (write_prog W mix true ds true (fun w => Ret (AFlag w))) else write_prog W mix true ds false (fun w => Ret (AFlag w))))) (with_wr (a_wr s + 1) s) [h] []).
  { intros h. cbn [a_main write_prog app]. eapply (reach_trans _ _ _ _ _ _ _ [] _ _ _ []); [apply go_quiet; reflexivity|]. cbn beta.
    eapply (reach_trans _ _ _ _ _ _ _ [] _ _ _ []); [apply go_quiet; rewrite (rd_ok _ _ _ Eo); reflexivity|]. cbn beta.
    eapply (reach_trans _ _ _ _ _ _ _ [] _ _ _ []); [apply go_quiet; reflexivity|]. cbn beta. rewrite En. apply go_quiet. reflexivity. }
  rewrite R. unfold store_buf at 1. cbn [iexec hd tl run acc_step bind with_wr a_wr]. unfold acc_set_rd, acc_read. change (Z.to_nat 1) with 1%nat. cbn [read_loop a_buf a_sz a_rd a_wr with_wr].
  rewrite (word_small W (a_wr s)) by lia. cbn [a_buf a_sz a_rd a_wr with_wr]. rewrite (rd_ok _ _ _ Eo). cbn [bind]. rewrite (word_small W (a_wr s + 1)) by lia. replace (a_wr s + 1 >=? a_sz s) with false by lia. cbn [bind a_buf a_sz a_rd a_wr app with_wr].
  rewrite wr_ok by lia. cbn [bind]. unfold load_wr. cbn [iexec hd tl run bind a_buf a_sz a_rd a_wr with_wr]. replace (a_wr s + 1 >=? a_sz s) with false by lia. rewrite Hc'. reflexivity.
Qed.
End Access.
