From Verif.Common Require Import Base Lemmas Lists.
From Verif.Spec Require Import HandoffSpec.
From Verif.Model Require Import InterpWeak.

Lemma set_eq {A} (f : Z -> A) k x : set f k x k = x.
Proof. unfold set. rewrite Z.eqb_refl. reflexivity. Qed.
Lemma set_ne {A} (f : Z -> A) k x u : u <> k -> set f k x u = f u.
Proof. unfold set. intros. replace (u =? k) with false by lia. reflexivity. Qed.

Section P.
Variables (N : Z) (exchange window plain : bool).
Notation step := (iw_step N exchange window plain).
Notation irun := (iw_run N exchange window plain).

Definition closed : Prop := exchange = true \/ window = false.
Record Inv (s : iwstate) (h : hsum) : Prop := {
  n_w : forall i, written s i = h_written h i;
  n_b : forall i, h_taken h i <= c_know s i <= written s i;
  n_m : forall i, h_marked h i <= written s i;
  n_f : forall i, f_know s i <= written s i;
  n_t : f_val s = true -> forall i, h_marked h i <= f_know s i;
  n_d : c_pc s <> IIdle -> forall i, h_due h i <= c_know s i;
  n_s : c_pc s = IStore -> f_val s = true /\ exchange = false;
  n_r : forall k, c_pc s = IRead k -> 0 <= k < N;
  n_u : closed -> f_val s = false -> match c_pc s with
        | IIdle => forall i, 0 <= i < N -> h_marked h i <= h_taken h i
        | IStore => False
        | IRead k => (forall i, h_marked h i <= c_know s i) /\ forall i, 0 <= i < k -> h_marked h i <= h_taken h i end;
  n_v : closed -> c_pc s = IStore -> forall i, h_marked h i <= c_know s i }.

Lemma inv0 : Inv iw0 h0.
Proof using. constructor; cbn; intros; try lia; try discriminate; try congruence. Qed.

Lemma next_read_cases i : (next_read N i = IRead i /\ i < N) \/ (next_read N i = IIdle /\ N <= i).
Proof using. unfold next_read. destruct (Z.ltb_spec i N); auto. Qed.

Lemma step_inv s h a s' es : Inv s h -> step s a = Ok (s', es) -> handed_over h es /\ Inv s' (fold_left hnext es h).
Proof using.
  intros I E. pose proof I as []. destruct a as [i| |j]; cbn [iw_step] in E.
  - destruct ((0 <=? i) && (i <? N)); [|injection E as <- <-; split; [exact Logic.I|exact I]].
    destruct (plain && c_read s i); [discriminate|]. injection E as <- <-. cbn [handed_over fold_left hnext]. split; [auto|].
    assert (Hw : forall k, written s k <= set (written s) i (written s i + 1) k) by (intros k; unfold set; destruct (Z.eqb_spec k i) as [->|]; lia).
    constructor; cbn [written f_val f_know c_know c_pc h_written h_marked h_due h_taken]; auto.
    + intros k. unfold set. destruct (Z.eqb_spec k i) as [->|]; rewrite n_w0; reflexivity.
    + intros k. specialize (n_b0 k). specialize (Hw k). lia.
    + intros k. specialize (n_m0 k). specialize (Hw k). lia.
    + intros k. specialize (n_f0 k). specialize (Hw k). lia.
  - destruct (negb window && is_store (c_pc s)) eqn:Ew; injection E as <- <-; [split; [exact Logic.I|exact I]|].
    cbn [handed_over fold_left hnext]. split; [auto|].
    constructor; cbn [written f_val f_know c_know c_pc h_written h_marked h_due h_taken]; auto.
    + intros i. rewrite n_w0. lia.
    + intros i. lia.
    + intros _ i. rewrite n_w0. lia.
    + intros H. split; [reflexivity|apply n_s0; exact H].
    + discriminate.
    + intros [C|C] Hp i; [destruct (n_s0 Hp); congruence|]. rewrite C, Hp in Ew. discriminate.
  - destruct (c_pc s) as [| |k] eqn:Ep.
    + destruct (f_val s) eqn:Ef; [|injection E as <- <-; split; [exact Logic.I|exact I]].
      assert (Hk : forall i, h_marked h i <= join (c_know s) (f_know s) i) by (intros i; unfold join; specialize (n_t0 eq_refl i); lia).
      assert (Hj : forall i, h_taken h i <= join (c_know s) (f_know s) i <= written s i) by (intros i; unfold join; specialize (n_b0 i); specialize (n_f0 i); lia).
      destruct exchange eqn:Ex; injection E as <- <-; cbn [handed_over fold_left hnext]; (split; [auto|]);
        constructor; cbn [written f_val f_know c_know c_pc h_written h_marked h_due h_taken]; auto; try discriminate.
      * intros i. apply Hj.
      * destruct (next_read_cases 0) as [[-> ?]|[-> ?]]; discriminate.
      * destruct (next_read_cases 0) as [[-> ?]|[-> ?]]; intros k; [intros [= <-]; lia|discriminate].
      * intros _ _. destruct (next_read_cases 0) as [[-> ?]|[-> ?]]; [split; [exact Hk|intros; lia]|intros; lia].
    + injection E as <- <-. cbn [handed_over fold_left]. split; [auto|].
      assert (Hd : forall i, h_due h i <= c_know s i) by (apply n_d0; discriminate).
      constructor; cbn [written f_val f_know c_know c_pc]; auto; try discriminate; try (destruct (next_read_cases 0) as [[-> ?]|[-> ?]]; discriminate).
      * intros i. apply n_b0.
      * destruct (next_read_cases 0) as [[-> ?]|[-> ?]]; intros k; [intros [= <-]; lia|discriminate].
      * intros C _. destruct (next_read_cases 0) as [[-> ?]|[-> ?]]; [split; [exact (n_v0 C eq_refl)|intros; lia]|intros; lia].
    + specialize (n_r0 k eq_refl). assert (Hd : forall i, h_due h i <= c_know s i) by (apply n_d0; discriminate).
      assert (Hnext : forall know j, (forall i, i <> k -> know i = c_know s i) -> c_know s k <= know k -> know k = j -> know k <= written s k ->
         handed_over h [HTook k j] /\ Inv (IW (written s) (f_val s) (f_know s) know (next_read N (k + 1)) (set (c_read s) k true)) (fold_left hnext [HTook k j] h)).
      { intros know j0 Hne Hge Hj Hle. assert (Hk : forall i, c_know s i <= know i) by (intros i; destruct (Z.eq_dec i k) as [->|Hn]; [exact Hge|rewrite Hne by exact Hn; lia]).
        cbn [handed_over fold_left hnext]. split.
        { specialize (Hd k). specialize (n_b0 k). rewrite <- n_w0. lia. }
        constructor; cbn [written f_val f_know c_know c_pc h_written h_marked h_due h_taken]; auto.
        - intros i. unfold set. destruct (Z.eqb_spec i k) as [->|Hn]; [lia|]. rewrite Hne by exact Hn. apply n_b0.
        - intros _ i. specialize (Hd i). specialize (Hk i). lia.
        - destruct (next_read_cases (k + 1)) as [[-> ?]|[-> ?]]; discriminate.
        - destruct (next_read_cases (k + 1)) as [[-> ?]|[-> ?]]; intros q; [intros [= <-]; lia|discriminate].
        - intros C Hf. destruct (n_u0 C Hf) as [U1 U2].
          assert (U3 : forall i, 0 <= i < k + 1 -> h_marked h i <= set (h_taken h) k j0 i).
          { intros i Hi. unfold set. destruct (Z.eqb_spec i k) as [->|Hn]; [specialize (U1 k); lia|apply U2; lia]. }
          destruct (next_read_cases (k + 1)) as [[-> ?]|[-> ?]]; [split; [intros i; specialize (U1 i); specialize (Hk i); lia|exact U3]|intros i Hi; apply U3; lia].
        - destruct (next_read_cases (k + 1)) as [[-> ?]|[-> ?]]; discriminate. }
      destruct plain.
      * destruct (Z.ltb_spec (c_know s k) (written s k)); [discriminate|]. injection E as <- <-. specialize (n_b0 k). apply Hnext; auto; lia.
      * destruct ((c_know s k <=? j) && (j <=? written s k)) eqn:Ej; injection E as <- <-; [|split; [exact Logic.I|exact I]].
        apply andb_prop in Ej as [J1 J2]. apply Hnext; try (intros i Hn; apply set_ne; exact Hn); rewrite ?set_eq; auto; lia.
Qed.
Lemma handed_app h a b : handed_over h (a ++ b) <-> handed_over h a /\ handed_over (fold_left hnext a h) b.
Proof using. revert h; induction a as [|e a IH]; intros h; cbn [app handed_over fold_left]; [tauto|]. rewrite IH. tauto. Qed.
Lemma run_inv l : forall s h s' log, Inv s h -> irun s l = Ok (s', log) -> handed_over h log /\ Inv s' (fold_left hnext log h).
Proof using.
  induction l as [|a l IH]; intros s h s' log I E; cbn [iw_run] in E.
  - injection E as <- <-. split; [exact Logic.I|exact I].
  - destruct (step s a) as [[s1 e1]| |] eqn:Es; cbn [bind] in E; try discriminate.
    destruct (irun s1 l) as [[s2 e2]| |] eqn:Er; cbn [bind] in E; try discriminate. injection E as <- <-.
    destruct (step_inv _ _ _ _ _ I Es) as [H1 I1]. destruct (IH _ _ _ _ I1 Er) as [H2 I2].
    rewrite handed_app, fold_left_app. auto.
Qed.
Lemma run_app l1 : forall l2 s, irun s (l1 ++ l2) = let* (s1, e1) := irun s l1 in let* (s2, e2) := irun s1 l2 in Ok (s2, e1 ++ e2).
Proof using.
  induction l1 as [|a l1 IH]; intros l2 s; cbn [app iw_run bind].
  - destruct (irun s l2) as [[s2 e2]| |]; reflexivity.
  - destruct (step s a) as [[s1 e1]| |]; cbn [bind]; [|reflexivity|reflexivity]. rewrite IH.
    destruct (irun s1 l1) as [[s2 e2]| |]; cbn [bind]; [|reflexivity|reflexivity].
    destruct (irun s2 l2) as [[s3 e3]| |]; cbn [bind]; [rewrite app_assoc; reflexivity|reflexivity|reflexivity].
Qed.

Lemma up_to_date_when_idle l s log : closed -> irun iw0 l = Ok (s, log) -> c_pc s = IIdle -> f_val s = false -> up_to_date N log.
Proof using.
  intros C E Hp Hf. destruct (run_inv l _ _ _ _ inv0 E) as [_ I]. pose proof (n_u _ _ I C Hf) as U. rewrite Hp in U. exact U.
Qed.
Lemma taken_are_marked l s log : irun iw0 l = Ok (s, log) -> handed_over h0 log.
Proof using. intros E. exact (proj1 (run_inv l _ _ _ _ inv0 E)). Qed.
Lemma idle_stays js s : c_pc s = IIdle -> f_val s = false -> irun s (map CStep js) = Ok (s, []).
Proof using. intros Hp Hf. induction js as [|j js IH]; cbn [map iw_run iw_step]; [reflexivity|]. rewrite Hp, Hf. cbn [bind]. rewrite IH. reflexivity. Qed.
End P.

Lemma atomic_total N exchange window l : forall s, exists s' log, iw_run N exchange window false s l = Ok (s', log).
Proof.
  induction l as [|a l IH]; intros s; cbn [iw_run]; [eauto|].
  assert (H : exists s1 e1, iw_step N exchange window false s a = Ok (s1, e1)).
  { destruct a as [i| |j]; cbn [iw_step andb].
    - destruct (_ && _); eauto.
    - destruct (_ && _); eauto.
    - destruct (c_pc s); [destruct (f_val s); [destruct exchange|]|..]; eauto. destruct (_ && _); eauto. }
  destruct H as (s1 & e1 & ->). cbn [bind]. destruct (IH s1) as (s2 & e2 & ->). cbn [bind]. eauto.
Qed.

(* the lost reading *)
Section Lost.
Variable N : Z.
Notation irun := (iw_run N false true false).

Lemma write_run : forall (n : nat) i s, 0 <= i -> i + Z.of_nat n <= N -> exists s' log, irun s (write_lanes i n) = Ok (s', log) /\
  f_val s' = f_val s /\ f_know s' = f_know s /\ c_know s' = c_know s /\ c_pc s' = c_pc s /\
  (forall k, written s' k = written s k + (if (i <=? k) && (k <? i + Z.of_nat n) then 1 else 0)) /\
  forall h, h_marked (fold_left hnext log h) = h_marked h /\ h_taken (fold_left hnext log h) = h_taken h.
Proof using.
  unfold write_lanes. induction n as [|n IH]; intros i s Hi Hn; cbn [seq map iw_run].
  - exists s, []. splits; auto. intros k. replace ((i <=? k) && (k <? i + Z.of_nat 0)) with false by lia. lia.
  - cbn [iw_step]. rewrite Z.add_0_r. replace ((0 <=? i) && (i <? N)) with true by lia. cbn [andb bind].
    set (s1 := IW _ _ _ _ _ _).
    destruct (IH (i + 1) s1) as (s' & log & E & H1 & H2 & H3 & H4 & H5 & H6); try lia.
    rewrite <- seq_shift, map_map.
    rewrite (map_ext (fun x => PWrite (i + Z.of_nat (S x))) (fun k => PWrite (i + 1 + Z.of_nat k))) by (intros; f_equal; lia). rewrite E. cbn [bind].
    exists s', (HWrite i :: log). splits; auto.
    + intros k. rewrite H5. subst s1. cbn [written]. unfold set. destruct (Z.eqb_spec k i) as [->|Hne].
      * replace ((i + 1 <=? i) && (i <? i + 1 + Z.of_nat n)) with false by lia. replace ((i <=? i) && (i <? i + Z.of_nat (S n))) with true by lia. lia.
      * replace ((i <=? k) && (k <? i + Z.of_nat (S n))) with ((i + 1 <=? k) && (k <? i + 1 + Z.of_nat n)) by lia. reflexivity.
    + intros h. cbn [fold_left hnext]. destruct (H6 (HSum (set (h_written h) i (h_written h i + 1)) (h_marked h) (h_due h) (h_taken h))) as [-> ->]. auto.
Qed.
Lemma read_run (g : Z -> Z) : forall (n : nat) i s, 0 <= i -> i + Z.of_nat n = N -> c_pc s = next_read N i ->
  (forall k, c_know s k = g k) -> (forall k, g k <= written s k) ->
  exists s' log, irun s (map (fun k => CStep (g (i + Z.of_nat k))) (seq 0 n)) = Ok (s', log) /\
  c_pc s' = IIdle /\ f_val s' = f_val s /\
  forall h, h_marked (fold_left hnext log h) = h_marked h /\
    forall k, h_taken (fold_left hnext log h) k = if (i <=? k) && (k <? N) then g k else h_taken h k.
Proof using.
  induction n as [|n IH]; intros i s Hi Hn Hp Hg Hw; cbn [seq map iw_run].
  - exists s, []. unfold next_read in Hp. replace (i <? N) with false in Hp by lia. splits; auto. intros h. split; [reflexivity|].
    intros k. replace ((i <=? k) && (k <? N)) with false by lia. reflexivity.
  - cbn [iw_step]. rewrite Z.add_0_r. unfold next_read in Hp. replace (i <? N) with true in Hp by lia. rewrite Hp, Hg.
    replace ((g i <=? g i) && (g i <=? written s i)) with true by (specialize (Hw i); lia). cbn [bind].
    set (s1 := IW _ _ _ _ _ _).
    destruct (IH (i + 1) s1) as (s' & log & E & H1 & H2 & H3); try lia; auto.
    { intros k. subst s1. cbn [c_know]. unfold set. destruct (Z.eqb_spec k i) as [->|]; auto. }
    rewrite <- seq_shift, map_map.
    rewrite (map_ext (fun x => CStep (g (i + Z.of_nat (S x)))) (fun k => CStep (g (i + 1 + Z.of_nat k)))) by (intros; do 2 f_equal; lia). rewrite E. cbn [bind].
    exists s', (HTook i (g i) :: log). splits; auto. intros h. cbn [app fold_left hnext].
    destruct (H3 (HSum (h_written h) (h_marked h) (h_due h) (set (h_taken h) i (g i)))) as [-> Ht]. split; [reflexivity|].
    intros k. rewrite Ht. cbn [h_taken]. unfold set. destruct (Z.eqb_spec k i) as [->|Hne].
    + replace ((i + 1 <=? i) && (i <? N)) with false by lia. replace ((i <=? i) && (i <? N)) with true by lia. reflexivity.
    + replace ((i <=? k) && (k <? N)) with ((i + 1 <=? k) && (k <? N)) by lia. reflexivity.
Qed.

Definition lose (know : Z -> Z) : list iwact :=
  write_lanes 0 (Z.to_nat N) ++ [PMark; CStep 0] ++ write_lanes 0 (Z.to_nat N) ++ [PMark; CStep 0] ++
  map (fun k => CStep (know (0 + Z.of_nat k))) (seq 0 (Z.to_nat N)).

Lemma lost_reading l0 s0 log0 : 0 < N -> irun iw0 l0 = Ok (s0, log0) -> c_pc s0 = IIdle ->
  exists l s log, irun iw0 (l0 ++ l) = Ok (s, log0 ++ log) /\ c_pc s = IIdle /\
    (forall i, 0 <= i < N -> h_marked (summary (log0 ++ log)) i = h_taken (summary (log0 ++ log)) i + 1) /\
    forall js, irun s (map CStep js) = Ok (s, []).
Proof using.
  intros HN E0 Hp0. destruct (run_inv N false true false l0 _ _ _ _ (inv0 N false true) E0) as [_ I0]. fold (summary log0) in I0.
  destruct (write_run (Z.to_nat N) 0 s0 ltac:(lia) ltac:(lia)) as (s1 & g1 & E1 & A1 & A2 & A3 & A4 & A5 & A6).
  set (s2 := IW (written s1) true (written s1) (join (c_know s1) (written s1)) IStore (c_read s1)).
  assert (E2 : irun s1 [PMark; CStep 0] = Ok (s2, [HMark; HSeen])) by (cbn; rewrite A4, Hp0; reflexivity).
  destruct (write_run (Z.to_nat N) 0 s2 ltac:(lia) ltac:(lia)) as (s3 & g3 & E3 & B1 & B2 & B3 & B4 & B5 & B6).
  set (s4 := IW (written s3) false (c_know s3) (c_know s3) (next_read N 0) (c_read s3)).
  assert (E4 : irun s3 [PMark; CStep 0] = Ok (s4, [HMark])) by (cbn; rewrite B4; reflexivity).
  assert (Hb0 : forall k, c_know s1 k <= written s1 k).
  { intros k. rewrite A3, A5. pose proof (n_b _ _ _ _ _ I0 k). destruct (_ && _); lia. }
  destruct (read_run (c_know s4) (Z.to_nat N) 0 s4) as (s5 & g5 & E5 & C1 & C2 & C3); try lia; auto.
  { intros k. subst s4. cbn [c_know written]. rewrite B3, B5. subst s2. cbn [c_know written]. unfold join. specialize (Hb0 k). destruct (_ && _); lia. }
  exists (lose (c_know s4)), s5. eexists.
  assert (Er : irun iw0 (l0 ++ lose (c_know s4)) = Ok (s5, log0 ++ g1 ++ [HMark; HSeen] ++ g3 ++ [HMark] ++ g5)).
  { unfold lose. rewrite !run_app, E0. cbn [bind]. rewrite run_app, E1. cbn [bind]. rewrite run_app, E2. cbn [bind]. rewrite run_app, E3. cbn [bind].
    rewrite run_app, E4. cbn [bind]. rewrite E5. reflexivity. }
  split; [exact Er|]. split; [exact C1|]. split; [|intros js; apply idle_stays; [exact C1|rewrite C2; reflexivity]].
  intros i Hi. destruct (run_inv N false true false _ _ _ _ _ (inv0 N false true) Er) as [_ I5].
  unfold summary. rewrite !app_assoc. rewrite <- !app_assoc. rewrite !fold_left_app. cbn [fold_left].
  destruct (C3 (fold_left hnext [HMark] (fold_left hnext g3 (fold_left hnext [HMark; HSeen] (fold_left hnext g1 (fold_left hnext log0 h0)))))) as [D1 D2].
  cbn [fold_left] in D1, D2. rewrite D1, D2. replace ((0 <=? i) && (i <? N)) with true by lia.
  (* marked = written in s3; known = written in s1 *)
  assert (Er3 : irun iw0 (l0 ++ write_lanes 0 (Z.to_nat N) ++ [PMark; CStep 0] ++ write_lanes 0 (Z.to_nat N)) = Ok (s3, log0 ++ g1 ++ [HMark; HSeen] ++ g3)).
  { rewrite !run_app, E0. cbn [bind]. rewrite run_app, E1. cbn [bind]. rewrite run_app, E2. cbn [bind]. rewrite E3. reflexivity. }
  destruct (run_inv N false true false _ _ _ _ _ (inv0 N false true) Er3) as [_ I3]. rewrite !fold_left_app in I3. cbn [fold_left] in I3.
  pose proof (n_w _ _ _ _ _ I3 i) as W3. cbn [hnext h_marked] in W3 |- *. rewrite <- W3, B5. subst s4. cbn [c_know]. rewrite B3. subst s2. cbn [c_know written]. unfold join.
  replace ((0 <=? i) && (i <? 0 + Z.of_nat (Z.to_nat N))) with true by lia. specialize (Hb0 i). lia.
Qed.
End Lost.

(* ordinary memory *)
Section Plain.
Variables (N : Z) (exchange window : bool).
Notation irun := (iw_run N exchange window true).
Notation step := (iw_step N exchange window true).

Record PInv (marked : bool) (s : iwstate) : Prop := {
  q_new : marked = false -> f_val s = false /\ c_pc s = IIdle /\ forall i, c_read s i = false;
  q_le : forall i, c_know s i <= written s i;
  q_flag : f_val s = true -> forall i, f_know s i = written s i;
  q_pc : c_pc s <> IIdle -> forall i, c_know s i = written s i }.
Lemma plain_step marked s a : PInv marked s -> one_batch marked [a] ->
  exists s' es, step s a = Ok (s', es) /\ PInv (match a with PMark => true | _ => marked end) s'.
Proof using.
  intros P H. pose proof P as []. destruct a as [i| |j]; cbn [iw_step one_batch] in *.
  - destruct H as [-> _]. destruct (q_new0 eq_refl) as (F & Hp & R). destruct (_ && _); [|eauto]. rewrite R. cbn [andb].
    eexists _, _. split; [reflexivity|]. constructor; cbn [f_val c_pc c_read c_know written f_know]; auto; try congruence.
    intros k. unfold set. destruct (Z.eqb_spec k i) as [->|]; [specialize (q_le0 i); lia|auto].
  - destruct (_ && _).
    + eexists _, _. split; [reflexivity|]. constructor; auto. discriminate.
    + eexists _, _. split; [reflexivity|]. constructor; cbn [f_val c_pc c_read c_know written f_know]; auto; discriminate.
  - destruct marked.
    2: { destruct (q_new0 eq_refl) as (F & Hp & R). rewrite Hp, F. eauto. }
    destruct (c_pc s) as [| |k] eqn:Ep.
    + destruct (f_val s) eqn:Ef; [|eauto].
      assert (Hj : forall i, join (c_know s) (f_know s) i = written s i) by (intros i; unfold join; rewrite (q_flag0 eq_refl i); specialize (q_le0 i); lia).
      destruct exchange; eexists _, _; (split; [reflexivity|]); constructor; cbn [f_val c_pc c_read c_know written f_know]; auto; try discriminate;
        intros; rewrite Hj; try reflexivity; lia.
    + eexists _, _. split; [reflexivity|]. constructor; cbn [f_val c_pc c_read c_know written f_know]; auto; try discriminate; intros; apply q_pc0; discriminate.
    + rewrite (q_pc0 ltac:(discriminate) k). rewrite Z.ltb_irrefl.
      eexists _, _. split; [reflexivity|]. constructor; cbn [f_val c_pc c_read c_know written f_know]; auto; try discriminate; intros; apply q_pc0; discriminate.
Qed.
Lemma plain_run l : forall marked s, PInv marked s -> one_batch marked l -> exists s' log, irun s l = Ok (s', log).
Proof using.
  induction l as [|a l IH]; intros marked s P H; cbn [iw_run]; [eauto|].
  destruct (plain_step marked s a P) as (s1 & e1 & E1 & P1). { destruct a; cbn [one_batch] in *; tauto. }
  rewrite E1. cbn [bind]. destruct (IH _ s1 P1) as (s2 & e2 & E2). { destruct a; cbn [one_batch] in H; tauto. }
  rewrite E2. cbn [bind]. eauto.
Qed.
Lemma plain_one_batch l : one_batch false l -> exists s log, irun iw0 l = Ok (s, log).
Proof using. apply plain_run. constructor; cbn; intros; auto; try lia; discriminate. Qed.

(* a lane taken once may not be written again *)
Lemma step_read s a s' es : step s a = Ok (s', es) -> forall i, c_read s' i = true <-> c_read s i = true \/ exists j, In (HTook i j) es.
Proof using.
  intros E i. assert (Hno : forall e : list hevent, (forall k j, ~ In (HTook k j) e) -> (c_read s i = true <-> c_read s i = true \/ exists j, In (HTook i j) e)).
  { intros e He. split; [auto|]. intros [H|(j & H)]; [exact H|]. exfalso. eapply He; eauto. }
  destruct a as [k| |j]; cbn [iw_step] in E.
  - destruct (_ && _); [destruct (true && _); [discriminate|]|]; injection E as <- <-; apply Hno; intros ? ? H; cbn in H; intuition discriminate.
  - destruct (_ && _); injection E as <- <-; apply Hno; intros ? ? H; cbn in H; intuition discriminate.
  - destruct (c_pc s) as [| |k].
    + destruct (f_val s); [destruct exchange|]; injection E as <- <-; apply Hno; intros ? ? H; cbn in H; intuition discriminate.
    + injection E as <- <-. apply Hno. intros ? ? [].
    + destruct (_ <? _); [discriminate|]. injection E as <- <-. cbn [c_read]. unfold set. destruct (Z.eqb_spec i k) as [->|Hne].
      * split; [intros _; right; eexists; left; reflexivity|reflexivity].
      * split; [auto|]. intros [H|(j0 & [H|[]])]; [exact H|]. injection H as -> _. congruence.
Qed.
Lemma run_read l : forall s s' log, irun s l = Ok (s', log) -> forall i, c_read s' i = true <-> c_read s i = true \/ exists j, In (HTook i j) log.
Proof using.
  induction l as [|a l IH]; intros s s' log E i; cbn [iw_run] in E.
  - injection E as <- <-. split; [auto|]. intros [H|(j & [])]. exact H.
  - destruct (step s a) as [[s1 e1]| |] eqn:Es; cbn [bind] in E; try discriminate.
    destruct (irun s1 l) as [[s2 e2]| |] eqn:Er; cbn [bind] in E; try discriminate. injection E as <- <-.
    rewrite (IH _ _ _ Er i), (step_read _ _ _ _ Es i). split.
    + intros [[H|(j & H)]|(j & H)]; [auto|right; exists j; apply in_or_app; auto|right; exists j; apply in_or_app; auto].
    + intros [H|(j & H)]; [auto|]. apply in_app_or in H as [H|H]; eauto.
Qed.
Lemma plain_race l s log i j : irun iw0 l = Ok (s, log) -> In (HTook i j) log -> 0 <= i < N ->
  irun iw0 (l ++ [PWrite i]) = UB DataRace.
Proof using.
  intros E H Hi. rewrite run_app, E. cbn [bind iw_run iw_step]. replace ((0 <=? i) && (i <? N)) with true by lia.
  replace (c_read s i) with true; [reflexivity|]. symmetry. apply (run_read _ _ _ _ E i). eauto.
Qed.
End Plain.

(* marks outside the window *)
Lemma window_step N e p s a : (a = PMark -> c_pc s <> IStore) -> iw_step N e false p s a = iw_step N e true p s a.
Proof. destruct a; intros H; try reflexivity. cbn [iw_step]. specialize (H eq_refl). destruct (c_pc s); try reflexivity. congruence. Qed.
Lemma window_run N e p l : forall s,
  (forall l1 l2 s1 log1, l = l1 ++ PMark :: l2 -> iw_run N e true p s l1 = Ok (s1, log1) -> c_pc s1 <> IStore) ->
  iw_run N e false p s l = iw_run N e true p s l.
Proof.
  induction l as [|a l IH]; intros s H; [reflexivity|]. cbn [iw_run]. rewrite window_step.
  - destruct (iw_step N e true p s a) as [[s1 e1]|u|] eqn:E; [|reflexivity|reflexivity]. cbn [bind]. rewrite IH; [reflexivity|].
    intros l1 l2 s2 log2 El R. apply (H (a :: l1) l2 s2 (e1 ++ log2)); [rewrite El; reflexivity|]. cbn [iw_run]. rewrite E. cbn [bind]. rewrite R. reflexivity.
  - intros ->. apply (H [] l s []); reflexivity.
Qed.
