From Verif.Common Require Import Base Lemmas Lists.
From Verif.Spec Require Import PoolSpec.
From Verif.Model Require Import Pool.

Section P.
Context {T : Type}.
Variable dflt : T.

Definition live (e : entry T) : option T := if e_used e then Some (e_data e) else None.

Lemma claim_ok fresh (l : list (entry T)) : forall i,
  (exists j e, claim fresh i l = (zupd l j (Entry (fresh (e_data e)) true), Some (i + j)) /\ 0 <= j < zlen l /\ znth l j = Some e /\ e_used e = false) \/
  (claim fresh i l = (l, None) /\ Forall (fun e => e_used e = true) l).
Proof.
  induction l as [|e l IH]; intros i; cbn [claim]; [right; split; [reflexivity|constructor]|].
  destruct (e_used e) eqn:Eu; cbn [negb].
  - destruct (IH (i + 1)) as [(j & e' & E & Hj & Hz & Hu)|(E & HF)]; rewrite E.
    + left. exists (j + 1), e'. rewrite zlen_cons. splits; auto; try lia.
      * unfold zupd. replace (j + 1 <? 0) with false by lia. replace (j <? 0) with false by lia.
        replace (Z.to_nat (j + 1)) with (S (Z.to_nat j)) by lia. cbn [upd_nat]. do 2 f_equal. lia.
      * rewrite znth_cons_pos by lia. replace (j + 1 - 1) with j by lia. assumption.
    + right. split; [reflexivity|constructor; assumption].
  - left. exists 0, e. rewrite zlen_cons. pose proof (zlen_nonneg l). splits; auto; try lia. cbn. do 2 f_equal. lia.
Qed.

Lemma release_ok p (l : list (entry T)) : forall i,
  (exists j e, p = Slot (i + j) /\ release p i l = (zupd l j (Entry (e_data e) false), true) /\ 0 <= j < zlen l /\ znth l j = Some e /\ e_used e = true) \/
  (release p i l = (l, false) /\ match p with Foreign => True | Slot j => forall e, znth l (j - i) = Some e -> e_used e = false end).
Proof.
  induction l as [|e l IH]; intros i; cbn [release].
  - right. split; [reflexivity|]. destruct p; [|exact I]. intros e. rewrite znth_nil. discriminate.
  - destruct (e_used e && match p with Slot j => i =? j | Foreign => false end) eqn:Ec.
    + left. exists 0, e. apply andb_prop in Ec. destruct Ec as [Eu Ep]. destruct p as [j|]; [|discriminate].
      rewrite zlen_cons. pose proof (zlen_nonneg l). splits; auto; try lia. f_equal; lia.
    + destruct (IH (i + 1)) as [(j & e' & Ep & E & Hj & Hz & Hu)|(E & HF)]; rewrite E.
      * left. exists (j + 1), e'. rewrite zlen_cons. splits; auto; try lia.
        -- rewrite Ep. f_equal; lia.
        -- unfold zupd. replace (j + 1 <? 0) with false by lia. replace (j <? 0) with false by lia.
           replace (Z.to_nat (j + 1)) with (S (Z.to_nat j)) by lia. reflexivity.
        -- rewrite znth_cons_pos by lia. replace (j + 1 - 1) with j by lia. assumption.
      * right. split; [reflexivity|]. destruct p as [j|]; [|exact I]. intros e'. rewrite znth_cons.
        destruct (Z.eqb_spec (j - i) 0).
        -- intros [= <-]. replace (i =? j) with true in Ec by lia. destruct (e_used e); [discriminate|reflexivity].
        -- destruct (Z.ltb_spec (j - i) 0); [discriminate|]. replace (j - i - 1) with (j - (i + 1)) by lia. apply HF.
Qed.

Lemma map_zupd {A B} (f : A -> B) (l : list A) i x : map f (zupd l i x) = zupd (map f l) i (f x).
Proof.
  unfold zupd. destruct (i <? 0); [reflexivity|]. generalize (Z.to_nat i). clear i.
  induction l as [|a l IH]; intros [|n]; cbn; try reflexivity. f_equal; apply IH.
Qed.
Lemma znth_map {A B} (f : A -> B) (l : list A) i : znth (map f l) i = option_map f (znth l i).
Proof. unfold znth. destruct (i <? 0); [reflexivity|]. rewrite nth_error_map. reflexivity. Qed.
Lemma zlen_map {A B} (f : A -> B) (l : list A) : zlen (map f l) = zlen l.
Proof. unfold zlen. rewrite map_length. reflexivity. Qed.
Lemma zupd_same {A} (l : list A) i x : znth l i = Some x -> zupd l i x = l.
Proof.
  intros H. apply znth_opt_ext. intros j Hj. rewrite znth_zupd. destruct (Z.eqb_spec i j); cbn [andb]; [subst j|reflexivity].
  destruct ((0 <=? i) && (i <? zlen l)); congruence.
Qed.

Variable N : Z.
Definition PRel (s : list (entry T)) (l : list (option T)) : Prop := zlen s = N /\ l = map live s.

Lemma p_refines s l o : PRel s l -> pop_ok N o ->
  exists s' r l', p_step dflt s o = Ok (s', r) /\ pool_spec dflt l o r l' /\ PRel s' l'.
Proof.
  intros (HN & ->) Ho. destruct o as [| |p|i x|i]; cbn [p_step pool_spec pop_ok] in *.
  - unfold p_create. destruct (claim_ok (fun _ => dflt) s 0) as [(j & e & E & Hj & Hz & Hu)|(E & HF)]; rewrite E.
    + do 3 eexists; splits; [reflexivity| |split; [rewrite zlen_zupd; assumption|reflexivity]].
      left. exists j. splits; [reflexivity| |rewrite map_zupd; reflexivity]. rewrite znth_map, Hz. cbn. unfold live. rewrite Hu. reflexivity.
    + do 3 eexists; splits; [reflexivity| |split; [assumption|reflexivity]]. right. splits; auto.
      rewrite Forall_map. eapply Forall_impl; [|exact HF]. intros e He. unfold live. rewrite He. discriminate.
  - unfold p_create_ow. destruct (claim_ok (fun x => x) s 0) as [(j & e & E & Hj & Hz & Hu)|(E & HF)]; rewrite E.
    + do 3 eexists; splits; [reflexivity| |split; [rewrite zlen_zupd; assumption|reflexivity]].
      left. exists j, (e_data e). splits; [reflexivity| |rewrite map_zupd; reflexivity]. rewrite znth_map, Hz. cbn. unfold live. rewrite Hu. reflexivity.
    + do 3 eexists; splits; [reflexivity| |split; [assumption|reflexivity]]. right. splits; auto.
      rewrite Forall_map. eapply Forall_impl; [|exact HF]. intros e He. unfold live. rewrite He. discriminate.
  - destruct (release_ok p s 0) as [(j & e & -> & E & Hj & Hz & Hu)|(E & HF)]; rewrite E.
    + do 3 eexists; splits; [reflexivity| |split; [rewrite zlen_zupd; assumption|reflexivity]]. replace (0 + j) with j by lia.
      left. exists (e_data e). splits; auto; [|rewrite map_zupd; reflexivity]. rewrite znth_map, Hz. cbn. unfold live. rewrite Hu. reflexivity.
    + do 3 eexists; splits; [reflexivity| |split; [assumption|reflexivity]]. destruct p as [j|]; [|auto]. right. splits; auto.
      intros x Hx. rewrite znth_map in Hx. replace (j - 0) with j in HF by lia. destruct (znth s j) as [e|]; [|discriminate].
      cbn in Hx. specialize (HF e eq_refl). unfold live in Hx. rewrite HF in Hx. discriminate.
  - unfold p_write. destruct (znth_some s i) as [e He]; [lia|]. rewrite (rd_ok _ _ _ He). cbn [bind]. rewrite wr_ok by lia. cbn [bind].
    do 3 eexists; splits; [reflexivity|reflexivity|reflexivity|]. split; [rewrite zlen_zupd; assumption|].
    rewrite map_zupd, znth_map, He. cbn [option_map]. unfold live at 1 2; cbn [e_used e_data]. destruct (e_used e) eqn:Eu; [reflexivity|].
    symmetry. apply zupd_same. rewrite znth_map, He. cbn. unfold live. rewrite Eu. reflexivity.
  - unfold p_read. destruct (znth_some s i) as [e He]; [lia|]. rewrite (rd_ok _ _ _ He). cbn [bind].
    do 3 eexists; splits; [reflexivity| |split; [assumption|reflexivity]]. exists (e_data e). splits; auto.
    intros y Hy. rewrite znth_map, He in Hy. cbn in Hy. unfold live in Hy. destruct (e_used e); [congruence|discriminate].
Qed.

Lemma p_run ops : 0 <= N -> Forall (pop_ok N) ops ->
  exists s' outs l', run (p_step dflt) (pool_init dflt N) ops = Ok (s', outs) /\
    rel_run (pool_spec dflt) (zrepeat None N) ops outs l' /\ zlen l' = N.
Proof.
  intros HN HF.
  destruct (run_refines_rel (p_step dflt) (pool_spec dflt) (fun _ o => pop_ok N o) PRel) with (ops := ops) (s := pool_init dflt N) (q := @zrepeat (option T) None N)
    as (s' & rs & l' & E & HS & HR).
  - intros s q o HR Ho. apply p_refines; assumption.
  - split; [unfold pool_init; rewrite zlen_zrepeat; lia|]. unfold pool_init, zrepeat. generalize (Z.to_nat N). intros n. induction n as [|n IH]; cbn; [reflexivity|]. f_equal; exact IH.
  - intros o Ho q. rewrite Forall_forall in HF. auto.
  - exists s', rs, l'. splits; auto. destruct HR as (H & ->). rewrite zlen_map. assumption.
Qed.

End P.
