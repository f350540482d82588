From Verif.Common Require Import Base Lemmas Lists.
From Verif.Spec Require Import WearSpec WearCrashSpec.
From Verif.Model Require Import WearLevel WearCrash.
From Verif.Proofs Require Import WearLevel.

Section P.
Context {S D : Type} (st : storage S D).
Variables (W N : Z) (valid : D -> bool) (cell : S -> Z -> content D) (reset : bool) (d0 : D).
Hypothesis good : reads_back st N valid cell.
Hypothesis HN : 0 < N.
Hypothesis HW : N + 1 < 2 ^ W.
Hypothesis He : erases st N cell.
Notation off := (offers N valid cell).

Definition known (s : S) (past : list D) : Prop := forall i y, off s i y -> In y past.
Lemma known_write s x j past : 0 <= j < N -> cell s j = Blank -> known s past -> known (fst (st_write st s x j)) (x :: past).
Proof using good.
  intros Hj Ej HK i y (A & B & C). destruct (g_write _ _ _ _ good s x j Hj Ej) as (_ & W1 & W2). destruct (Z.eq_dec i j) as [->|Hn].
  - rewrite W1 in B. injection B as <-. left. reflexivity.
  - rewrite W2 in B by exact Hn. right. apply (HK i). unfold offers. auto.
Qed.
Lemma known_torn s x j s' past : torn valid cell s j x s' -> known s past -> known s' (x :: past).
Proof using.
  intros [H1 H2] HK i y (A & B & C). destruct (Z.eq_dec i j) as [->|Hn].
  - destruct H2 as [H2|[H2|(t & H2 & H3)]]; rewrite H2 in B; try discriminate B; injection B as <-; [left; reflexivity|congruence].
  - rewrite H1 in B by exact Hn. right. apply (HK i). unfold offers. auto.
Qed.
Lemma known_erase s past : known (fst (st_erase st s)) past.
Proof using He. intros i y (A & B & _). destruct (He s) as [_ E]. rewrite E in B by exact A. discriminate B. Qed.
Lemma known_more s x past : known s past -> known s (x :: past).
Proof using. intros HK i y H. right. eapply HK; eauto. Qed.
Lemma exists_latest s : exists o, latest N valid cell s o.
Proof using good HN HW d0. eexists. apply (latest_restart st N valid cell good s d0 d0). lia. Qed.

Lemma life_refines es : forall w cur past rs w', inv N valid cell w -> latest N valid cell (wl_store w) cur -> known (wl_store w) past ->
  Forall (event_valid valid) es -> wl_life st W N valid cell reset d0 w es rs w' -> lossy_register cur past es rs.
Proof using good HN HW He.
  induction es as [|e es IH]; intros w cur past rs w' Hi Hl HK HV HL; inversion HL; subst; [constructor|idtac|idtac]; inversion HV as [|? ? V1 V2]; subst.
  - match goal with H : wl_step _ _ _ _ _ _ _ ?q = _ |- _ => rename H into Es; rename q into oo end. match goal with H : wl_life _ _ _ _ _ _ _ _ _ _ _ |- _ => rename H into HR end.
    destruct oo as [x|buf|]; cbn [wl_step] in Es.
    + inversion V1 as [|? ? Vx _]; subst. destruct (write_register st W N valid cell good reset w x HN HW He Hi Vx) as (w2 & l2 & E & A & B). rewrite E in Es. cbn [bind] in Es. injection Es as <- <- <-.
      apply lr_call with (cur' := Some x); [reflexivity|]. cbn [event_writes app]. eapply IH; eauto.
      destruct Hi as [Hc Hup]. destruct (write_good st W N valid cell good reset w x HN HW He Hc) as [(j & Hj & Ej & _ & E2)|[_ E2]]; rewrite E2 in E; injection E as <- _.
      * cbn [wl_store]. apply known_write; [lia|exact Ej|exact HK].
      * cbn [wl_store]. apply known_write; [lia|destruct (He (wl_store w)) as [_ E3]; apply E3; lia|]. apply known_erase.
    + pose proof (wl_read_latest st N valid cell good w buf Hi) as Hr. destruct (wl_read st valid w buf) as [r2 l2]. cbn [fst] in Hr. injection Es as <- <- <-.
      rewrite (latest_fun _ _ _ _ _ _ Hr Hl). apply lr_call with (cur' := cur); [reflexivity|]. eapply IH; eauto.
    + injection Es as <- <- <-. apply lr_call with (cur' := cur); [reflexivity|]. refine (IH _ _ _ _ _ _ _ _ V2 HR); [apply construct_inv; [exact good|lia]|exact Hl|exact HK].
  - match goal with H : wl_write _ _ _ _ _ ?q = _ |- _ => rename H into Es; rename q into xx end. match goal with H : wl_life _ _ _ _ _ _ _ _ _ _ _ |- _ => rename H into HR end. match goal with H : crash _ _ _ _ _ _ _ _ |- _ => rename H into Hc end.
    inversion V1 as [|? ? Vx _]; subst. destruct (exists_latest s') as [o Ho].
    assert (HI : inv N valid cell (construct st N valid s' d0)) by (apply construct_inv; [exact good|lia]).
    destruct Hi as [Hb Hup]. destruct (write_good st W N valid cell good reset w xx HN HW He Hb) as [(j & Hj & Ej & _ & E2)|[_ E2]]; rewrite E2 in Es; injection Es as <- <- <-; cbn [erasing existsb orb].
    + assert (Ht : torn valid cell (wl_store w) j xx s').
      { inversion Hc as [? ?|? ? ? ? Ht|? ? ? ? Ha| |]; subst.
        - split; [reflexivity|]. left. exact Ej.
        - exact Ht.
        - inversion Ha; subst. destruct (g_write _ _ _ _ good (wl_store w) xx j ltac:(lia) Ej) as (_ & W1 & W2). split; [exact W2|]. right; left; exact W1. }
      pose proof (known_torn _ _ _ _ _ Ht HK) as HK2.
      destruct (torn_latest N valid cell (wl_store w) j xx s' cur o ltac:(lia) Ej Vx ltac:(intros k y Hk; apply Hup; lia) Ht Hl Ho) as [->| ->].
      * apply lr_kept. eapply IH; eauto.
      * apply lr_written. eapply IH; eauto.
    + assert (HK2 : known s' (xx :: past)).
      { inversion Hc as [? ?| | |? ? ? Ht|? ? ? Ha]; subst.
        - apply known_more. exact HK.
        - intros i y (A & B & C). right. destruct (Ht i) as [E|[E|(t & E & F)]]; rewrite E in B.
          + apply (HK i). unfold offers. auto.
          + discriminate B.
          + injection B as <-. congruence.
        - assert (HK3 : known (fst (st_erase st (wl_store w))) past) by apply known_erase. assert (EB : cell (fst (st_erase st (wl_store w))) 0 = Blank) by (destruct (He (wl_store w)) as [_ E3]; apply E3; lia).
          inversion Ha as [? ?|? ? ? ? Ht|? ? ? ? Hd| |]; subst.
          + apply known_more. exact HK3.
          + eapply known_torn; eauto.
          + inversion Hd; subst. apply known_write; [lia|exact EB|exact HK3]. }
      apply lr_erased with (o := o); [|eapply IH; eauto].
      intros y ->. destruct Ho as (i & Hi & _). apply (HK2 i). exact Hi.
Qed.
(* every life can happen *)
Lemma life_exists es : forall w, inv N valid cell w -> Forall (event_valid valid) es -> exists rs w', wl_life st W N valid cell reset d0 w es rs w'.
Proof using good HN HW He.
  induction es as [|e es IH]; intros w Hi HV; [exists [], w; constructor|]. inversion HV as [|? ? V1 V2]; subst. destruct e as [o|x].
  - assert (HS : exists w1 r l, wl_step st W N valid reset d0 w o = Ok (w1, (r, l)) /\ inv N valid cell w1).
    { destruct o as [x|buf|]; cbn [wl_step].
      - inversion V1 as [|? ? Vx _]; subst. destruct (write_register st W N valid cell good reset w x HN HW He Hi Vx) as (w2 & l2 & E & A & B). rewrite E. cbn [bind]. eauto.
      - destruct (wl_read st valid w buf). eauto.
      - do 3 eexists. split; [reflexivity|]. apply construct_inv; [exact good|lia]. }
    destruct HS as (w1 & r & l & E & A). destruct (IH w1 A V2) as (rs & w' & HL). exists (Answer r :: rs), w'. econstructor; eauto.
  - inversion V1 as [|? ? Vx _]; subst. destruct (write_register st W N valid cell good reset w x HN HW He Hi Vx) as (w2 & l2 & E & A & B).
    destruct (IH (construct st N valid (wl_store w) d0)) as (rs & w' & HL); [apply construct_inv; [exact good|lia]|exact V2|].
    exists (CutOff (erasing l2) :: rs), w'. eapply life_lost; eauto. apply crash_before.
Qed.
End P.

(* what a lossy register never does *)
Lemma lossy_reads_known {D} (cur : option D) past es rs : lossy_register cur past es rs -> (forall y, cur = Some y -> In y past) ->
  forall y, In (Answer (WoRead (Some y))) rs -> In y (concat (map event_writes es) ++ past).
Proof.
  induction 1 as [|cur past o cur' r es rs E H IH|cur past x es rs H IH|cur past x es rs H IH|cur past x o es rs Ho H IH]; intros HC y HY; cbn [map concat].
  - destruct HY.
  - destruct HY as [HY|HY].
    + injection HY as ->. destruct o; cbn [register_spec] in E; injection E as E1 E2; try discriminate E2. apply in_or_app. right. apply HC. congruence.
    + assert (Q : In y (concat (map event_writes es) ++ event_writes (Call o) ++ past)).
      { apply IH; [|exact HY]. intros z Hz. apply in_or_app. destruct o; cbn [register_spec event_writes] in *; injection E as E1 E2; subst; [left; left; congruence|right; apply HC; reflexivity|right; apply HC; reflexivity]. }
      rewrite !in_app_iff in *. tauto.
  - destruct HY as [HY|HY]; [discriminate HY|]. assert (Q : In y (concat (map event_writes es) ++ x :: past)) by (apply IH; [intros z Hz; right; apply HC; exact Hz|exact HY]). cbn [event_writes app]. rewrite !in_app_iff in *. cbn [In] in *. rewrite in_app_iff. tauto.
  - destruct HY as [HY|HY]; [discriminate HY|]. assert (Q : In y (concat (map event_writes es) ++ x :: past)) by (apply IH; [intros z Hz; left; congruence|exact HY]). cbn [event_writes app]. rewrite !in_app_iff in *. cbn [In] in *. rewrite in_app_iff. tauto.
  - destruct HY as [HY|HY]; [discriminate HY|]. assert (Q : In y (concat (map event_writes es) ++ x :: past)) by (apply IH; [exact Ho|exact HY]). cbn [event_writes app]. rewrite !in_app_iff in *. cbn [In] in *. rewrite in_app_iff. tauto.
Qed.

Lemma only_written (S D : Type) (st : storage S D) (W N : Z) (valid : D -> bool) (cell : S -> Z -> content D)
         (reset : bool) (d0 : D) (s : S) (past : list D) (es : list (wevent D)) rs (w' : wl) (y : D) :
    reads_back st N valid cell -> erases st N cell -> 0 < N -> N + 1 < 2 ^ W ->
    (forall i z, offers N valid cell s i z -> In z past) -> Forall (event_valid valid) es ->
    wl_life st W N valid cell reset d0 (construct st N valid s d0) es rs w' ->
    In (Answer (WoRead (Some y))) rs -> In y past \/ In (Call (WWrite y)) es \/ In (Lost y) es.
Proof.
  intros G He HN HW HK HV HL HY. pose proof (latest_restart st N valid cell G s d0 d0 ltac:(lia)) as Hl. set (cur := fst _) in Hl.
  assert (HR : lossy_register cur past es rs) by exact (life_refines st W N valid cell reset d0 G HN HW He es _ cur past rs w' (construct_inv st N valid cell G s d0 ltac:(lia)) Hl HK HV HL).
  pose proof (lossy_reads_known cur past es rs HR) as Q. assert (C : forall z, cur = Some z -> In z past) by (intros z Hz; rewrite Hz in Hl; destruct Hl as (i & Hi & _); eapply HK; eauto).
  specialize (Q C y HY). apply in_app_or in Q. destruct Q as [Q|Q]; [|auto]. right. apply in_concat in Q. destruct Q as (l & Hl2 & Hy). apply in_map_iff in Hl2. destruct Hl2 as (e & <- & He2).
  destruct e as [[x|b|]|x]; cbn [event_writes] in Hy; try (destruct Hy as [->|[]]); auto; destruct Hy.
Qed.

(* the concrete flash of WearSpec *)
Lemma flash_good N : reads_back (flash N true) N flash_valid flash_cell.
Proof.
  constructor; unfold flash_cell, flash, flash_valid; cbn [st_read st_writeable st_write st_erase fst snd].
  - intros s i d x _ H. destruct (s i); congruence.
  - intros s i d _ H. destruct (s i); [discriminate|reflexivity].
  - intros s i. destruct (s i); destruct (Z.leb_spec 0 i); destruct (Z.ltb_spec i N); cbn; intuition (try discriminate; try lia; auto).
  - intros s x i _ _. rewrite Z.eqb_refl. repeat split. intros j Hj. destruct (Z.eqb_spec j i); congruence.
Qed.
Lemma flash_erases N : erases (flash N true) N flash_cell.
Proof. intros s. split; reflexivity. Qed.
Lemma flash_store (W N : Z) (reset : bool) (l : list Z) x : 0 < N -> N + 1 < 2 ^ W -> zlen l = N -> Forall (fun y => 0 <= y) l ->
  let w := construct (flash N true) N flash_valid (flash_of l) (-1) in
  wl_store w = flash_of l /\ exists w1, wl_write (flash N true) W N reset w x = Ok (w1, true, [AErase; AWrite 0]).
Proof.
  intros HN HW HL HV w. split; [reflexivity|].
  pose proof (construct_inv (flash N true) N flash_valid flash_cell (flash_good N) (flash_of l) (-1) ltac:(lia)) as [Hi Hup]. fold w in Hi, Hup.
  destruct (write_good (flash N true) W N flash_valid flash_cell (flash_good N) reset w x HN HW (flash_erases N) Hi) as [(j & Hj & Ej & _)|[_ E]]; [|rewrite E; eauto].
  exfalso. unfold flash_cell in Ej. change (wl_store w) with (flash_of l) in Ej. unfold flash_of in Ej. destruct (znth_some l j) as [v Hv]; [lia|]. rewrite Hv in Ej. discriminate Ej.
Qed.
Lemma stale_data_returns (W N : Z) (reset : bool) (l : list Z) (x i y : Z) : 0 < N -> N + 1 < 2 ^ W -> zlen l = N -> Forall (fun y => 0 <= y) l -> znth l i = Some y ->
  exists w', wl_life (flash N true) W N flash_valid flash_cell reset (-1) (construct (flash N true) N flash_valid (flash_of l) (-1))
    [Lost x; Call (WRead (-1))] [CutOff true; Answer (WoRead (Some y))] w'.
Proof.
  intros HN HW HL HV Hy. destruct (flash_store W N reset l x HN HW HL HV) as [ES [w1 E]]. set (w := construct _ _ _ (flash_of l) _) in *.
  assert (Hi : 0 <= i < N) by (rewrite <- HL; eapply znth_some_range; eauto).
  set (s' := fun j => if j =? i then Some y else None : option Z). exists (construct (flash N true) N flash_valid s' (-1)).
  change true with (erasing [AErase; AWrite 0]) at 2. eapply life_lost with (s' := s'); [exact E| |].
  - apply crash_in_erase. intros j. rewrite ES. unfold flash_cell, flash_of, s'. destruct (Z.eqb_spec j i) as [->|]; [rewrite Hy; auto|auto].
  - assert (R : fst (wl_read (flash N true) flash_valid (construct (flash N true) N flash_valid s' (-1)) (-1)) = Some y).
    { apply (latest_fun N flash_valid flash_cell s' _ _ (latest_restart (flash N true) N flash_valid flash_cell (flash_good N) s' (-1) (-1) ltac:(lia))).
      exists i. split.
      - unfold offers, flash_cell, s'. rewrite Z.eqb_refl. repeat split; try lia. unfold flash_valid. apply Z.leb_le. rewrite Forall_forall in HV. apply HV. unfold znth in Hy; destruct (i <? 0); [discriminate Hy|]; eapply nth_error_In; eauto.
      - intros j z Hj (_ & B & _). unfold flash_cell, s' in B. destruct (Z.eqb_spec j i); [lia|discriminate B]. }
    destruct (wl_read (flash N true) flash_valid (construct (flash N true) N flash_valid s' (-1)) (-1)) as [r lg] eqn:ER. cbn [fst] in R. subst r.
    eapply life_call with (l := lg); [|constructor]. cbn [wl_step]. rewrite ER. reflexivity.
Qed.
