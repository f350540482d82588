From Verif.Common Require Import Base Lemmas Lists.
From Verif.Spec Require Import WearSpec WearAgeSpec.
From Verif.Model Require Import WearLevel.
From Verif.Proofs Require WearLevel.

Section P.
Context {S D : Type} (st : storage S D).
Variables (W N : Z) (valid : D -> bool) (honest : bool) (cell : S -> Z -> content D) (reset : bool).
Hypothesis age : ageing st N valid honest cell.
Notation nothing_from s c := (forall j y, c <= j -> ~ offers N valid cell s j y).
Notation inv := (WearLevel.inv N valid cell).

Lemma scan_spec (n : nat) s d : Z.of_nat n <= N -> nothing_from s (Z.of_nat n) -> nothing_from s (scan st valid n s d).
Proof using age.
  revert d; induction n as [|n IH]; intros d Hn Hup; cbn [scan]; [exact Hup|].
  destruct (cell s (Z.of_nat n)) as [|x] eqn:Ec.
  - pose proof (a_read_blank _ _ _ _ _ age s (Z.of_nat n) d ltac:(lia) Ec) as Hb.
    destruct (st_read st s (Z.of_nat n) d) as [ok d'] eqn:Er. cbn [snd] in Hb. rewrite Hb, andb_false_r.
    apply IH; [lia|]. intros j y Hj. destruct (Z.eq_dec j (Z.of_nat n)) as [->|]; [|apply Hup; lia].
    intros (_ & E & _). congruence.
  - rewrite (a_read _ _ _ _ _ age s (Z.of_nat n) d x ltac:(lia) Ec). cbn [andb].
    destruct (valid x) eqn:Ev.
    + intros j y Hj. apply Hup. lia.
    + apply IH; [lia|]. intros j y Hj. destruct (Z.eq_dec j (Z.of_nat n)) as [->|]; [|apply Hup; lia].
      intros (_ & E & Hv). congruence.
Qed.
Lemma construct_inv s d0 : 0 <= N -> inv (construct st N valid s d0).
Proof using age.
  intros HN. unfold WearLevel.inv, construct. cbn [wl_cell wl_store].
  pose proof (WearLevel.scan_bounded st valid (Z.to_nat N) s d0). split; [lia|].
  apply scan_spec; [lia|]. intros j y Hj (Hr & _). lia.
Qed.
Lemma read_spec (n : nat) s d : Z.of_nat n <= N -> nothing_from s (Z.of_nat n) ->
  latest N valid cell s (fst (read_down st valid n s d)).
Proof using age.
  revert d; induction n as [|n IH]; intros d Hn Hup; cbn [read_down].
  - cbn [fst latest]. intros j y H. apply (Hup j y); [destruct H; lia|exact H].
  - destruct (cell s (Z.of_nat n)) as [|x] eqn:Ec.
    + pose proof (a_read_blank _ _ _ _ _ age s (Z.of_nat n) d ltac:(lia) Ec) as Hb.
      rewrite Hb. specialize (IH (snd (st_read st s (Z.of_nat n) d)) ltac:(lia)).
      destruct (read_down st valid n s _) as [r l]. cbn [fst] in *. apply IH.
      intros j y Hj. destruct (Z.eq_dec j (Z.of_nat n)) as [->|]; [|apply Hup; lia].
      intros (_ & E & _). congruence.
    + rewrite (a_read _ _ _ _ _ age s (Z.of_nat n) d x ltac:(lia) Ec). cbn [snd].
      destruct (valid x) eqn:Ev.
      * cbn [fst latest]. exists (Z.of_nat n). split; [unfold offers; splits; auto; lia|].
        intros j y Hj. apply Hup. lia.
      * specialize (IH x ltac:(lia)). destruct (read_down st valid n s x) as [r l]. cbn [fst] in *. apply IH.
        intros j y Hj. destruct (Z.eq_dec j (Z.of_nat n)) as [->|]; [|apply Hup; lia].
        intros (_ & E & Hv). congruence.
Qed.
Lemma wl_read_latest w buf : inv w -> latest N valid cell (wl_store w) (fst (wl_read st valid w buf)).
Proof using age. intros [H1 H2]. unfold wl_read. apply read_spec; [lia|]. intros j y Hj. apply H2. lia. Qed.

Lemma existsb_app_erase (l l' : list access) : existsb is_erase (l ++ l') = existsb is_erase l || existsb is_erase l'.
Proof using. apply existsb_app. Qed.

Lemma store_step s c x : st_writeable st s c = true -> nothing_from s c ->
  exists kept, (honest = true -> kept = snd (st_write st s x c)) /\
    nothing_from (fst (st_write st s x c)) (c + 1) /\
    forall cur, latest N valid cell s cur -> latest N valid cell (fst (st_write st s x c)) (stored valid cur x false kept).
Proof using age.
  intros Ew Hup. destruct (a_writeable _ _ _ _ _ age s c Ew) as [Hc Hb].
  destruct (a_write _ _ _ _ _ age s x c Ew) as (Ho & kept & Hh & Hk). set (s' := fst (st_write st s x c)) in *.
  assert (Hup' : nothing_from s' (c + 1)).
  { intros j y Hj (A & B & C). rewrite Ho in B by lia. apply (Hup j y ltac:(lia)). split; auto. }
  exists kept. split; [exact Hh|]. split; [exact Hup'|]. intros cur Hl. unfold stored.
  assert (Hsame : (forall y, ~ offers N valid cell s' c y) -> latest N valid cell s' cur).
  { intros Hn. destruct cur as [z|].
    - destruct Hl as (i & Hi & Hm). assert (i < c).
      { destruct (Z.lt_ge_cases i c); [assumption|]. exfalso. apply (Hup i z ltac:(lia) Hi). }
      exists i. split.
      + destruct Hi as (A & B & C). unfold offers. rewrite Ho by lia. auto.
      + intros j y Hj Hy. destruct (Z.eq_dec j c) as [-> |Hne]; [exact (Hn y Hy)|].
        destruct Hy as (A & B & C). rewrite Ho in B by lia. apply (Hm j y Hj). split; auto.
    - intros j y Hy. destruct (Z.eq_dec j c) as [-> |Hne]; [exact (Hn y Hy)|].
      destruct Hy as (A & B & C). rewrite Ho in B by lia. apply (Hl j y). split; auto. }
  destruct kept; cbn [andb].
  - destruct (valid x) eqn:Ev.
    + exists c. split; [unfold offers; auto|]. intros j y Hj. apply Hup'. lia.
    + apply Hsame. intros y (_ & B & C). congruence.
  - apply Hsame. exact Hk.
Qed.

Lemma loop_spec x : 0 < N -> N + 1 < 2 ^ W -> forall (fuel : nat) er c s log w ok l,
  0 <= c <= N -> (er = true -> c < N) -> nothing_from s c ->
  write_loop st W N reset fuel er c s x log = Ok (w, ok, l) ->
  exists l' kept, l = log ++ l' /\ (honest = true -> kept = ok) /\ inv w /\
    forall cur, latest N valid cell s cur -> latest N valid cell (wl_store w) (stored valid cur x (existsb is_erase l') kept).
Proof using age.
  intros HN HW. induction fuel as [|fuel IH]; intros er c s log w ok l Hc He Hup E; [discriminate|]. cbn [write_loop] in E.
  destruct (st_writeable st s c) eqn:Ew.
  { destruct (a_writeable _ _ _ _ _ age s c Ew) as [Hc' _].
    destruct (store_step s c x Ew Hup) as (kept & Hh & Hup' & Hl).
    destruct (st_write st s x c) as [s' k]. cbn [fst snd] in *. injection E as <- <- <-. rewrite word_small by lia.
    exists [AWrite c], kept. splits; auto. unfold WearLevel.inv. cbn [wl_cell wl_store]. split; [lia|exact Hup']. }
  rewrite word_small in E by lia. destruct (Z.geb_spec (c + 1) N) as [G|G].
  - destruct er.
    { specialize (He eq_refl). injection E as <- <- <-. exists [], false. rewrite app_nil_r. splits; auto.
      unfold WearLevel.inv. cbn [wl_cell wl_store]. split; [lia|]. intros j y Hj. apply Hup. lia. }
    destruct (a_erase _ _ _ _ _ age s) as [Eok En]. destruct (st_erase st s) as [s' k]. cbn [fst snd] in *. subst k.
    apply IH in E as (l' & kept & -> & Hh & Hi & Hl); try lia; [|intros j y _; apply En].
    exists (AErase :: l'), kept. rewrite <- app_assoc. splits; auto. intros cur _. cbn [existsb is_erase orb].
    specialize (Hl None (fun j y => En j y)). unfold stored in *. destruct (kept && valid x); [exact Hl|].
    destruct (existsb is_erase l'); exact Hl.
  - apply IH in E; try lia; [exact E|]. intros j y Hj. apply Hup. lia.
Qed.
Lemma write_spec w x : 0 < N -> N + 1 < 2 ^ W -> inv w ->
  exists w' ok l kept, wl_write st W N reset w x = Ok (w', ok, l) /\ (honest = true -> kept = ok) /\ inv w' /\
    forall cur, latest N valid cell (wl_store w) cur ->
      latest N valid cell (wl_store w') (stored valid cur x (existsb is_erase l) kept).
Proof using age.
  intros HN HW [Hc Hup].
  destruct (WearLevel.write_total st W N reset w x HN HW ltac:(lia)) as (w' & ok & l & E & _).
  exists w', ok, l. unfold wl_write in *.
  destruct (loop_spec x HN HW (wl_fuel N) false (wl_cell w) (wl_store w) [] w' ok l Hc ltac:(discriminate) Hup E) as (l' & kept & El & Hh & Hi & Hl).
  cbn [app] in El. subst l'. exists kept. auto.
Qed.

Lemma read_no_erase (n : nat) s d : existsb is_erase (snd (read_down st valid n s d)) = false.
Proof using.
  clear age.
  revert d; induction n as [|n IH]; intros d; cbn [read_down]; [reflexivity|].
  destruct (valid _); [reflexivity|]. specialize (IH (snd (st_read st s (Z.of_nat n) d))).
  destruct (read_down st valid n s _) as [r l]. exact IH.
Qed.

Lemma worn_run d0 : 0 < N -> N + 1 < 2 ^ W -> forall ops w cur, inv w -> latest N valid cell (wl_store w) cur ->
  exists w' rs cur', run (wl_step st W N valid reset d0) w ops = Ok (w', rs) /\
    worn_register valid honest cur ops (map (fun r => (fst r, existsb is_erase (snd r))) rs) cur' /\
    inv w' /\ latest N valid cell (wl_store w') cur'.
Proof using age.
  intros HN HW. induction ops as [|o ops IH]; intros w cur Hi Hl; cbn [run].
  - exists w, [], cur. splits; auto. constructor.
  - destruct o as [x|buf|]; cbn [wl_step].
    + destruct (write_spec w x HN HW Hi) as (w1 & ok & l & kept & E & Hh & Hi1 & Hl1). rewrite E. cbn [bind].
      destruct (IH w1 _ Hi1 (Hl1 cur Hl)) as (w' & rs & cur' & Er & Hw & Hi' & Hl'). rewrite Er. cbn [bind].
      eexists _, _, _. splits; eauto. cbn [map fst snd]. econstructor; eauto.
    + pose proof (wl_read_latest w buf Hi) as Hr. pose proof (read_no_erase (Z.to_nat (wl_cell w)) (wl_store w) buf) as Hne.
      fold (wl_read st valid w buf) in Hne.
      destruct (wl_read st valid w buf) as [r l]. cbn [fst snd] in *. rewrite (WearLevel.latest_fun _ _ _ _ _ _ Hr Hl).
      cbn [bind]. destruct (IH w cur Hi Hl) as (w' & rs & cur' & Er & Hw & Hi' & Hl'). rewrite Er. cbn [bind].
      eexists _, _, _. splits; eauto. cbn [map fst snd]. rewrite Hne. constructor. exact Hw.
    + cbn [bind]. destruct (IH (construct st N valid (wl_store w) d0) cur (construct_inv _ _ ltac:(lia)) Hl) as (w' & rs & cur' & Er & Hw & Hi' & Hl').
      rewrite Er. cbn [bind]. eexists _, _, _. splits; eauto. cbn [map fst snd existsb]. constructor. exact Hw.
Qed.

Lemma loop_available x : 0 < N -> N + 1 < 2 ^ W -> serviceable st N -> forall (fuel : nat) er c s log w ok l,
  0 <= c <= N -> (er = true -> exists i, c <= i < N /\ st_writeable st s i = true) ->
  write_loop st W N reset fuel er c s x log = Ok (w, ok, l) -> ok = true.
Proof using age.
  intros HN HW [Hsv Hwr]. induction fuel as [|fuel IH]; intros er c s log w ok l Hc He E; [discriminate|]. cbn [write_loop] in E.
  destruct (st_writeable st s c) eqn:Ew.
  { specialize (Hwr s x c Ew). destruct (st_write st s x c) as [s' k]. cbn [snd] in Hwr. subst k. congruence. }
  rewrite word_small in E by lia. destruct (Z.geb_spec (c + 1) N) as [G|G].
  - destruct er.
    { destruct (He eq_refl) as (i & Hi & Hw). assert (i = c) by lia. congruence. }
    destruct (a_erase _ _ _ _ _ age s) as [Eok _]. destruct (Hsv s) as (i & Hi & Hw).
    destruct (st_erase st s) as [s' k]. cbn [fst snd] in *. subst k. apply IH in E; [exact E|lia|eauto].
  - apply IH in E; [exact E|lia|]. intros Her. destruct (He Her) as (i & Hi & Hw). exists i. split; [|exact Hw].
    assert (i <> c) by congruence. lia.
Qed.
Lemma loop_worn x : 0 < N -> N + 1 < 2 ^ W -> forall (fuel : nat) (er : bool) c s log w ok l,
  0 <= c <= N -> (forall i, st_writeable st s i = false) ->
  (er = false -> forall i, st_writeable st (fst (st_erase st s)) i = false) ->
  write_loop st W N reset fuel er c s x log = Ok (w, ok, l) -> ok = false /\ l = log ++ (if er then [] else [AErase]).
Proof using age.
  intros HN HW. induction fuel as [|fuel IH]; intros er c s log w ok l Hc Hs He E; [discriminate|]. cbn [write_loop] in E.
  rewrite Hs in E. rewrite word_small in E by lia. destruct (Z.geb_spec (c + 1) N) as [G|G].
  - destruct er.
    { injection E as <- <- <-. rewrite app_nil_r. auto. }
    destruct (a_erase _ _ _ _ _ age s) as [Eok _]. specialize (He eq_refl).
    destruct (st_erase st s) as [s' k]. cbn [fst snd] in *. subst k.
    apply IH in E as [-> ->]; [|lia|exact He|discriminate]. rewrite app_nil_r. auto.
  - apply IH in E; auto. lia.
Qed.
End P.

Lemma available {S D} (st : storage S D) W N valid honest cell reset d0 : ageing st N valid honest cell ->
  serviceable st N -> 0 < N -> N + 1 < 2 ^ W -> forall ops w w' rs,
  WearLevel.inv N valid cell w -> run (wl_step st W N valid reset d0) w ops = Ok (w', rs) ->
  Forall (fun r => fst r <> WoWrite false) rs.
Proof.
  intros age Hsv HN HW. induction ops as [|o ops IH]; intros w w' rs Hi E; cbn [run] in E.
  - injection E as <- <-. constructor.
  - destruct o as [x|buf|]; cbn [wl_step] in E.
    + destruct (write_spec st W N valid honest cell reset age w x HN HW Hi) as (w1 & ok & l & kept & Ew & _ & Hi1 & _).
      rewrite Ew in E. cbn [bind] in E. destruct (run _ w1 ops) as [[w2 rs2]| |] eqn:Er; cbn [bind] in E; try discriminate.
      injection E as <- <-. constructor; [|eapply IH; eauto]. cbn [fst].
      unfold wl_write in Ew. eapply (loop_available st W N valid honest cell reset age x HN HW Hsv) in Ew as ->; [discriminate| |discriminate].
      apply Hi.
    + destruct (wl_read st valid w buf) as [r l]. cbn [bind] in E.
      destruct (run _ w ops) as [[w2 rs2]| |] eqn:Er; cbn [bind] in E; try discriminate.
      injection E as <- <-. constructor; [discriminate|eapply IH; eauto].
    + cbn [bind] in E. destruct (run _ _ ops) as [[w2 rs2]| |] eqn:Er; cbn [bind] in E; try discriminate.
      injection E as <- <-. constructor; [discriminate|]. eapply IH; [|exact Er]. eapply construct_inv; eauto. lia.
Qed.

Lemma worn_out_loses {S D} (st : storage S D) W N valid cell reset d0 buf x s cur :
  ageing st N valid true cell -> 0 < N -> N + 1 < 2 ^ W -> latest N valid cell s cur -> worn_out st s ->
  exists w rs, run (wl_step st W N valid reset d0) (construct st N valid s d0)
      [WRead buf; WWrite x; WRead buf; WRestart; WRead buf] = Ok (w, rs) /\
    map fst rs = [WoRead cur; WoWrite false; WoRead None; WoUnit; WoRead None].
Proof.
  intros age HN HW Hl Hw.
  pose proof (construct_inv st N valid true cell age s d0 ltac:(lia)) as Hi.
  destruct (worn_run st W N valid true cell reset age d0 HN HW [WRead buf; WWrite x; WRead buf; WRestart; WRead buf] _ cur Hi Hl)
    as (w' & rs & cur' & E & HR & _). exists w', rs. split; [exact E|].
  destruct (write_spec st W N valid true cell reset age (construct st N valid s d0) x HN HW Hi) as (w1 & ok & l & kept & Ew & _).
  assert (Hw2 : ok = false /\ l = [AErase]).
  { unfold wl_write in Ew. eapply (loop_worn st W N valid true cell reset age x HN HW) in Ew as [-> ->]; [auto|apply Hi|apply Hw|intros _; apply Hw]. }
  destruct Hw2 as [-> ->].
  cbn [run wl_step] in E. destruct (wl_read st valid (construct st N valid s d0) buf) as [r1 l1]. cbn [bind] in E.
  rewrite Ew in E. cbn [bind] in E. destruct (wl_read st valid w1 buf) as [r2 l2]. cbn [bind] in E.
  destruct (wl_read st valid (construct st N valid (wl_store w1) d0) buf) as [r3 l3]. cbn [bind] in E. injection E as <- <-.
  cbn [map fst snd existsb is_erase orb] in *.
  repeat match goal with
  | H : worn_register _ _ _ (_ :: _) _ _ |- _ => inversion H; subst; clear H
  | H : true = true -> _ |- _ => specialize (H eq_refl); subst
  end.
  reflexivity.
Qed.

Lemma worn_flash_ages N honest dead weak : ageing (worn_flash N honest dead weak) N flash_valid honest flash_cell.
Proof.
  constructor; unfold flash_cell, worn_flash, flash_valid; cbn [st_read st_writeable st_write st_erase fst snd].
  - intros s i d x _ H. destruct (s i); congruence.
  - intros s i d _ H. destruct (s i); [discriminate|reflexivity].
  - intros s i H. destruct (s i); [rewrite andb_false_r in H; discriminate|].
    destruct (Z.leb_spec 0 i); destruct (Z.ltb_spec i N); cbn in H; try discriminate; auto.
  - intros s x i H. destruct (weak i); cbn [fst snd].
    + split; [reflexivity|]. exists false. split; [intros ->; reflexivity|]. intros y (_ & B & _).
      destruct (s i); [rewrite andb_false_r in H|]; discriminate.
    + split; [intros j Hj; destruct (Z.eqb_spec j i); congruence|]. exists true. split; [reflexivity|]. rewrite Z.eqb_refl. reflexivity.
  - intros s. split; [reflexivity|]. intros i y (_ & B & _). discriminate.
Qed.

Lemma loop_upwards {S D} (st : storage S D) W N reset (x : D) : 0 < N -> N + 1 < 2 ^ W -> forall (fuel : nat) er c s log w ok l i,
  0 <= c <= N -> write_loop st W N reset fuel er c s x log = Ok (w, ok, l) ->
  (l = log ++ [AWrite i] -> c <= i) /\ (~ In (AWrite i) log -> In (AWrite i) l -> wl_cell w = i + 1).
Proof.
  intros HN HW. induction fuel as [|fuel IH]; intros er c s log w ok l i Hc E; [discriminate|]. cbn [write_loop] in E.
  destruct (st_writeable st s c) eqn:Ew.
  { destruct (st_write st s x c) as [s' k]. injection E as <- <- <-. cbn [wl_cell]. rewrite word_small by lia. split.
    - intros H. apply app_inj_tail in H as [_ H]. injection H as <-. lia.
    - intros Hn H. apply in_app_or in H as [H|[H|[]]]; [contradiction|]. injection H as <-. reflexivity. }
  rewrite word_small in E by lia. destruct (Z.geb_spec (c + 1) N) as [G|G].
  - destruct er.
    { injection E as <- <- <-. split; [|contradiction]. intros H. apply (f_equal (@length _)) in H. rewrite app_length in H. cbn in H. lia. }
    destruct (st_erase st s) as [s' [|]].
    + assert (Hpre : exists t, l = (log ++ [AErase]) ++ t).
      { clear -E. revert E. generalize (log ++ [AErase]), true, 0, s'. induction fuel as [|fuel IH]; intros l0 b z s0 E; [discriminate|].
        cbn [write_loop] in E. destruct (st_writeable st s0 z).
        { destruct (st_write st s0 x z). injection E as <- <- <-. eauto. }
        destruct (_ >=? N); [|eauto]. destruct b; [injection E as <- <- <-; exists []; rewrite app_nil_r; reflexivity|].
        destruct (st_erase st s0) as [s1 [|]]; [|injection E as <- <- <-; eauto].
        apply IH in E as (t & ->). rewrite <- app_assoc. eauto. }
      apply (IH _ _ _ _ _ _ _ i) in E as [_ H2]; [|lia]. split.
      * intros ->. destruct Hpre as (t & H). rewrite <- app_assoc in H. apply app_inv_head in H. discriminate.
      * intros Hn. apply H2. intros H. apply in_app_or in H as [H|[H|[]]]; [contradiction|discriminate].
    + injection E as <- <- <-. split.
      * intros H. apply app_inj_tail in H as [_ H]. discriminate.
      * intros Hn H. apply in_app_or in H as [H|[H|[]]]; [contradiction|discriminate].
  - apply (IH _ _ _ _ _ _ _ i) in E as [H1 H2]; [|lia]. split; [intros H; specialize (H1 H); lia|exact H2].
Qed.
Lemma moves_on {S D} (st : storage S D) W N valid honest cell reset d0 s ops w rs x w1 ok1 l1 i y w2 ok2 j :
  ageing st N valid honest cell -> 0 < N -> N + 1 < 2 ^ W ->
  run (wl_step st W N valid reset d0) (construct st N valid s d0) ops = Ok (w, rs) ->
  wl_write st W N reset w x = Ok (w1, ok1, l1) -> In (AWrite i) l1 ->
  wl_write st W N reset w1 y = Ok (w2, ok2, [AWrite j]) -> i < j.
Proof.
  intros A HN HW E E1 H1 E2.
  pose proof (construct_inv st N valid honest cell A s d0 ltac:(lia)) as Hi.
  assert (Hl : exists cur, latest N valid cell s cur).
  { eexists. exact (wl_read_latest st N valid honest cell A _ d0 Hi). }
  destruct Hl as (cur & Hl).
  destruct (worn_run st W N valid honest cell reset A d0 HN HW ops _ cur Hi Hl) as (w0 & rs0 & cur' & E0 & _ & Hi0 & _).
  rewrite E0 in E. injection E as -> ->.
  destruct (write_spec st W N valid honest cell reset A w x HN HW Hi0) as (w1' & ok1' & l1' & kept & E1' & _ & Hi1 & _).
  rewrite E1' in E1. injection E1 as -> -> ->. unfold wl_write in *.
  apply (loop_upwards st W N reset x HN HW _ _ _ _ _ _ _ _ i) in E1' as [_ Hc]; [|apply Hi0].
  apply (loop_upwards st W N reset y HN HW _ _ _ _ _ _ _ _ j) in E2 as [Hj _]; [|apply Hi1].
  specialize (Hc (fun F => F) H1). specialize (Hj eq_refl). lia.
Qed.
