From Verif.Common Require Import Base Lemmas Lists.
From Verif.Spec Require Import WearSpec.
From Verif.Model Require Import WearLevel.

Lemma word_next W c : 0 <= c < 2 ^ W -> word W (c + 1) = c + 1 \/ (c + 1 = 2 ^ W /\ word W (c + 1) = 0).
Proof.
  intros H. destruct (Z.eq_dec (c + 1) (2 ^ W)) as [E|E].
  - right. split; [exact E|]. rewrite E. unfold word. apply Z.mod_same. lia.
  - left. apply word_small. lia.
Qed.

Section P.
Context {S D : Type} (st : storage S D).
Variables (W N : Z) (valid : D -> bool) (cell : S -> Z -> content D).

Lemma latest_fun s o1 o2 : latest N valid cell s o1 -> latest N valid cell s o2 -> o1 = o2.
Proof using.
  destruct o1 as [x|], o2 as [y|]; cbn [latest]; intros H1 H2.
  - destruct H1 as (i & Hi & Mi), H2 as (j & Hj & Mj).
    destruct (Z.lt_trichotomy i j) as [L|[L|L]].
    + exfalso; eapply Mi; eauto.
    + subst. destruct Hi as (_ & E1 & _), Hj as (_ & E2 & _). congruence.
    + exfalso; eapply Mj; eauto.
  - destruct H1 as (i & Hi & _). exfalso; eapply H2; eauto.
  - destruct H2 as (i & Hi & _). exfalso; eapply H1; eauto.
  - reflexivity.
Qed.

Definition inv (w : wl) : Prop :=
  0 <= wl_cell w <= N /\ forall j y, wl_cell w <= j -> ~ offers N valid cell (wl_store w) j y.

(* ---------------- any storage ---------------- *)
Lemma write_loop_total reset x : 0 < N -> N + 1 < 2 ^ W -> forall (fuel : nat) er c s log,
  0 <= c < 2 ^ W ->
  (if er : bool then Z.max (N - c) 0 + 1 else (if c <? N then N - c + N + 1 else 2 * N + 2)) < Z.of_nat fuel ->
  (er = true -> c < N) ->
  exists w ok l, write_loop st W N reset fuel er c s x log = Ok (w, ok, log ++ l) /\
    (erase_count l <= (if er then 0 else 1))%nat /\ (write_count l <= 1)%nat /\
    (forall i, In (ARead i) l -> False).
Proof using.
  clear cell valid.
  intros HN HW. induction fuel as [|fuel IH]; intros er c s log Hc Hf He.
  - exfalso. destruct er; [lia|]. destruct (Z.ltb_spec c N); lia.
  - cbn [write_loop]. destruct (st_writeable st s c).
    { destruct (st_write st s x c) as [s' ok]. eexists _, _, [AWrite c]. split; [reflexivity|].
      splits; try (destruct er; cbn; lia). all: intros i [H|[]]; discriminate. }
    set (c' := word W (c + 1)). assert (Hc' : c' = c + 1 \/ (c + 1 = 2 ^ W /\ c' = 0)) by (apply word_next; exact Hc).
    destruct (Z.geb_spec c' N) as [G|G].
    + destruct er.
      { eexists _, _, []. rewrite app_nil_r. split; [reflexivity|]. splits; cbn; try lia. all: intros i []. }
      destruct (st_erase st s) as [s' ok]. destruct ok.
      * destruct (IH true 0 s' (log ++ [AErase])) as (w & ok & l & E & H1 & H2 & H3); try lia.
        { destruct (Z.ltb_spec c N); lia. }
        rewrite E. eexists _, _, (AErase :: l). rewrite <- app_assoc. split; [reflexivity|].
        unfold erase_count, write_count in *; splits; cbn in *; try lia. all: intros i [H|H]; [discriminate|]; eapply H3; eauto.
      * eexists _, _, [AErase]. split; [reflexivity|]. splits; cbn; try lia. all: intros i [H|[]]; discriminate.
    + destruct (IH er c' s log) as (w & ok & l & E & H1 & H2 & H3); try lia.
      { destruct er; [specialize (He eq_refl)|]; destruct (Z.ltb_spec c N); destruct (Z.ltb_spec c' N); lia. }
      rewrite E. eauto 10.
Qed.
Lemma write_loop_result reset x : forall (fuel : nat) er c s log w ok l,
  write_loop st W N reset fuel er c s x log = Ok (w, ok, l) ->
  (exists i, l = log ++ [AWrite i] /\ st_writeable st s i = true /\ st_write st s x i = (wl_store w, ok)) \/
  (er = false /\ snd (st_erase st s) = true /\ exists i, l = log ++ [AErase; AWrite i] /\
     st_writeable st (fst (st_erase st s)) i = true /\ st_write st (fst (st_erase st s)) x i = (wl_store w, ok)) \/
  (ok = false /\ ((l = log /\ wl_store w = s) \/ (er = false /\ l = log ++ [AErase] /\ wl_store w = fst (st_erase st s)))).
Proof using.
  clear cell valid.
  induction fuel as [|fuel IH]; intros er c s log w ok l E; [discriminate|]. cbn [write_loop] in E.
  destruct (st_writeable st s c) eqn:Ew.
  { destruct (st_write st s x c) as [s' k] eqn:E2. injection E as <- <- <-. left. exists c. auto. }
  destruct (word W (c + 1) >=? N).
  - destruct er.
    { injection E as <- <- <-. right. right. auto. }
    destruct (st_erase st s) as [s' k] eqn:E2. destruct k.
    + apply IH in E as [(i & -> & Ha & Hb) | [(Hf & _) | (-> & [(-> & Ha) | (Hf & _)])]]; try discriminate.
      * right. left. cbn [fst snd]. splits; auto. exists i. rewrite <- app_assoc. auto.
      * right. right. split; [reflexivity|]. right. cbn [fst]. auto.
    + injection E as <- <- <-. right. right. split; [reflexivity|]. right. cbn [fst]. auto.
  - apply IH in E. exact E.
Qed.
Lemma write_total reset w x : 0 < N -> N + 1 < 2 ^ W -> 0 <= wl_cell w < 2 ^ W ->
  exists w' ok l, wl_write st W N reset w x = Ok (w', ok, l) /\ (erase_count l <= 1)%nat /\ (write_count l <= 1)%nat.
Proof using.
  clear cell valid.
  intros HN HW Hc. unfold wl_write, wl_fuel.
  destruct (write_loop_total reset x HN HW (Z.to_nat (2 * N + 3)) false (wl_cell w) (wl_store w) []) as (w' & ok & l & E & H1 & H2 & _);
    try assumption; try discriminate.
  - destruct (Z.ltb_spec (wl_cell w) N); lia.
  - cbn [app] in E. eauto 10.
Qed.

(* WearLeveler keeps its counter and its accesses inside the block on any storage *)
Lemma write_loop_bounded x : 0 < N -> N + 1 < 2 ^ W ->
  (forall s i, st_writeable st s i = true -> 0 <= i < N) ->
  forall (fuel : nat) er c s log w ok l, 0 <= c <= N -> (er = true -> c < N) ->
  write_loop st W N true fuel er c s x log = Ok (w, ok, l) -> Forall (in_block N) log ->
  0 <= wl_cell w <= N /\ Forall (in_block N) l.
Proof using.
  clear cell valid.
  intros HN HW Hwr. induction fuel as [|fuel IH]; intros er c s log w ok l Hc He E Hl; cbn [write_loop] in E; [discriminate|].
  destruct (st_writeable st s c) eqn:Ew.
  - destruct (st_write st s x c) as [s' ok']. injection E as <- <- <-. cbn [wl_cell].
    specialize (Hwr _ _ Ew). rewrite word_small by lia. split; [lia|].
    apply Forall_app; split; [exact Hl|]. constructor; [exact Hwr|constructor].
  - rewrite word_small in E by lia. destruct (Z.geb_spec (c + 1) N) as [G|G].
    + destruct er.
      * injection E as <- <- <-. cbn [wl_cell]. specialize (He eq_refl). split; [lia|exact Hl].
      * assert (Hl' : Forall (in_block N) (log ++ [AErase])) by (apply Forall_app; split; [exact Hl|repeat constructor]).
        destruct (st_erase st s) as [s' [|]].
        -- eapply IH; [| |exact E|exact Hl']; intros; lia.
        -- injection E as <- <- <-. cbn [wl_cell]. split; [lia|exact Hl'].
    + eapply IH; [| |exact E|exact Hl]; intros; lia.
Qed.
Lemma read_down_bounded (n : nat) s d : Z.of_nat n <= N -> Forall (in_block N) (snd (read_down st valid n s d)).
Proof using.
  clear cell.
  revert d; induction n as [|n IH]; intros d Hn; cbn [read_down]; [constructor|].
  destruct (valid (snd (st_read st s (Z.of_nat n) d))); [repeat constructor; lia|].
  specialize (IH (snd (st_read st s (Z.of_nat n) d)) ltac:(lia)).
  destruct (read_down st valid n s _) as [r l]. cbn [snd] in *. constructor; [cbn; lia|exact IH].
Qed.
Lemma scan_bounded (n : nat) s d : 0 <= scan st valid n s d <= Z.of_nat n.
Proof using.
  clear cell.
  revert d; induction n as [|n IH]; intros d; cbn [scan]; [lia|].
  destruct (st_read st s (Z.of_nat n) d) as [ok d']. destruct (ok && valid d'); [lia|]. specialize (IH d'). lia.
Qed.
Lemma leveler_bounded d0 : 0 < N -> N + 1 < 2 ^ W ->
  (forall s i, st_writeable st s i = true -> 0 <= i < N) ->
  forall ops s w rs, run (wl_step st W N valid true d0) (construct st N valid s d0) ops = Ok (w, rs) ->
  0 <= wl_cell w <= N /\ Forall (fun r => Forall (in_block N) (snd r)) rs.
Proof using.
  clear cell.
  intros HN HW Hwr ops s.
  assert (G : forall ops w0 w rs, 0 <= wl_cell w0 <= N -> run (wl_step st W N valid true d0) w0 ops = Ok (w, rs) ->
     0 <= wl_cell w <= N /\ Forall (fun r => Forall (in_block N) (snd r)) rs).
  { clear ops s. induction ops as [|o ops IH]; intros w0 w rs Hc E; cbn [run] in E.
    - injection E as <- <-. split; [exact Hc|constructor].
    - assert (Hs : exists w1 r1, wl_step st W N valid true d0 w0 o = Ok (w1, r1) /\ 0 <= wl_cell w1 <= N /\ Forall (in_block N) (snd r1)).
      { destruct (wl_step st W N valid true d0 w0 o) as [[w1 r1]| |] eqn:Es; cbn [bind] in E; try discriminate.
        exists w1, r1. split; [reflexivity|]. destruct o as [x|buf|]; cbn [wl_step] in Es.
        - unfold wl_write in Es. destruct (write_loop st W N true (wl_fuel N) false (wl_cell w0) (wl_store w0) x []) as [[[w2 ok] l]| |] eqn:El;
            cbn [bind] in Es; try discriminate. injection Es as <- <-.
          apply write_loop_bounded in El; try assumption; try discriminate; constructor.
        - destruct (wl_read st valid w0 buf) as [r l] eqn:Er. injection Es as <- <-. split; [exact Hc|]. cbn [snd].
          unfold wl_read in Er. change l with (snd (r, l)). rewrite <- Er. apply read_down_bounded. lia.
        - injection Es as <- <-. unfold construct. cbn [wl_cell snd]. split; [|constructor].
          pose proof (scan_bounded (Z.to_nat N) (wl_store w0) d0). lia. }
      destruct Hs as (w1 & r1 & Es & Hc1 & Hb). rewrite Es in E. cbn [bind] in E.
      destruct (run (wl_step st W N valid true d0) w1 ops) as [[w2 rs2]| |] eqn:Er; cbn [bind] in E; try discriminate.
      injection E as <- <-. destruct (IH _ _ _ Hc1 Er) as [A B]. split; [exact A|]. constructor; assumption. }
  intros w rs E. eapply G; [|exact E]. unfold construct. cbn [wl_cell].
  pose proof (scan_bounded (Z.to_nat N) s d0). lia.
Qed.

(* ---------------- storage that reads back ---------------- *)
Section Good.
Hypothesis good : reads_back st N valid cell.

Lemma scan_spec (n : nat) s d : Z.of_nat n <= N ->
  (forall j y, Z.of_nat n <= j -> ~ offers N valid cell s j y) ->
  let c := scan st valid n s d in
  (forall j y, c <= j -> ~ offers N valid cell s j y).
Proof using good.
  revert d; induction n as [|n IH]; intros d Hn Hup; cbn [scan]; [exact Hup|].
  destruct (cell s (Z.of_nat n)) as [|x] eqn:Ec.
  - pose proof (g_read_blank _ _ _ _ good s (Z.of_nat n) d ltac:(lia) Ec) as Hb.
    destruct (st_read st s (Z.of_nat n) d) as [ok d'] eqn:Er. cbn [snd] in Hb. rewrite Hb, andb_false_r.
    apply IH; [lia|]. intros j y Hj. destruct (Z.eq_dec j (Z.of_nat n)) as [->|]; [|apply Hup; lia].
    intros (_ & E & _). congruence.
  - rewrite (g_read _ _ _ _ good s (Z.of_nat n) d x ltac:(lia) Ec). cbn [andb].
    destruct (valid x) eqn:Ev.
    + intros j y Hj. apply Hup. lia.
    + apply IH; [lia|]. intros j y Hj. destruct (Z.eq_dec j (Z.of_nat n)) as [->|]; [|apply Hup; lia].
      intros (_ & E & Hv). congruence.
Qed.
Lemma construct_inv s d0 : 0 <= N -> inv (construct st N valid s d0).
Proof using good.
  intros HN. unfold inv, construct. cbn [wl_cell wl_store].
  pose proof (scan_bounded (Z.to_nat N) s d0). split; [lia|].
  apply scan_spec; [lia|]. intros j y Hj (Hr & _). lia.
Qed.
Lemma read_spec (n : nat) s d : Z.of_nat n <= N ->
  (forall j y, Z.of_nat n <= j -> ~ offers N valid cell s j y) ->
  latest N valid cell s (fst (read_down st valid n s d)).
Proof using good.
  revert d; induction n as [|n IH]; intros d Hn Hup; cbn [read_down].
  - cbn [fst latest]. intros j y H. apply (Hup j y); [destruct H; lia|exact H].
  - destruct (cell s (Z.of_nat n)) as [|x] eqn:Ec.
    + pose proof (g_read_blank _ _ _ _ good s (Z.of_nat n) d ltac:(lia) Ec) as Hb.
      rewrite Hb. specialize (IH (snd (st_read st s (Z.of_nat n) d)) ltac:(lia)).
      destruct (read_down st valid n s _) as [r l]. cbn [fst] in *. apply IH.
      intros j y Hj. destruct (Z.eq_dec j (Z.of_nat n)) as [->|]; [|apply Hup; lia].
      intros (_ & E & _). congruence.
    + rewrite (g_read _ _ _ _ good s (Z.of_nat n) d x ltac:(lia) Ec). cbn [snd].
      destruct (valid x) eqn:Ev.
      * cbn [fst latest]. exists (Z.of_nat n). split; [unfold offers; splits; auto; lia|].
        intros j y Hj. apply Hup. lia.
      * specialize (IH x ltac:(lia)). destruct (read_down st valid n s x) as [r l]. cbn [fst] in *. apply IH.
        intros j y Hj. destruct (Z.eq_dec j (Z.of_nat n)) as [->|]; [|apply Hup; lia].
        intros (_ & E & Hv). congruence.
Qed.
Lemma wl_read_latest w buf : inv w -> latest N valid cell (wl_store w) (fst (wl_read st valid w buf)).
Proof using good. intros [H1 H2]. unfold wl_read. apply read_spec; [lia|]. intros j y Hj. apply H2. lia. Qed.

Lemma first_blank s c : c <= N ->
  (exists j, c <= j < N /\ cell s j = Blank /\ forall k, c <= k < j -> cell s k <> Blank) \/
  (forall k, c <= k < N -> cell s k <> Blank).
Proof using.
  intros Hc. remember (Z.to_nat (N - c)) as n eqn:En. revert c Hc En; induction n as [|n IH]; intros c Hc En.
  - right. intros k Hk. lia.
  - destruct (cell s c) as [|x] eqn:Ec.
    + left. exists c. splits; try lia; auto; intros k Hk; lia.
    + destruct (IH (c + 1)) as [(j & Hj & Ej & Hl)|Hall]; try lia.
      * left. exists j. splits; try lia; auto; intros k Hk. destruct (Z.eq_dec k c) as [->|]; [congruence|apply Hl; lia].
      * right. intros k Hk. destruct (Z.eq_dec k c) as [->|]; [congruence|apply Hall; lia].
Qed.
Lemma not_writeable s i : (0 <= i < N -> cell s i <> Blank) -> st_writeable st s i = false.
Proof using good.
  intros H. destruct (st_writeable st s i) eqn:E; [|reflexivity]. apply (g_writeable _ _ _ _ good) in E as [H1 H2]. exfalso; apply H; assumption.
Qed.
Lemma write_found reset x : N + 1 < 2 ^ W -> forall (fuel : nat) er c s log j,
  0 <= c <= j -> j < N -> cell s j = Blank -> (forall k, c <= k < j -> cell s k <> Blank) -> j - c < Z.of_nat fuel ->
  write_loop st W N reset fuel er c s x log = Ok (WL (j + 1) (fst (st_write st s x j)), true, log ++ [AWrite j]).
Proof using good.
  intros HW. induction fuel as [|fuel IH]; intros er c s log j Hc Hj Ej Hl Hf; [lia|]. cbn [write_loop].
  destruct (Z.eq_dec c j) as [->|Hne].
  - assert (Ew : st_writeable st s j = true) by (apply (g_writeable _ _ _ _ good); split; [lia|exact Ej]). rewrite Ew.
    destruct (g_write _ _ _ _ good s x j ltac:(lia) Ej) as (Hok & _).
    destruct (st_write st s x j) as [s' ok]. cbn [fst snd] in *. subst ok. rewrite word_small by lia. reflexivity.
  - rewrite not_writeable by (intros _; apply Hl; lia). rewrite word_small by lia.
    destruct (Z.geb_spec (c + 1) N); [lia|]. apply IH; try lia; [exact Ej|]. intros k Hk; apply Hl; lia.
Qed.
Lemma write_full reset x : 0 < N -> N + 1 < 2 ^ W -> forall (fuel : nat) c s log,
  0 <= c <= N -> (forall k, c <= k < N -> cell s k <> Blank) -> Z.max (N - c) 1 <= Z.of_nat fuel ->
  exists fuel', Z.of_nat fuel - Z.max (N - c) 1 <= Z.of_nat fuel' /\
  write_loop st W N reset fuel false c s x log =
    (if snd (st_erase st s) then write_loop st W N reset fuel' true 0 (fst (st_erase st s)) x (log ++ [AErase])
     else Ok (WL (if reset then 0 else Z.max (c + 1) N) (fst (st_erase st s)), false, log ++ [AErase])).
Proof using good.
  intros HN HW. induction fuel as [|fuel IH]; intros c s log Hc Hl Hf; [lia|]. cbn [write_loop].
  rewrite not_writeable by (intros H; apply Hl; lia). rewrite word_small by lia.
  destruct (Z.geb_spec (c + 1) N) as [G|G].
  - exists fuel. split; [lia|]. destruct (st_erase st s) as [s' [|]]; cbn [fst snd]; [reflexivity|].
    replace (Z.max (c + 1) N) with (c + 1) by lia. reflexivity.
  - destruct (IH (c + 1) s log) as (fuel' & Hf' & E); try lia; [intros k Hk; apply Hl; lia|].
    exists fuel'. split; [lia|]. rewrite E. destruct (snd (st_erase st s)); [reflexivity|].
    replace (Z.max (c + 1 + 1) N) with (Z.max (c + 1) N) by lia. reflexivity.
Qed.

(* what one write does *)
Lemma write_cases reset w x : 0 < N -> N + 1 < 2 ^ W -> 0 <= wl_cell w <= N ->
  (exists j, wl_cell w <= j < N /\ cell (wl_store w) j = Blank /\ (forall k, wl_cell w <= k < j -> cell (wl_store w) k <> Blank) /\
     wl_write st W N reset w x = Ok (WL (j + 1) (fst (st_write st (wl_store w) x j)), true, [AWrite j])) \/
  ((forall k, wl_cell w <= k < N -> cell (wl_store w) k <> Blank) /\
   (if snd (st_erase st (wl_store w))
    then exists fuel', N + 1 <= Z.of_nat fuel' /\ wl_write st W N reset w x = write_loop st W N reset fuel' true 0 (fst (st_erase st (wl_store w))) x [AErase]
    else wl_write st W N reset w x = Ok (WL (if reset then 0 else Z.max (wl_cell w + 1) N) (fst (st_erase st (wl_store w))), false, [AErase]))).
Proof using good.
  intros HN HW Hc. unfold wl_write, wl_fuel.
  destruct (first_blank (wl_store w) (wl_cell w)) as [(j & Hj & Ej & Hl)|Hall]; [lia| |].
  - left. exists j. splits; try lia; auto; rewrite (write_found reset x HW _ false (wl_cell w) (wl_store w) [] j) by (try lia; auto).
    reflexivity.
  - right. split; [exact Hall|].
    destruct (write_full reset x HN HW (Z.to_nat (2 * N + 3)) (wl_cell w) (wl_store w) []) as (fuel' & Hf' & E); try lia; auto.
    cbn [app] in E. destruct (snd (st_erase st (wl_store w))).
    + exists fuel'. split; [lia|exact E].
    + exact E.
Qed.
Lemma write_good reset w x : 0 < N -> N + 1 < 2 ^ W -> erases st N cell -> 0 <= wl_cell w <= N ->
  (exists j, wl_cell w <= j < N /\ cell (wl_store w) j = Blank /\ (forall k, wl_cell w <= k < j -> cell (wl_store w) k <> Blank) /\
     wl_write st W N reset w x = Ok (WL (j + 1) (fst (st_write st (wl_store w) x j)), true, [AWrite j])) \/
  ((forall k, wl_cell w <= k < N -> cell (wl_store w) k <> Blank) /\
   wl_write st W N reset w x = Ok (WL 1 (fst (st_write st (fst (st_erase st (wl_store w))) x 0)), true, [AErase; AWrite 0])).
Proof using good.
  intros HN HW He Hc. destruct (write_cases reset w x HN HW Hc) as [H|[Hall H]]; [left; exact H|right].
  split; [exact Hall|]. destruct (He (wl_store w)) as [E1 E2]. rewrite E1 in H. destruct H as (fuel' & Hf & ->).
  rewrite (write_found reset x HW _ true 0 _ _ 0) by (try lia; auto; apply E2; lia). reflexivity.
Qed.
Lemma write_latest s x j : 0 <= j < N -> cell s j = Blank -> valid x = true ->
  (forall k y, j < k -> ~ offers N valid cell s k y) ->
  latest N valid cell (fst (st_write st s x j)) (Some x) /\ inv (WL (j + 1) (fst (st_write st s x j))).
Proof using good.
  intros Hj Ej Hx Hup. destruct (g_write _ _ _ _ good s x j Hj Ej) as (_ & E1 & E2).
  assert (Hup2 : forall k y, j < k -> ~ offers N valid cell (fst (st_write st s x j)) k y).
  { intros k y Hk (A & B & C). rewrite E2 in B by lia. apply (Hup k y Hk). unfold offers; auto. }
  split.
  - exists j. split; [unfold offers; auto|exact Hup2].
  - unfold inv. cbn [wl_cell wl_store]. split; [lia|]. intros k y Hk. apply Hup2. lia.
Qed.
Lemma write_register reset w x : 0 < N -> N + 1 < 2 ^ W -> erases st N cell -> inv w -> valid x = true ->
  exists w' l, wl_write st W N reset w x = Ok (w', true, l) /\ inv w' /\ latest N valid cell (wl_store w') (Some x).
Proof using good.
  intros HN HW He [Hc Hup] Hx.
  destruct (write_good reset w x HN HW He Hc) as [(j & Hj & Ej & Hl & E)|[Hall E]].
  - destruct (write_latest (wl_store w) x j ltac:(lia) Ej Hx) as [A B]; [intros k y Hk; apply Hup; lia|].
    eexists _, _. split; [exact E|]. auto.
  - destruct (He (wl_store w)) as [_ E2].
    destruct (write_latest (fst (st_erase st (wl_store w))) x 0 ltac:(lia) (E2 0 ltac:(lia)) Hx) as [A B].
    { intros k y Hk (H1 & H2 & _). rewrite E2 in H2 by lia. discriminate. }
    eexists _, _. split; [exact E|]. auto.
Qed.

(* C30 *)
Lemma register_run reset d0 : 0 < N -> N + 1 < 2 ^ W -> erases st N cell ->
  forall ops w cur, inv w -> latest N valid cell (wl_store w) cur -> Forall (writes_valid valid) ops ->
  exists w' rs, run (wl_step st W N valid reset d0) w ops = Ok (w', rs) /\
    map fst rs = snd (srun register_spec cur ops) /\ inv w' /\
    latest N valid cell (wl_store w') (fst (srun register_spec cur ops)).
Proof using good.
  intros HN HW He. induction ops as [|o ops IH]; intros w cur Hi Hl Hv; cbn [run srun].
  - exists w, []. auto.
  - inversion Hv as [|? ? Ho Hv']; subst.
    assert (Hs : exists w1 l, wl_step st W N valid reset d0 w o = Ok (w1, (snd (register_spec cur o), l)) /\ inv w1 /\
               latest N valid cell (wl_store w1) (fst (register_spec cur o))).
    { destruct o as [x|buf|]; cbn [wl_step register_spec fst snd writes_valid] in *.
      - destruct (write_register reset w x HN HW He Hi Ho) as (w1 & l & E & A & B). rewrite E. cbn [bind]. eauto.
      - pose proof (wl_read_latest w buf Hi) as Hr. destruct (wl_read st valid w buf) as [r l]. cbn [fst] in Hr.
        rewrite (latest_fun _ _ _ Hr Hl). eauto.
      - eexists _, _. split; [reflexivity|]. split; [apply construct_inv; lia|exact Hl]. }
    destruct Hs as (w1 & l & -> & Hi1 & Hl1). cbn [bind]. destruct (register_spec cur o) as [cur1 r1]. cbn [fst snd] in *.
    destruct (IH w1 cur1 Hi1 Hl1 Hv') as (w' & rs & -> & Em & Hi' & Hl'). cbn [bind].
    destruct (srun register_spec cur1 ops) as [cur2 rs2]. cbn [fst snd] in *.
    eexists _, _. split; [reflexivity|]. cbn [map fst]. rewrite Em. auto.
Qed.

(* C31 *)
Lemma latest_restart s d0 buf : 0 <= N -> latest N valid cell s (fst (wl_read st valid (construct st N valid s d0) buf)).
Proof using good.
  intros HN. pose proof (wl_read_latest (construct st N valid s d0) buf (construct_inv s d0 HN)) as H. exact H.
Qed.
Lemma torn_latest s j x s' cur o : 0 <= j < N -> cell s j = Blank -> valid x = true ->
  (forall k y, j < k -> ~ offers N valid cell s k y) ->
  torn valid cell s j x s' -> latest N valid cell s cur -> latest N valid cell s' o -> o = cur \/ o = Some x.
Proof using.
  intros Hj Ej Hx Hup [Hoth Ht] Hcur Ho.
  assert (Hsame : (forall y, ~ offers N valid cell s' j y) -> o = cur).
  { intros Hnj. apply (latest_fun s'); [exact Ho|].
    assert (Heq : forall k y, offers N valid cell s' k y <-> offers N valid cell s k y).
    { intros k y. destruct (Z.eq_dec k j) as [->|Hne].
      - split; intros H; [exfalso; eapply Hnj; eauto|]. destruct H as (_ & H & _). congruence.
      - unfold offers. rewrite Hoth by exact Hne. reflexivity. }
    destruct cur as [y|]; cbn [latest] in *.
    - destruct Hcur as (i & Hi & Hm). exists i. rewrite Heq. split; [exact Hi|]. intros k z Hk. rewrite Heq. apply Hm; exact Hk.
    - intros k z. rewrite Heq. apply Hcur. }
  destruct Ht as [Hb|[Hb|(t & Hb & Hv)]].
  - left. apply Hsame. intros y (_ & H & _). congruence.
  - right. apply (latest_fun s'); [exact Ho|]. exists j. split; [unfold offers; auto|].
    intros k y Hk (A & B & C). rewrite Hoth in B by lia. apply (Hup k y Hk). unfold offers; auto.
  - left. apply Hsame. intros y (_ & H & H2). congruence.
Qed.
Lemma crash_consistent reset w x cur w' ok log d0 buf : 0 < N -> N + 1 < 2 ^ W -> erases st N cell ->
  inv w -> latest N valid cell (wl_store w) cur -> valid x = true ->
  wl_write st W N reset w x = Ok (w', ok, log) ->
  (~ In AErase log -> forall s', crash st N valid cell x (wl_store w) log s' ->
     let r := fst (wl_read st valid (construct st N valid s' d0) buf) in r = cur \/ r = Some x) /\
  (In AErase log -> exists s', crash st N valid cell x (wl_store w) log s' /\
     fst (wl_read st valid (construct st N valid s' d0) buf) = None).
Proof using good.
  intros HN HW He [Hc Hup] Hl Hx E.
  destruct (write_good reset w x HN HW He Hc) as [(j & Hj & Ej & Hlow & E2)|[Hall E2]]; rewrite E2 in E; injection E as <- <- <-.
  - split; [|intros [H|[]]; discriminate]. intros _ s' Hcr. cbn zeta.
    pose proof (latest_restart s' d0 buf ltac:(lia)) as Hr.
    assert (Hupj : forall k y, j < k -> ~ offers N valid cell (wl_store w) k y) by (intros k y Hk; apply Hup; lia).
    apply (torn_latest (wl_store w) j x s' cur _ ltac:(lia) Ej Hx Hupj); [|exact Hl|exact Hr].
    inversion Hcr as [? ?|? ? ? ? Ht|? ? ? ? Ha| |]; subst.
    + split; [reflexivity|]. left. exact Ej.
    + exact Ht.
    + inversion Ha; subst. destruct (g_write _ _ _ _ good (wl_store w) x j ltac:(lia) Ej) as (_ & W1 & W2).
      split; [exact W2|]. right; left; exact W1.
  - split; [intros H; exfalso; apply H; left; reflexivity|]. intros _.
    exists (fst (st_erase st (wl_store w))). split; [apply crash_after_erase, crash_before|].
    pose proof (latest_restart (fst (st_erase st (wl_store w))) d0 buf ltac:(lia)) as Hr.
    apply (latest_fun _ _ None Hr). cbn [latest]. intros k y (A & B & _). destruct (He (wl_store w)) as [_ E3].
    rewrite E3 in B by exact A. discriminate.
Qed.

(* C32 *)
Definition filled (c : Z) (s : S) : Prop := forall i, 0 <= i < N -> (cell s i = Blank <-> c <= i).
Lemma cyclic_step reset w x k : 0 < N -> N + 1 < 2 ^ W -> erases st N cell -> 0 <= k ->
  filled (wl_cell w) (wl_store w) -> wl_cell w = (if k =? 0 then 0 else (k - 1) mod N + 1) ->
  exists w', wl_write st W N reset w x = Ok (w', true, nth_write_log N k) /\
    filled (wl_cell w') (wl_store w') /\ wl_cell w' = k mod N + 1.
Proof using good.
  intros HN HW He Hk Hf Hc.
  assert (Hcr : 0 <= wl_cell w <= N).
  { rewrite Hc. destruct (Z.eqb_spec k 0); [lia|]. pose proof (Z.mod_pos_bound (k - 1) N HN). lia. }
  destruct (write_good reset w x HN HW He Hcr) as [(j & Hj & Ej & Hl & E)|[Hall E]]; unfold nth_write_log.
  - assert (j = wl_cell w) as ->.
    { destruct (Z.eq_dec j (wl_cell w)); [assumption|]. exfalso. apply (Hl (wl_cell w)); [lia|]. apply Hf; lia. }
    assert (Ek : k mod N = wl_cell w).
    { rewrite Hc in Hj |- *. destruct (Z.eqb_spec k 0) as [->|]; [apply Z.mod_0_l; lia|].
      replace k with ((k - 1) + 1) at 1 by lia. rewrite <- Zplus_mod_idemp_l. apply Z.mod_small.
      pose proof (Z.mod_pos_bound (k - 1) N HN). lia. }
    rewrite Ek. rewrite E.
    assert (Ez : ((0 <? k) && (wl_cell w =? 0)) = false).
    { destruct (Z.ltb_spec 0 k); [|reflexivity]. destruct (Z.eqb_spec (wl_cell w) 0) as [E0|]; [|reflexivity].
      rewrite Hc in E0. destruct (Z.eqb_spec k 0); [lia|]. pose proof (Z.mod_pos_bound (k - 1) N HN). lia. }
    rewrite Ez. eexists; split; [reflexivity|]. cbn [wl_cell wl_store]. split; [|reflexivity].
    destruct (g_write _ _ _ _ good (wl_store w) x (wl_cell w) ltac:(lia) Ej) as (_ & W1 & W2).
    intros i Hi. destruct (Z.eq_dec i (wl_cell w)) as [->|Hne].
    + rewrite W1. split; [discriminate|lia].
    + rewrite W2 by exact Hne. rewrite (Hf i Hi). lia.
  - assert (EN : wl_cell w = N).
    { destruct (Z.eq_dec (wl_cell w) N); [assumption|]. exfalso. apply (Hall (wl_cell w)); [lia|]. apply Hf; lia. }
    assert (Hk0 : 0 < k /\ k mod N = 0).
    { rewrite Hc in EN. destruct (Z.eqb_spec k 0); [lia|]. split; [lia|].
      replace k with ((k - 1) + 1) by lia. rewrite <- Zplus_mod_idemp_l.
      replace ((k - 1) mod N + 1) with N by lia. apply Z.mod_same. lia. }
    destruct Hk0 as [Hkp Hkm]. rewrite Hkm. replace (0 <? k) with true by lia. cbn [andb Z.eqb app]. rewrite E.
    eexists; split; [reflexivity|]. cbn [wl_cell wl_store]. split; [|lia].
    destruct (He (wl_store w)) as [_ E3].
    destruct (g_write _ _ _ _ good (fst (st_erase st (wl_store w))) x 0 ltac:(lia) (E3 0 ltac:(lia))) as (_ & W1 & W2).
    intros i Hi. destruct (Z.eq_dec i 0) as [->|Hne].
    + rewrite W1. split; [discriminate|lia].
    + rewrite W2 by exact Hne. rewrite (E3 i Hi). split; [lia|reflexivity].
Qed.
Lemma cyclic_run reset d0 xs : 0 < N -> N + 1 < 2 ^ W -> erases st N cell -> forall w k, 0 <= k ->
  filled (wl_cell w) (wl_store w) -> wl_cell w = (if k =? 0 then 0 else (k - 1) mod N + 1) ->
  exists w', run (wl_step st W N valid reset d0) w (map WWrite xs)
   = Ok (w', map (fun i => (WoWrite true, nth_write_log N (k + Z.of_nat i))) (seq 0 (length xs))).
Proof using good.
  intros HN HW He. induction xs as [|x xs IH]; intros w k Hk Hf Hc; cbn [map run length seq]; [eauto|].
  destruct (cyclic_step reset w x k HN HW He Hk Hf Hc) as (w1 & E & Hf1 & Hc1). cbn [wl_step]. rewrite E. cbn [bind].
  destruct (IH w1 (k + 1)) as (w' & E2); [lia|exact Hf1| |].
  - destruct (Z.eqb_spec (k + 1) 0); [lia|]. rewrite Hc1. f_equal. f_equal. lia.
  - exists w'. rewrite E2. cbn [bind]. rewrite Z.add_0_r. rewrite <- seq_shift, map_map. do 3 f_equal.
    apply map_ext. intros i. do 2 f_equal. lia.
Qed.
Lemma construct_blank s d0 : 0 < N -> (forall i, 0 <= i < N -> cell s i = Blank) -> wl_cell (construct st N valid s d0) = 0.
Proof using good.
  intros HN Hb. unfold construct. cbn [wl_cell].
  assert (G : forall (n : nat) d, Z.of_nat n <= N -> scan st valid n s d = 0).
  { induction n as [|n IH]; intros d Hn; cbn [scan]; [reflexivity|].
    pose proof (g_read_blank _ _ _ _ good s (Z.of_nat n) d ltac:(lia) (Hb (Z.of_nat n) ltac:(lia))) as Hv.
    destruct (st_read st s (Z.of_nat n) d) as [ok d']. cbn [snd] in Hv. rewrite Hv, andb_false_r. apply IH; lia. }
  apply G. lia.
Qed.
Lemma cyclic_from_blank reset d0 s xs : 0 < N -> N + 1 < 2 ^ W -> erases st N cell -> (forall i, 0 <= i < N -> cell s i = Blank) ->
  exists w', run (wl_step st W N valid reset d0) (construct st N valid s d0) (map WWrite xs)
   = Ok (w', map (fun i => (WoWrite true, nth_write_log N (Z.of_nat i))) (seq 0 (length xs))).
Proof using good.
  intros HN HW He Hb. pose proof (construct_blank s d0 HN Hb) as Hc.
  destruct (cyclic_run reset d0 xs HN HW He (construct st N valid s d0) 0) as (w' & E).
  - lia.
  - rewrite Hc. intros i Hi. cbn [wl_store construct]. rewrite Hb by exact Hi. split; [lia|reflexivity].
  - exact Hc.
  - exists w'. exact E.
Qed.

(* C33 *)
Lemma failed_erase_wearlevel w x (k : nat) d0 : 0 < N ->
  (forall i, 0 <= i < N -> cell (wl_store w) i <> Blank) -> st_erase st (wl_store w) = (wl_store w, false) ->
  wl_cell w = N -> N + Z.of_nat k + 1 < 2 ^ W ->
  run (wl_step st W N valid false d0) w (map WWrite (repeat x k)) = Ok (WL (N + Z.of_nat k) (wl_store w), repeat (WoWrite false, [AErase]) k).
Proof using good.
  intros HN Hb He Hc.
  assert (G : forall k c, N <= c -> c + Z.of_nat k + 1 < 2 ^ W ->
    run (wl_step st W N valid false d0) (WL c (wl_store w)) (map WWrite (repeat x k)) = Ok (WL (c + Z.of_nat k) (wl_store w), repeat (WoWrite false, [AErase]) k)).
  { clear k. induction k as [|k IH]; intros c HcN HB; cbn [repeat map run].
    - rewrite Z.add_0_r. reflexivity.
    - cbn [wl_step]. unfold wl_write, wl_fuel. destruct (Z.to_nat (2 * N + 3)) eqn:Ef; [lia|]. cbn [write_loop wl_cell wl_store].
      rewrite not_writeable by (intros H; lia). rewrite word_small by lia.
      destruct (Z.geb_spec (c + 1) N); [|lia]. rewrite He. cbn [bind app].
      rewrite IH by lia. cbn [bind]. do 3 f_equal. lia. }
  intros HB. destruct w as [c s]. cbn [wl_cell wl_store] in *. subst c. apply G; lia.
Qed.
Lemma read_first_access w buf : 0 < wl_cell w -> exists l, snd (wl_read st valid w buf) = ARead (wl_cell w - 1) :: l.
Proof using.
  clear good cell.
  intros H. unfold wl_read. replace (Z.to_nat (wl_cell w)) with (Datatypes.S (Z.to_nat (wl_cell w - 1))) by lia.
  cbn [read_down]. replace (Z.of_nat (Z.to_nat (wl_cell w - 1))) with (wl_cell w - 1) by lia.
  destruct (valid _); cbn [snd]; [eauto|]. destruct (read_down st valid _ _ _) as [r l]. cbn [snd]. eauto.
Qed.
Lemma failed_erase_leveler w x cur buf d0 : 0 < N -> N + 1 < 2 ^ W -> inv w -> latest N valid cell (wl_store w) cur ->
  (forall i, wl_cell w <= i < N -> cell (wl_store w) i <> Blank) -> st_erase st (wl_store w) = (wl_store w, false) ->
  let w' := WL 0 (wl_store w) in
  wl_write st W N true w x = Ok (w', false, [AErase]) /\
  fst (wl_read st valid w buf) = cur /\
  fst (wl_read st valid w' buf) = None /\
  fst (wl_read st valid (construct st N valid (wl_store w') d0) buf) = cur.
Proof using good.
  intros HN HW Hi Hl Hb He w'. splits.
  - destruct Hi as [Hc _]. destruct (write_cases true w x HN HW Hc) as [(j & Hj & Ej & _)|[_ H]].
    + exfalso. apply (Hb j); [lia|exact Ej].
    + rewrite He in H. cbn [fst snd] in H. exact H.
  - apply (latest_fun (wl_store w)); [apply wl_read_latest; exact Hi|exact Hl].
  - reflexivity.
  - apply (latest_fun (wl_store w)); [|exact Hl]. apply latest_restart. lia.
Qed.
End Good.

(* a failing storage read is not noticed by read() *)
Lemma stale_read w buf : 0 < wl_cell w -> valid buf = true ->
  (forall i, st_read st (wl_store w) i buf = (false, buf)) -> fst (wl_read st valid w buf) = Some buf.
Proof using.
  clear cell.
  intros Hc Hv Hf. unfold wl_read. destruct (Z.to_nat (wl_cell w)) eqn:E; [lia|]. cbn [read_down].
  rewrite Hf. cbn [snd]. rewrite Hv. reflexivity.
Qed.
End P.

(* ---------------- equal wear ---------------- *)
Lemma writes_to_app i l1 l2 : writes_to i (l1 ++ l2) = (writes_to i l1 + writes_to i l2)%nat.
Proof. unfold writes_to. rewrite filter_app, app_length. reflexivity. Qed.
Lemma writes_to_nth N i k : writes_to i (nth_write_log N k) = if k mod N =? i then 1%nat else 0%nat.
Proof.
  unfold nth_write_log. rewrite writes_to_app. unfold writes_to.
  destruct ((0 <? k) && (k mod N =? 0)); cbn [filter length plus]; destruct (k mod N =? i); reflexivity.
Qed.
Lemma equal_wear N i (m : nat) : 0 < N -> 0 <= i < N ->
  writes_to i (concat (map (fun k => nth_write_log N (Z.of_nat k)) (seq 0 (m * Z.to_nat N)))) = m.
Proof.
  intros HN Hi.
  assert (G : forall (n : nat) (base : nat), (n <= Z.to_nat N)%nat -> Z.of_nat base mod N = 0 ->
    writes_to i (concat (map (fun k => nth_write_log N (Z.of_nat k)) (seq base n))) = if i <? Z.of_nat n then 1%nat else 0%nat).
  { induction n as [|n IH]; intros base Hn Hb.
    - cbn. destruct (Z.ltb_spec i 0); [lia|reflexivity].
    - rewrite seq_S, map_app, concat_app, writes_to_app, IH by lia. cbn [map concat]. rewrite app_nil_r, writes_to_nth.
      rewrite Nat2Z.inj_add, <- Zplus_mod_idemp_l, Hb, Z.add_0_l, Z.mod_small by lia.
      destruct (Z.ltb_spec i (Z.of_nat n)); destruct (Z.ltb_spec i (Z.of_nat (S n))); destruct (Z.eqb_spec (Z.of_nat n) i); lia. }
  induction m as [|m IH]; [reflexivity|].
  replace (S m * Z.to_nat N)%nat with (m * Z.to_nat N + Z.to_nat N)%nat by lia.
  rewrite seq_app, map_app, concat_app, writes_to_app, IH, G by (try lia; rewrite Nat.add_0_l, Nat2Z.inj_mul, Z2Nat.id by lia; apply Z_mod_mult).
  destruct (Z.ltb_spec i (Z.of_nat (Z.to_nat N))); lia.
Qed.
