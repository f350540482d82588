From Verif.Common Require Import Base Lemmas Lists.
From Verif.Spec Require Import VectorSpec StreamSpec.
From Verif.Model Require Import FixedVector DoubleBuf.
From Verif.Proofs Require Import FixedVector.

Section DBS.
Context {T : Type}.
Variables (size : Z) (dflt : T).
Hypothesis Hsize : 0 <= size.

Lemma push_all_ok (w : list T) : forall b l, VRel size b l -> zlen l + zlen w <= size ->
  exists b', push_all size b w = Ok b' /\ VRel size b' (l ++ w).
Proof.
  induction w as [|d w IH]; intros b l HR HL; cbn [push_all].
  - exists b. rewrite app_nil_r. auto.
  - rewrite zlen_cons in HL. pose proof (zlen_nonneg w).
    destruct (fv_refines size dflt false b l (VPush d) eq_refl HR I) as (b' & r & l' & E & HS & HR').
    cbn [fv_step vec_spec] in *. replace (zlen l <? size) with true in HS by lia. destruct HS as [-> ->].
    destruct (fv_push size b d) as [[b1 ok]| |]; cbn [bind] in *; try discriminate.
    injection E as -> _. destruct (IH b' (l ++ [d]) HR') as (b2 & E2 & R2).
    { rewrite zlen_app, zlen_cons, zlen_nil. lia. }
    exists b2. split; [assumption|]. rewrite <- app_assoc in R2. exact R2.
Qed.

(** Refinement relation with an accepting hardware. *)
Definition DRel (s : dbs T) (q : option (list T) * list T) : Prop :=
  exists b0 b1, tx s = [b0; b1] /\
  match fst q with
  | None => in_progress s = None /\ snd q = [] /\ VRel size b0 [] /\ VRel size b1 []
  | Some a => (in_progress s = Some 0 /\ VRel size b0 a /\ VRel size b1 (snd q)) \/
              (in_progress s = Some 1 /\ VRel size b1 a /\ VRel size b0 (snd q))
  end.

Lemma vrel_clear (b : fvec T) l : VRel size b l -> VRel size (fv_clear b) [].
Proof. intros (H1 & H2 & _). unfold fv_clear, VRel; cbn. splits; try lia. reflexivity. Qed.

Lemma contents_rel (b : fvec T) l : VRel size b l -> fv_contents b = l.
Proof. intros (_ & _ & ->). reflexivity. Qed.

Lemma dbs_refines s q o : DRel s q -> hw_accepts o ->
  exists s', dbs_step size s o = Ok (s', snd (dbs_spec size q o)) /\ DRel s' (fst (dbs_spec size q o)).
Proof.
  intros (b0 & b1 & Et & HD) Hhw. destruct q as [active pending]. destruct s as [t ip]; cbn [tx in_progress fst snd] in *. subst t.
  destruct o as [w hw|hw]; cbn [hw_accepts dbs_step] in *; subst hw.
  - unfold transmit; cbn [tx in_progress]. unfold fv_available. pose proof (zlen_nonneg w) as Hw0.
    destruct active as [a|].
    + destruct HD as [(-> & Ha & Hp)|(-> & Ha & Hp)].
      * change (1 - 0) with 1. change (rd [b0; b1] 1) with (Ok b1). cbn [bind dbs_spec].
        pose proof (vrel_len _ _ _ Hp) as Hpl. rewrite Hpl.
        destruct (Z.geb_spec (size - v_n b1) (zlen w)).
        -- replace (v_n b1 + zlen w <=? size) with true by lia.
           destruct (push_all_ok w b1 pending Hp) as (b' & E & HR'); [lia|]. rewrite E. cbn [bind].
           change (wr [b0; b1] 1 b') with (Ok [b0; b']). cbn [bind in_progress].
           eexists; split; [reflexivity|]. exists b0, b'. split; [reflexivity|]. left. auto.
        -- replace (v_n b1 + zlen w <=? size) with false by lia.
           eexists; split; [reflexivity|]. exists b0, b1. split; [reflexivity|]. left. auto.
      * change (1 - 1) with 0. change (rd [b0; b1] 0) with (Ok b0). cbn [bind dbs_spec].
        pose proof (vrel_len _ _ _ Hp) as Hpl. rewrite Hpl.
        destruct (Z.geb_spec (size - v_n b0) (zlen w)).
        -- replace (v_n b0 + zlen w <=? size) with true by lia.
           destruct (push_all_ok w b0 pending Hp) as (b' & E & HR'); [lia|]. rewrite E. cbn [bind].
           change (wr [b0; b1] 0 b') with (Ok [b'; b1]). cbn [bind in_progress].
           eexists; split; [reflexivity|]. exists b', b1. split; [reflexivity|]. right. auto.
        -- replace (v_n b0 + zlen w <=? size) with false by lia.
           eexists; split; [reflexivity|]. exists b0, b1. split; [reflexivity|]. right. auto.
    + destruct HD as (-> & -> & H0 & H1). change (1 - 1) with 0. change (rd [b0; b1] 0) with (Ok b0). cbn [bind dbs_spec].
      pose proof (vrel_len _ _ _ H0) as Hl0. rewrite zlen_nil in Hl0. rewrite <- Hl0, Z.sub_0_r.
      destruct (Z.geb_spec size (zlen w)).
      * replace (zlen w <=? size) with true by lia.
        destruct (push_all_ok w b0 [] H0) as (b' & E & HR'); [rewrite zlen_nil; lia|]. rewrite E. cbn [bind].
        change (wr [b0; b1] 0 b') with (Ok [b'; b1]). cbn [bind in_progress]. unfold start_tx; cbn [tx].
        change (rd [b'; b1] 0) with (Ok b'). cbn [bind]. rewrite (contents_rel _ _ HR'). cbn [app].
        eexists; split; [reflexivity|]. exists b', b1. split; [reflexivity|]. left. auto.
      * replace (zlen w <=? size) with false by lia.
        eexists; split; [reflexivity|]. exists b0, b1. split; [reflexivity|]. cbn [fst snd]. auto.
  - unfold tx_done; cbn [tx in_progress]. destruct active as [a|].
    + assert (HP : forall b, VRel size b pending -> (v_n b =? 0) = match pending with [] => true | _ => false end).
      { intros b Hb. pose proof (vrel_len _ _ _ Hb) as E. rewrite <- E. destruct pending as [|x r]; [reflexivity|].
        rewrite zlen_cons. pose proof (zlen_nonneg r). lia. }
      destruct HD as [(-> & Ha & Hp)|(-> & Ha & Hp)].
      * change (rd [b0; b1] 0) with (Ok b0). cbn [bind]. change (wr [b0; b1] 0 (fv_clear b0)) with (Ok [fv_clear b0; b1]). cbn [bind tx].
        change (1 - 0) with 1. change (rd [fv_clear b0; b1] 1) with (Ok b1). cbn [bind]. rewrite (HP _ Hp).
        pose proof (vrel_clear _ _ Ha) as Hc.
        destruct pending as [|x r] eqn:Epd; cbn [negb dbs_spec].
        -- eexists; split; [reflexivity|]. exists (fv_clear b0), b1. split; [reflexivity|]. cbn [fst snd]. auto.
        -- unfold start_tx; cbn [tx]. change (rd [fv_clear b0; b1] 1) with (Ok b1). cbn [bind]. rewrite (contents_rel _ _ Hp).
           eexists; split; [reflexivity|]. exists (fv_clear b0), b1. split; [reflexivity|]. right. auto.
      * change (rd [b0; b1] 1) with (Ok b1). cbn [bind]. change (wr [b0; b1] 1 (fv_clear b1)) with (Ok [b0; fv_clear b1]). cbn [bind tx].
        change (1 - 1) with 0. change (rd [b0; fv_clear b1] 0) with (Ok b0). cbn [bind]. rewrite (HP _ Hp).
        pose proof (vrel_clear _ _ Ha) as Hc.
        destruct pending as [|x r] eqn:Epd; cbn [negb dbs_spec].
        -- eexists; split; [reflexivity|]. exists b0, (fv_clear b1). split; [reflexivity|]. cbn [fst snd]. auto.
        -- unfold start_tx; cbn [tx]. change (rd [b0; fv_clear b1] 0) with (Ok b0). cbn [bind]. rewrite (contents_rel _ _ Hp).
           eexists; split; [reflexivity|]. exists b0, (fv_clear b1). split; [reflexivity|]. left. auto.
    + destruct HD as (-> & -> & H0 & H1). cbn [dbs_spec fst snd]. eexists; split; [reflexivity|].
      exists b0, b1. split; [reflexivity|]. cbn [fst snd]. auto.
Qed.

Lemma drel_init : DRel (dbs_init size dflt) (None, []).
Proof.
  exists (fv_init size dflt []), (fv_init size dflt []). split; [reflexivity|]. cbn [fst snd].
  assert (VRel size (fv_init size dflt []) []) by (apply vrel_init; rewrite zlen_nil; lia). auto.
Qed.

Lemma dbs_run_rel ops : Forall hw_accepts ops ->
  exists s', run (dbs_step size) (dbs_init size dflt) ops = Ok (s', snd (srun (dbs_spec size) (None, []) ops)) /\
             DRel s' (fst (srun (dbs_spec size) (None, []) ops)).
Proof.
  intros HF. apply (run_refines_guarded (dbs_step size) (dbs_spec size) (fun _ o => hw_accepts o) DRel).
  - intros s q o HR HO. apply dbs_refines; assumption.
  - apply drel_init.
  - generalize (None (A := list T), @nil T) as q. induction HF as [|o ops Ho HF IH]; intros q; cbn [guarded]; auto.
Qed.

Lemma dbs_run ops : Forall hw_accepts ops ->
  exists s', run (dbs_step size) (dbs_init size dflt) ops = Ok (s', snd (srun (dbs_spec size) (None, []) ops)).
Proof. intros HF. destruct (dbs_run_rel ops HF) as (s' & E & _); eauto. Qed.

(** While a transmission is (believed to be) in progress, transmit never calls the hardware. *)
Lemma busy_transmits ops : forall s a p, DRel s (Some a, p) -> Forall is_transmit ops ->
  exists s' outs p', run (dbs_step size) s ops = Ok (s', outs) /\ sent outs = [] /\ DRel s' (Some a, p').
Proof.
  induction ops as [|o ops IH]; intros s a p HR HF; cbn [run].
  - do 3 eexists; splits; [reflexivity|reflexivity|exact HR].
  - inversion HF as [|? ? Ho HF']; subst. destruct o as [w hw|hw]; [|contradiction].
    destruct (dbs_refines s (Some a, p) (DTransmit w true) HR eq_refl) as (s1 & E & R1).
    assert (Ehw : dbs_step size s (DTransmit w hw) = dbs_step size s (DTransmit w true)).
    { cbn [dbs_step]. unfold transmit. destruct HR as (b0 & b1 & Et & Hc). cbn [fst snd] in Hc.
      assert (Hi : exists i, in_progress s = Some i) by (destruct Hc as [(-> & _)|(-> & _)]; eauto).
      destruct Hi as [i ->]. reflexivity. }
    rewrite Ehw, E. cbn [dbs_spec] in *.
    destruct (zlen p + zlen w <=? size); cbn [bind fst snd] in *;
      destruct (IH _ _ _ R1 HF') as (s2 & outs & p' & E2 & Hs & R2); rewrite E2; cbn [bind];
      do 3 eexists; splits; try reflexivity; try exact R2; exact Hs.
Qed.

Lemma failed_start w ops : zlen w <= size -> Forall is_transmit ops ->
  exists s' outs, run (dbs_step size) (dbs_init size dflt) (DTransmit w false :: ops) = Ok (s', (Some false, Some w) :: outs) /\
    sent outs = [].
Proof.
  intros Hw HF. cbn [run].
  destruct (dbs_refines (dbs_init size dflt) (None, []) (DTransmit w true) drel_init eq_refl) as (s1 & E & R1).
  cbn [dbs_step dbs_spec] in *. replace (zlen w <=? size) with true in * by lia. cbn [fst snd] in *.
  unfold transmit in *. cbn [dbs_init in_progress tx] in *.
  destruct (rd [fv_init size dflt []; fv_init size dflt []] (1 - 1)) as [b| |]; cbn [bind] in *; try discriminate.
  destruct (fv_available size b >=? zlen w); [|discriminate].
  destruct (push_all size b w) as [b'| |]; cbn [bind] in *; try discriminate.
  destruct (wr [fv_init size dflt []; fv_init size dflt []] (1 - 1) b') as [t| |]; cbn [bind in_progress] in *; try discriminate.
  unfold start_tx in *. cbn [tx] in *. destruct (rd t (1 - 1)) as [b2| |]; cbn [bind] in *; try discriminate.
  change (1 - 1) with 0 in *. injection E as <- ->.
  destruct (busy_transmits _ _ _ _ R1 HF) as (s2 & outs & p' & E2 & Hs & _). rewrite E2. cbn [bind].
  do 2 eexists; split; [reflexivity|exact Hs].
Qed.
End DBS.

(** Consequences, on the specification. *)
Section Cons.
Context {T : Type}.
Variable size : Z.

Lemma spec_exactly_once ops : forall (q : option (list T) * list T),
  let '(q', outs) := srun (dbs_spec size) q ops in
  snd q ++ accepted ops outs = sent outs ++ snd q' \/ (fst q = None /\ snd q <> []).
Proof.
  induction ops as [|o ops IH]; intros [active pending]; cbn [srun].
  - left. cbn. rewrite app_nil_r. reflexivity.
  - destruct (dbs_spec size (active, pending) o) as [q1 r] eqn:Es.
    specialize (IH q1). destruct (srun (dbs_spec size) q1 ops) as [q2 rs] eqn:Er.
    cbn [fst snd] in *.
    destruct o as [w hw|hw]; cbn [dbs_spec] in Es.
    + destruct active as [a|].
      * destruct (zlen pending + zlen w <=? size); injection Es as <- <-; cbn [accepted sent fst snd] in *;
          destruct IH as [IH|[H _]]; try discriminate; left; [rewrite app_assoc|]; exact IH.
      * destruct pending as [|p ps]; [|right; split; [reflexivity|discriminate]].
        destruct (zlen w <=? size); injection Es as <- <-; cbn [accepted sent fst snd app] in *;
          destruct IH as [IH|[H1 H2]]; try discriminate; try (exfalso; apply H2; reflexivity); left.
        -- rewrite IH, app_assoc. reflexivity.
        -- exact IH.
    + destruct active as [a|].
      * destruct pending as [|p ps]; injection Es as <- <-; cbn [accepted sent fst snd app] in *;
          destruct IH as [IH|[H1 H2]]; try discriminate; try (exfalso; apply H2; reflexivity); left.
        -- exact IH.
        -- rewrite IH. rewrite <- app_assoc; reflexivity.
      * destruct pending as [|p ps]; [|right; split; [reflexivity|discriminate]].
        injection Es as <- <-; cbn [accepted sent fst snd app] in *.
        destruct IH as [IH|[H1 H2]]; [left; exact IH|exfalso; apply H2; reflexivity].
Qed.

Lemma exactly_once ops :
  let '(q', outs) := srun (dbs_spec size) (None, @nil T) ops in
  accepted ops outs = sent outs ++ snd q'.
Proof.
  pose proof (spec_exactly_once ops (None, [])) as H.
  destruct (srun (dbs_spec size) (None, []) ops) as [q' outs]. cbn [fst snd app] in H.
  destruct H as [H|[_ H]]; [exact H|exfalso; apply H; reflexivity].
Qed.

Lemma spec_never_busy ops : forall (q : option (list T) * list T),
  never_busy (match fst q with Some _ => true | None => false end) ops (snd (srun (dbs_spec size) q ops)).
Proof.
  induction ops as [|o ops IH]; intros [active pending]; cbn [srun]; [exact I|].
  destruct (dbs_spec size (active, pending) o) as [q1 r] eqn:Es.
  specialize (IH q1). destruct (srun (dbs_spec size) q1 ops) as [q2 rs] eqn:Er. cbn [fst snd] in *.
  destruct o as [w hw|hw]; cbn [dbs_spec] in Es.
  - destruct active as [a|].
    + destruct (zlen pending + zlen w <=? size); injection Es as <- <-; cbn [never_busy fst] in *; exact IH.
    + destruct (zlen w <=? size); injection Es as <- <-; cbn [never_busy fst] in *; auto.
  - destruct active as [a|].
    + destruct pending as [|p ps]; injection Es as <- <-; cbn [never_busy fst] in *; exact IH.
    + injection Es as <- <-; cbn [never_busy fst] in *. exact IH.
Qed.

Lemma srun_app {Q O R} (st : Q -> O -> Q * R) ops1 : forall q ops2,
  srun st q (ops1 ++ ops2) = let (q1, r1) := srun st q ops1 in let (q2, r2) := srun st q1 ops2 in (q2, r1 ++ r2).
Proof.
  induction ops1 as [|o ops1 IH]; intros q ops2; cbn [srun app].
  - destruct (srun st q ops2); reflexivity.
  - destruct (st q o) as [q1 r]. rewrite IH. destruct (srun st q1 ops1) as [q2 r1]. destruct (srun st q2 ops2); reflexivity.
Qed.

Lemma idle_empty ops : forall q0 q outs, srun (dbs_spec size) q0 ops = (q, outs) ->
  (fst q0 = None -> snd q0 = []) -> fst q = None -> snd q = @nil T.
Proof.
  induction ops as [|o ops IH]; intros [a p] q outs0 E Hq; cbn [srun] in E.
  - injection E as <- <-. exact Hq.
  - destruct (dbs_spec size (a, p) o) as [q1 r] eqn:Es. destruct (srun (dbs_spec size) q1 ops) as [q2 rs] eqn:Er.
    injection E as <- <-. eapply IH; [exact Er|]. cbn [fst snd] in *.
    destruct o as [w hw|hw]; cbn [dbs_spec] in Es.
    + destruct a as [a|].
      * destruct (zlen p + zlen w <=? size); injection Es as <- <-; cbn; discriminate.
      * destruct (zlen w <=? size); injection Es as <- <-; cbn; [discriminate|exact Hq].
    + destruct a as [a|]; [destruct p as [|x xs]|]; injection Es as <- <-; cbn; try discriminate; try reflexivity. exact Hq.
Qed.

(** Two completions empty the transmitter. *)
Lemma drained ops h1 h2 :
  let '(q', outs) := srun (dbs_spec size) (None, @nil T) (ops ++ [DDone h1; DDone h2]) in
  accepted (ops ++ [DDone h1; DDone h2]) outs = sent outs /\ q' = (None, []).
Proof.
  pose proof (exactly_once (ops ++ [DDone h1; DDone h2])) as H.
  rewrite srun_app in *. pose proof (exactly_once ops) as H0.
  destruct (srun (dbs_spec size) (None, []) ops) as [[active pending] outs] eqn:E0.
  pose proof (idle_empty ops (None, []) _ _ E0 (fun _ => eq_refl)) as Hp. cbn [fst snd] in Hp.
  clear H0. destruct active as [a|].
  - destruct pending as [|x xs]; cbn in *.
    + rewrite app_nil_r in H. auto.
    + rewrite app_nil_r in H. auto.
  - specialize (Hp eq_refl). subst pending. cbn in *. rewrite app_nil_r in H. auto.
Qed.
End Cons.

Section Summary.
Context {T : Type}.
Variables (size : Z) (dflt : T).
Hypothesis Hsize : 0 <= size.

Lemma dbs_exactly_once (ops : list (dop T)) : Forall hw_accepts ops ->
  exists s' outs waiting, run (dbs_step size) (dbs_init size dflt) ops = Ok (s', outs) /\
    accepted ops outs = sent outs ++ waiting /\ zlen waiting <= size /\ never_busy false ops outs.
Proof.
  intros HF. destruct (dbs_run_rel size dflt Hsize ops HF) as (s' & E & HR).
  pose proof (exactly_once size ops) as H1. pose proof (spec_never_busy size ops (None, [])) as H2.
  destruct (srun (dbs_spec size) (None, []) ops) as [[a w] outs]. cbn [fst snd] in *.
  exists s', outs, w. splits; auto.
  destruct HR as (b0 & b1 & _ & HD). cbn [fst snd] in HD.
  destruct a; [destruct HD as [(_ & _ & HV)|(_ & _ & HV)]|destruct HD as (_ & -> & _); zl; lia];
    pose proof (vrel_len _ _ _ HV); destruct HV as (_ & ? & _); lia.
Qed.

Lemma dbs_drained (ops : list (dop T)) : Forall hw_accepts ops ->
  exists s' outs, run (dbs_step size) (dbs_init size dflt) (ops ++ [DDone true; DDone true]) = Ok (s', outs) /\
    accepted (ops ++ [DDone true; DDone true]) outs = sent outs.
Proof.
  intros HF. assert (HF2 : Forall hw_accepts (ops ++ [DDone true; DDone true])).
  { apply Forall_app; split; [assumption|repeat constructor]. }
  destruct (dbs_run size dflt Hsize _ HF2) as (s' & E).
  pose proof (drained size ops true true) as H1.
  destruct (srun (dbs_spec size) (None, []) (ops ++ [DDone true; DDone true])) as [q outs]. cbn [fst snd] in *.
  destruct H1. exists s', outs. auto.
Qed.
End Summary.
