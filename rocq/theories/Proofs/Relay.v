From Verif.Common Require Import Base Lemmas Lists.
From Verif.Spec Require Import ButtonSpec IrqSpec RelaySpec.
From Verif.Model Require Import Debouncer Irq.
From Verif.Proofs Require Import History.

Definition Match (lvl changed : bool) (a b : toggler) : Prop :=
  is_high b = lvl /\ if changed then is_high a = negb lvl /\ got_rise b = lvl /\ got_fall b = negb lvl
                     else is_high a = lvl /\ got_rise b = false /\ got_fall b = false.

Lemma relay_run ops : forall lvl changed a b, Match lvl changed a b -> unhurried lvl changed ops ->
  picks asks_receiver ops (snd (srun x_step (a, b) ops)) = picks asks (direct lvl ops) (snd (srun tog_step a (direct lvl ops))) /\
  fst (fst (srun x_step (a, b) ops)) = fst (srun tog_step a (direct lvl ops)).
Proof.
  induction ops as [|o ops IH]; intros lvl changed a b M U; [split; reflexivity|].
  destruct o as [o|o|]; cbn [direct srun x_step fst snd asks_receiver].
  - destruct U as [Ha U]. destruct (tog_step a o) as [a' x] eqn:Ea.
    assert (M' : Match lvl changed a' b).
    { destruct o; try discriminate Ha; cbn in Ea; unfold is_just_pressed, is_just_released in Ea; destruct a as [h r f], b as [h2 r2 f2], r, f; injection Ea as <- <-; exact M. }
    specialize (IH lvl changed a' b M' U). cbn [picks asks_receiver].
    destruct (srun x_step (a', b) ops) as [p xs]. destruct (srun tog_step a' (direct lvl ops)) as [t ys]. cbn [fst snd picks] in *. cbn [asks_receiver]. rewrite Ha. destruct IH as [-> ->]. auto.
  - destruct (tog_step b o) as [b' x] eqn:Eb.
    assert (exists lvl' changed', Match lvl' changed' a b' /\ unhurried lvl' changed' ops /\ match announces o with Some b0 => b0 | None => lvl end = lvl') as (lvl' & changed' & M' & U' & ->).
    { destruct a as [h r f], b as [h2 r2 f2]. unfold Match in M. cbn [is_high got_rise got_fall] in M.
      destruct o as [c| | | | | | |]; cbn [unhurried] in U; try contradiction; cbn [announces]; cbn in Eb.
      - injection Eb as <- <-. exists c. destruct (Bool.eqb_spec c lvl) as [->|Hne].
        + exists changed. split; [|auto]. destruct M as [-> M]. unfold register_state. cbn [is_high]. rewrite Bool.eqb_reflx. split; [reflexivity|exact M].
        + destruct U as [-> U]. exists true. split; [|auto]. destruct M as (-> & -> & -> & ->). unfold register_state. cbn [is_high].
          destruct c, lvl; try congruence; cbn; repeat split; reflexivity.
      - destruct U as (-> & -> & U). injection Eb as <- <-. exists true, true. split; [|auto]. destruct M as (-> & -> & -> & ->). cbn. repeat split; reflexivity.
      - destruct U as (-> & -> & U). injection Eb as <- <-. exists false, true. split; [|auto]. destruct M as (-> & -> & -> & ->). cbn. repeat split; reflexivity. }
    specialize (IH lvl' changed' a b' M' U'). destruct (srun x_step (a, b') ops) as [p xs]. exact IH.
  - cbn [unhurried] in U. assert (Ea : update_state a b = register_state a lvl /\ Match lvl false (update_state a b) (clear_events b)).
    { destruct a as [h r f], b as [h2 r2 f2]. destruct M as [Hl M]. cbn [is_high got_rise got_fall] in *. subst h2. destruct changed.
      - destruct M as (-> & -> & ->). destruct lvl; cbn; repeat split; reflexivity.
      - destruct M as (-> & -> & ->). unfold register_state, update_state. cbn. rewrite Bool.eqb_reflx. repeat split; reflexivity. }
    destruct Ea as [Ea M']. unfold transfer_events. cbn [tog_step]. rewrite <- Ea. specialize (IH lvl false _ _ M' U).
    destruct (srun x_step (update_state a b, clear_events b) ops) as [p xs]. destruct (srun tog_step (update_state a b) (direct lvl ops)) as [t ys]. exact IH.
Qed.
Lemma relay ops : unhurried false false ops ->
  picks asks_receiver ops (snd (srun x_step (tog0, tog0) ops)) = picks asks (direct false ops) (snd (srun tog_step tog0 (direct false ops))) /\
  is_high (fst (fst (srun x_step (tog0, tog0) ops))) = is_high (fst (srun tog_step tog0 (direct false ops))).
Proof. intros U. destruct (relay_run ops false false tog0 tog0) as [H1 H2]; [repeat split; reflexivity|exact U|]. split; [exact H1|]. rewrite H2. reflexivity. Qed.

Lemma last_from (l : list bool) : forall c d, last (c :: l) d = last l c.
Proof. induction l as [|x l IH]; intros c d; [reflexivity|]. change (last (c :: x :: l) d) with (last (x :: l) d). rewrite (IH x d). symmetry. apply IH. Qed.
Lemma feed l : forall a b, exists r, fst (srun x_step (a, b) (map (fun s => XSecond (TReg s)) l)) = (a, r) /\
  is_high r = last l (is_high b) /\ got_rise r = got_rise b || changes_to true (is_high b) l /\ got_fall r = got_fall b || changes_to false (is_high b) l.
Proof.
  induction l as [|c l IH]; intros a b.
  - exists b. cbn. rewrite !orb_false_r. auto.
  - cbn [map srun x_step fst snd tog_step]. destruct (IH a (register_state b c)) as (r & E & H1 & H2 & H3).
    destruct (srun x_step (a, register_state b c) _) as [p xs]. cbn [fst] in *. exists r. split; [exact E|].
    assert (Hh : is_high (register_state b c) = c) by (unfold register_state; destruct (Bool.eqb_spec c (is_high b)) as [->|]; [reflexivity|destruct c; reflexivity]).
    rewrite H1, H2, H3, Hh. cbn [changes_to]. split; [symmetry; apply last_from|].
    unfold register_state. destruct b as [h r2 f2]. cbn [is_high got_rise got_fall]. destruct c, h, r2, f2; cbn; auto using orb_false_r.
Qed.
Lemma one_transfer a b l : got_rise b = false -> got_fall b = false ->
  exists a' b', fst (srun x_step (a, b) (map (fun s => XSecond (TReg s)) l ++ [XTransfer])) = (a', b') /\
    is_high a' = last l (is_high b) /\ is_high b' = last l (is_high b) /\ got_rise b' = false /\ got_fall b' = false /\
    snd (is_just_released a') = snd (is_just_released a) || changes_to false (is_high b) l /\
    snd (is_just_pressed a') = snd (is_just_pressed a) || (changes_to true (is_high b) l && negb (changes_to false (is_high b) l)).
Proof.
  intros Hr Hf. destruct (feed l a b) as (r & E & H1 & H2 & H3). rewrite srun_app.
  destruct (srun x_step (a, b) (map _ l)) as [p xs]. cbn [fst] in E. subst p. cbn [srun x_step fst snd transfer_events].
  eexists _, _. split; [reflexivity|]. rewrite Hr, Hf in *. cbn [orb] in *. unfold update_state, clear_events, is_just_pressed, is_just_released.
  cbn [is_high got_rise got_fall]. rewrite H1. splits; auto; rewrite H2, H3; destruct (changes_to true _ l), (changes_to false _ l), a as [h r3 f3], r3, f3; reflexivity.
Qed.
Lemma updates_again a b : got_rise b = true -> got_fall b = false -> snd (is_just_pressed (update_state a b)) = true.
Proof. intros Hr Hf. unfold update_state, is_just_pressed. rewrite Hf, Hr. reflexivity. Qed.
