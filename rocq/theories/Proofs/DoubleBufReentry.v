From Verif.Common Require Import Base Lemmas Lists.
From Verif.Spec Require Import VectorSpec StreamSpec ReentrySpec.
From Verif.Model Require Import FixedVector DoubleBuf DoubleBufReentry.
From Verif.Proofs Require Import FixedVector DoubleBuf.

Section Reentry.
Context {T : Type}.
Variables (size : Z) (dflt : T).
Hypothesis Hsize : 0 <= size.

(** induction over call trees *)
Lemma rop_ind2 (P : rop T -> Prop) : (forall w l, Forall P l -> P (RTransmit w l)) -> (forall l, Forall P l -> P (RDone l)) -> forall o, P o.
Proof using.
  intros H1 H2. fix IH 1. intros [w l|l].
  - apply H1. induction l as [|o l IHl]; constructor; [apply IH|exact IHl].
  - apply H2. induction l as [|o l IHl]; constructor; [apply IH|exact IHl].
Qed.

Lemma call_eq (o : rop T) (s : dbs T) : call size o s = match o with RTransmit w l => transmit_r size s w (calls size l) | RDone l => tx_done_r s (calls size l) end.
Proof using.
  destruct o; cbn [call]; reflexivity.
Qed.
Lemma order_eq (o : rop T) q : order size o q =
  let (q1, r) := dbs_spec size q (rhead o) in
  if hands_over r then let (q2, a) := orders size (rinner o) q1 in (q2, rhead o :: a) else (q1, [rhead o]).
Proof using. destruct o; cbn [order rinner]; reflexivity. Qed.

(** up to the call of the hardware function a call is the sequential one; afterwards nothing is touched *)
Lemma head_eq (o : rop T) s : call size o s =
  let* (s1, r) := dbs_step size s (rhead o) in
  if hands_over r then let* (s2, b) := calls size (rinner o) s1 in Ok (s2, r :: b) else Ok (s1, [r]).
Proof using.
  rewrite call_eq. destruct o as [w l|l]; cbn [rhead rinner dbs_step].
  - unfold transmit_r, transmit. destruct (rd (tx s) _) as [b| |]; cbn [bind]; try reflexivity.
    destruct (_ >=? _); [|reflexivity]. destruct (push_all size b w) as [b'| |]; cbn [bind]; try reflexivity.
    destruct (wr (tx s) _ b') as [t| |]; cbn [bind]; try reflexivity. cbn [in_progress]. destruct (in_progress s) as [i|]; [reflexivity|].
    unfold start_tx_r, start_tx. cbn [tx]. destruct (rd t _) as [b2| |]; cbn [bind]; try reflexivity. cbn [hands_over snd].
    destruct (calls size l _) as [[s2 outs]| |]; reflexivity.
  - unfold tx_done_r, tx_done. destruct (in_progress s) as [i|]; [|reflexivity].
    destruct (rd (tx s) i) as [b| |]; cbn [bind]; try reflexivity. destruct (wr (tx s) i (fv_clear b)) as [t| |]; cbn [bind]; try reflexivity. cbn [tx].
    destruct (rd t (1 - i)) as [ob| |] eqn:Eo; cbn [bind]; try reflexivity. destruct (negb (v_n ob =? 0)); [|reflexivity].
    unfold start_tx_r, start_tx. cbn [tx]. rewrite Eo. cbn [bind hands_over snd].
    destruct (calls size l _) as [[s2 outs]| |]; reflexivity.
Qed.

Definition good (o : rop T) : Prop := forall s q, DRel size s q ->
  exists s', call size o s = Ok (s', snd (srun (dbs_spec size) q (snd (order size o q)))) /\ DRel size s' (fst (order size o q)) /\
    fst (order size o q) = fst (srun (dbs_spec size) q (snd (order size o q))) /\
    run (dbs_step size) s (snd (order size o q)) = Ok (s', snd (srun (dbs_spec size) q (snd (order size o q)))) /\
    Forall hw_accepts (snd (order size o q)).
Lemma srun_app_snd {S O R} (f : S -> O -> S * R) a : forall s b,
  srun f s (a ++ b) = (fst (srun f (fst (srun f s a)) b), snd (srun f s a) ++ snd (srun f (fst (srun f s a)) b)).
Proof using.
  clear. induction a as [|o a IH]; intros s b; cbn [app srun].
  - cbn [fst snd app]. destruct (srun f s b); reflexivity.
  - destruct (f s o) as [s1 r]. rewrite IH. destruct (srun f s1 a) as [s2 rs]. cbn [fst snd]. reflexivity.
Qed.
Lemma goods l : Forall good l -> forall s q, DRel size s q ->
  exists s', calls size l s = Ok (s', snd (srun (dbs_spec size) q (snd (orders size l q)))) /\ DRel size s' (fst (orders size l q)) /\
    fst (orders size l q) = fst (srun (dbs_spec size) q (snd (orders size l q))) /\
    run (dbs_step size) s (snd (orders size l q)) = Ok (s', snd (srun (dbs_spec size) q (snd (orders size l q)))) /\
    Forall hw_accepts (snd (orders size l q)).
Proof using.
  clear Hsize dflt. induction 1 as [|o l Ho _ IH]; intros s q HR; cbn [calls orders].
  - exists s. cbn [fst snd srun run]. splits; auto.
  - destruct (Ho s q HR) as (s1 & E1 & R1 & Q1 & X1 & F1). rewrite E1. cbn [bind].
    destruct (order size o q) as [q1 a] eqn:EO. cbn [fst snd] in *.
    destruct (IH s1 q1 R1) as (s2 & E2 & R2 & Q2 & X2 & F2). rewrite E2. cbn [bind].
    destruct (orders size l q1) as [q2 b]. cbn [fst snd] in *.
    rewrite srun_app_snd. cbn [fst snd]. rewrite <- Q1. exists s2. splits; try assumption; try reflexivity.
    + rewrite run_app, X1. cbn [bind]. rewrite X2. reflexivity.
    + apply Forall_app. auto.
Qed.
Lemma all_good o : good o.
Proof using All.
  assert (H : forall o, Forall good (rinner o) -> good o).
  { clear o. intros o HI s q HR.
    destruct (dbs_refines size dflt Hsize s q (rhead o) HR) as (s1 & E1 & R1); [destruct o; reflexivity|].
    rewrite head_eq, order_eq, E1. cbn [bind]. destruct (dbs_spec size q (rhead o)) as [q1 r] eqn:ES. cbn [fst snd] in *.
    assert (HH : hw_accepts (rhead o)) by (destruct o; reflexivity).
    destruct (hands_over r).
    - destruct (goods _ HI s1 q1 R1) as (s2 & E2 & R2 & Q2 & X2 & F2). rewrite E2. cbn [bind].
      destruct (orders size (rinner o) q1) as [q2 a]. cbn [fst snd] in *. exists s2. cbn [srun run]. rewrite ES, E1. cbn [bind]. rewrite X2. cbn [bind].
      destruct (srun (dbs_spec size) q1 a) as [q3 rs]. cbn [fst snd] in *. subst q3. splits; auto.
    - exists s1. cbn [srun run fst snd]. rewrite ES, E1. cbn [bind fst snd]. splits; auto. }
  apply rop_ind2; intros; apply H; assumption.
Qed.
Lemma reentry_runs l : exists s', calls size l (dbs_init size dflt) = Ok (s', snd (srun (dbs_spec size) (None, []) (snd (orders size l (None, []))))) /\
  run (dbs_step size) (dbs_init size dflt) (snd (orders size l (None, []))) = Ok (s', snd (srun (dbs_spec size) (None, []) (snd (orders size l (None, []))))) /\
  Forall hw_accepts (snd (orders size l (None, []))).
Proof using All.
  destruct (goods l ltac:(apply Forall_forall; intros; apply all_good) (dbs_init size dflt) (None, []) (drel_init size dflt Hsize)) as (s' & E & _ & _ & X & F). eauto.
Qed.
Lemma reentry_exactly_once l : exists s' outs flat waiting,
  calls size l (dbs_init size dflt) = Ok (s', outs) /\ flat = snd (orders size l (None, [])) /\
  run (dbs_step size) (dbs_init size dflt) flat = Ok (s', outs) /\
  accepted flat outs = sent outs ++ waiting /\ zlen waiting <= size /\ never_busy false flat outs.
Proof using All.
  destruct (reentry_runs l) as (s' & E & X & F).
  destruct (dbs_exactly_once size dflt Hsize _ F) as (s2 & outs & waiting & E2 & H1 & H2 & H3). rewrite X in E2. injection E2 as <- <-.
  do 4 eexists. splits; try eassumption; reflexivity.
Qed.
(** hardware that is done before its function returns *)
Definition at_once (w : list T) : rop T := RTransmit w [RDone []].
Lemma at_once_all ws : exists s', calls size (map at_once ws) (dbs_init size dflt) =
  Ok (s', concat (map (fun w => if zlen w <=? size then [(Some true, Some w); (None, None)] else [(Some false, None)]) ws)).
Proof using All.
  assert (H : orders size (map at_once ws) (None, []) = ((None, []), concat (map (fun w => if zlen w <=? size then [DTransmit w true; DDone true] else [DTransmit w true]) ws))).
  { induction ws as [|w ws IH]; [reflexivity|]. cbn [map concat orders]. rewrite order_eq. cbn [at_once rhead rinner dbs_spec].
    destruct (zlen w <=? size) eqn:E; cbn [hands_over snd].
    - cbn [orders]. rewrite order_eq. cbn [rhead rinner dbs_spec hands_over snd app]. rewrite IH. reflexivity.
    - rewrite IH. reflexivity. }
  destruct (reentry_runs (map at_once ws)) as (s' & E & _). exists s'. rewrite E, H. cbn [snd]. do 2 f_equal. clear.
  induction ws as [|w ws IH]; [reflexivity|]. cbn [map concat]. rewrite srun_app_snd. cbn [snd].
  destruct (zlen w <=? size) eqn:E; cbn [srun dbs_spec]; rewrite !E; cbn [dbs_spec fst snd app]; rewrite IH; reflexivity.
Qed.
End Reentry.
