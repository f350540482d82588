From Verif.Common Require Import Base Lemmas Lists.
From Verif.Spec Require Import VectorSpec StreamSpec.
From Verif.Model Require Import FixedVector DoubleBuf DoubleBufIrq.
From Verif.Proofs Require Import FixedVector DoubleBuf.

Section Irq.
Context {T : Type}.
Variables (size : Z) (dflt : T).
Hypothesis Hsize : 0 <= size.
Lemma n_zero (b : fvec T) l : VRel size b l -> (v_n b =? 0) = match l with [] => true | _ => false end.
Proof. intros Hb. rewrite <- (vrel_len _ _ _ Hb). destruct l as [|x r]; [reflexivity|]. rewrite zlen_cons. pose proof (zlen_nonneg r). lia. Qed.
(* what an interrupted call does *)
Lemma irq_cases s (act pending a b : list T) : DRel size s (Some act, pending) -> zlen pending + zlen (a ++ b) <= size ->
  exists s', interrupted size s a b true = Ok (s', (None, match pending ++ a with [] => None | l => Some l end), match pending ++ a with [] => (Some true, Some b) | _ => (Some true, None) end) /\
    match pending ++ a with
    | [] => DRel size s' (Some b, [])
    | l => DRel size s' (Some (l ++ b), [])
    end.
Proof.
  intros (b0 & b1 & Et & HD) HL. destruct s as [t ip]; cbn [tx in_progress fst snd] in *. subst t. unfold interrupted; cbn [tx in_progress]. unfold fv_available. rewrite zlen_app in *. pose proof (zlen_nonneg a). pose proof (zlen_nonneg b).
  destruct HD as [(-> & Ha & Hp)|(-> & Ha & Hp)]; pose proof (vrel_len _ _ _ Hp) as Hpl.
  - change (1 - 0) with 1. change (rd [b0; b1] 1) with (Ok b1). cbn [bind]. replace (size - v_n b1 >=? zlen a + zlen b) with true by lia.
    destruct (push_all_ok size dflt a b1 pending Hp) as (c1 & E1 & R1); [lia|]. rewrite E1. cbn [bind]. change (wr [b0; b1] 1 c1) with (Ok [b0; c1]). cbn [bind].
    unfold tx_done. cbn [in_progress tx]. change (rd [b0; c1] 0) with (Ok b0). cbn [bind]. change (wr [b0; c1] 0 (fv_clear b0)) with (Ok [fv_clear b0; c1]). cbn [bind tx]. change (1 - 0) with 1. change (rd [fv_clear b0; c1] 1) with (Ok c1). cbn [bind].
    rewrite (n_zero _ _ R1). pose proof (vrel_clear size Hsize b0 act Ha) as Rc.
    destruct (push_all_ok size dflt b c1 (pending ++ a) R1) as (c2 & E2 & R2); [rewrite zlen_app; lia|]. destruct (pending ++ a) as [|x l] eqn:EP; cbn [negb].
    + cbn [bind tx]. change (rd [fv_clear b0; c1] 1) with (Ok c1). cbn [bind]. rewrite E2. cbn [bind]. change (wr [fv_clear b0; c1] 1 c2) with (Ok [fv_clear b0; c2]). cbn [bind in_progress]. unfold start_tx. cbn [tx]. change (rd [fv_clear b0; c2] 1) with (Ok c2). cbn [bind]. rewrite (contents_rel size _ _ R2). cbn [app].
      eexists. split; [reflexivity|]. exists (fv_clear b0), c2. split; [reflexivity|]. right. auto.
    + unfold start_tx. cbn [tx]. change (rd [fv_clear b0; c1] 1) with (Ok c1). cbn [bind tx]. change (rd [fv_clear b0; c1] 1) with (Ok c1). cbn [bind]. rewrite (contents_rel size _ _ R1), E2. cbn [bind]. change (wr [fv_clear b0; c1] 1 c2) with (Ok [fv_clear b0; c2]). cbn [bind in_progress].
      eexists. split; [reflexivity|]. exists (fv_clear b0), c2. split; [reflexivity|]. right. auto.
  - change (1 - 1) with 0. change (rd [b0; b1] 0) with (Ok b0). cbn [bind]. replace (size - v_n b0 >=? zlen a + zlen b) with true by lia.
    destruct (push_all_ok size dflt a b0 pending Hp) as (c1 & E1 & R1); [lia|]. rewrite E1. cbn [bind]. change (wr [b0; b1] 0 c1) with (Ok [c1; b1]). cbn [bind].
    unfold tx_done. cbn [in_progress tx]. change (rd [c1; b1] 1) with (Ok b1). cbn [bind]. change (wr [c1; b1] 1 (fv_clear b1)) with (Ok [c1; fv_clear b1]). cbn [bind tx]. change (1 - 1) with 0. change (rd [c1; fv_clear b1] 0) with (Ok c1). cbn [bind].
    rewrite (n_zero _ _ R1). pose proof (vrel_clear size Hsize b1 act Ha) as Rc.
    destruct (push_all_ok size dflt b c1 (pending ++ a) R1) as (c2 & E2 & R2); [rewrite zlen_app; lia|]. destruct (pending ++ a) as [|x l] eqn:EP; cbn [negb].
    + cbn [bind tx]. change (rd [c1; fv_clear b1] 0) with (Ok c1). cbn [bind]. rewrite E2. cbn [bind]. change (wr [c1; fv_clear b1] 0 c2) with (Ok [c2; fv_clear b1]). cbn [bind in_progress]. unfold start_tx. cbn [tx]. change (rd [c2; fv_clear b1] 0) with (Ok c2). cbn [bind]. rewrite (contents_rel size _ _ R2). cbn [app].
      eexists. split; [reflexivity|]. exists c2, (fv_clear b1). split; [reflexivity|]. left. auto.
    + unfold start_tx. cbn [tx]. change (rd [c1; fv_clear b1] 0) with (Ok c1). cbn [bind tx]. change (rd [c1; fv_clear b1] 0) with (Ok c1). cbn [bind]. rewrite (contents_rel size _ _ R1), E2. cbn [bind]. change (wr [c1; fv_clear b1] 0 c2) with (Ok [c2; fv_clear b1]). cbn [bind in_progress].
      eexists. split; [reflexivity|]. exists c2, (fv_clear b1). split; [reflexivity|]. left. auto.
Qed.
Lemma run_from (s : dbs T) q ops : DRel size s q -> Forall hw_accepts ops -> exists s', run (dbs_step size) s ops = Ok (s', snd (srun (dbs_spec size) q ops)).
Proof.
  intros HR HF. destruct (run_refines_guarded (dbs_step size) (dbs_spec size) (fun _ (o : dop T) => hw_accepts o) (DRel size)) with (s := s) (q := q) (ops := ops) as (s' & E & _); eauto.
  - intros. apply (dbs_refines size dflt Hsize); assumption.
  - clear HR. revert q. induction HF as [|o ops Ho HF IH]; intros q; cbn [guarded]; auto.
Qed.
Lemma lost (ops : list (dop T)) (act pending a b : list T) : Forall hw_accepts ops -> fst (srun (dbs_spec size) (None, []) ops) = (Some act, pending) -> pending ++ a <> [] -> zlen pending + zlen (a ++ b) <= size ->
  exists s outs s', run (dbs_step size) (dbs_init size dflt) ops = Ok (s, outs) /\
    interrupted size s a b true = Ok (s', (None, Some (pending ++ a)), (Some true, None)) /\
    forall later, Forall hw_accepts later -> exists s2 outs2 waiting, run (dbs_step size) s' later = Ok (s2, outs2) /\ accepted later outs2 = sent outs2 ++ waiting.
Proof.
  intros HF HQ HN HL. destruct (dbs_run_rel size dflt Hsize ops HF) as (s & E & HR). rewrite HQ in HR. destruct (irq_cases s act pending a b HR HL) as (s' & EI & RI). destruct (pending ++ a) as [|x l] eqn:EP; [congruence|].
  exists s, (snd (srun (dbs_spec size) (None, []) ops)), s'. split; [exact E|]. split; [exact EI|]. intros later HF2. destruct (run_from s' _ later RI HF2) as [s2 E2].
  pose proof (spec_exactly_once size later (Some ((x :: l) ++ b), [])) as SO. destruct (srun (dbs_spec size) (Some ((x :: l) ++ b), []) later) as [q' outs2]. cbn [fst snd app] in *. destruct SO as [SO|[SO _]]; [|discriminate]. exists s2, outs2, (snd q'). auto.
Qed.
Lemma safe_start (ops : list (dop T)) (act w : list T) : Forall hw_accepts ops -> fst (srun (dbs_spec size) (None, []) ops) = (Some act, []) -> zlen w <= size ->
  exists s outs s', run (dbs_step size) (dbs_init size dflt) ops = Ok (s, outs) /\ interrupted size s [] w true = Ok (s', (None, None), (Some true, Some w)).
Proof.
  intros HF HQ HL. destruct (dbs_run_rel size dflt Hsize ops HF) as (s & E & HR). rewrite HQ in HR. destruct (irq_cases s act [] [] w HR) as (s' & EI & RI); [rewrite zlen_nil; cbn; lia|]. do 3 eexists. split; [exact E|exact EI].
Qed.
Lemma safe_end (ops : list (dop T)) (act pending w : list T) : Forall hw_accepts ops -> fst (srun (dbs_spec size) (None, []) ops) = (Some act, pending) -> pending ++ w <> [] -> zlen pending + zlen w <= size ->
  exists s outs s', run (dbs_step size) (dbs_init size dflt) ops = Ok (s, outs) /\ interrupted size s w [] true = Ok (s', (None, Some (pending ++ w)), (Some true, None)) /\
    forall later, Forall hw_accepts later -> exists s1 s2 outs2, run (dbs_step size) (dbs_init size dflt) (ops ++ DTransmit w true :: DDone true :: later) = Ok (s1, outs ++ (Some true, None) :: (None, Some (pending ++ w)) :: outs2) /\ run (dbs_step size) s' later = Ok (s2, outs2).
Proof.
  intros HF HQ HN HL. destruct (dbs_run_rel size dflt Hsize ops HF) as (s & E & HR). rewrite HQ in HR. destruct (irq_cases s act pending w [] HR) as (s' & EI & RI); [rewrite app_nil_r; exact HL|]. destruct (pending ++ w) as [|x l] eqn:EP; [congruence|]. rewrite app_nil_r in RI.
  exists s, (snd (srun (dbs_spec size) (None, []) ops)), s'. split; [exact E|]. split; [exact EI|]. intros later HF2. destruct (run_from s' _ later RI HF2) as [s2 E2].
  assert (HF3 : Forall hw_accepts (ops ++ DTransmit w true :: DDone true :: later)) by (apply Forall_app; split; [exact HF|]; repeat constructor; exact HF2). destruct (dbs_run size dflt Hsize _ HF3) as [s1 E1].
  rewrite srun_app in E1. destruct (srun (dbs_spec size) (None, []) ops) as [q0 outs]. cbn [fst snd] in *. subst q0. cbn [srun dbs_spec] in E1. replace (zlen pending + zlen w <=? size) with true in E1 by lia. cbn [fst snd] in E1. rewrite EP in E1. cbn [dbs_spec] in E1.
  destruct (srun (dbs_spec size) (Some (x :: l), []) later) as [q2 outs2] eqn:E3. cbn [fst snd] in *. exists s1, s2, outs2. split; [exact E1|exact E2].
Qed.
Lemma refused (ops : list (dop T)) (act pending a b : list T) : Forall hw_accepts ops -> fst (srun (dbs_spec size) (None, []) ops) = (Some act, pending) -> size < zlen pending + zlen (a ++ b) ->
  exists s outs s' d, run (dbs_step size) (dbs_init size dflt) ops = Ok (s, outs) /\ run (dbs_step size) (dbs_init size dflt) (ops ++ [DDone true]) = Ok (s', outs ++ [d]) /\
    interrupted size s a b true = Ok (s', d, (Some false, None)).
Proof.
  intros HF HQ HL. destruct (dbs_run_rel size dflt Hsize ops HF) as (s & E & HR). rewrite HQ in HR.
  assert (HF2 : Forall hw_accepts (ops ++ [DDone true])) by (apply Forall_app; split; [exact HF|]; repeat constructor). destruct (dbs_run size dflt Hsize _ HF2) as [s1 E1].
  rewrite run_app, E in E1. cbn [bind run dbs_step] in E1. destruct (tx_done s true) as [[s' d]| |] eqn:Et; cbn [bind] in E1; try discriminate.
  exists s, (snd (srun (dbs_spec size) (None, []) ops)), s', d. split; [exact E|]. split; [rewrite run_app, E; cbn [bind run dbs_step]; rewrite Et; reflexivity|].
  destruct HR as (b0 & b1 & Etx & HD). unfold interrupted. rewrite Etx. unfold fv_available. cbn [fst snd] in HD.
  destruct HD as [(-> & Ha & Hp)|(-> & Ha & Hp)]; pose proof (vrel_len _ _ _ Hp) as Hpl.
  - change (rd [b0; b1] (1 - 0)) with (Ok b1). cbn [bind]. replace (size - v_n b1 >=? zlen (a ++ b)) with false by lia. rewrite Et. reflexivity.
  - change (rd [b0; b1] (1 - 1)) with (Ok b0). cbn [bind]. replace (size - v_n b0 >=? zlen (a ++ b)) with false by lia. rewrite Et. reflexivity.
Qed.
End Irq.
