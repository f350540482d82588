From Verif.Common Require Import Base Lemmas.
From Verif.Spec Require Import Queue Linearizable SeekSpec.
From Verif.Model Require Import Fifo FifoConc.
From Verif.Proofs Require Import Fifo.
Ltac Zify.zify_post_hook ::= Z.div_mod_to_equations.

Section Proof.
Context {T : Type}.
Variables (W : Z) (dflt : T) (slot : Z -> Z -> outcome Z) (cap : Z).
Hypothesis Hcap : 0 < cap < 2 ^ W.
Hypothesis Hslot : forall p, okpos W cap p -> slot cap (word W p) = Ok (p mod cap).
Variable nowrap : Prop.
Hypothesis Hlim : (cap | 2 ^ W) \/ nowrap.

Notation cstate := (cstate T).

(** Ghost state: absolute positions, queue items, snapshot of a pending reset. *)
Definition moved_out (c : pc T) : bool :=
  match c with PcStore (GetMove _) _ _ => true | _ => false end.

Definition pending_put (c : pc T) : Z :=
  match c with
  | PcStart (Put _) | PcFirst (Put _) _ | PcSlot (Put _) _ | PcStore (Put _) _ _ => 1
  | _ => 0
  end.

Definition PInv (c : pc T) (buf : list T) (H : Z) (items : list T) (st : status T) : Prop :=
  match c with
  | PcIdle => st = Idle
  | PcStart o => st = Called o /\ (exists x, o = Put x) \/ st = Called o /\ (o = NumFree \/ o = Full)
  | PcFirst o v => st = Called o /\ v = word W H /\ ((exists x, o = Put x) \/ o = NumFree \/ o = Full)
  | PcSlot o v => st = Called o /\ v = word W H /\ zlen items < cap /\ (exists x, o = Put x)
  | PcMoveOut _ _ _ => False
  | PcStore o v r => st = Called o /\ v = word W (H + 1) /\ zlen items < cap /\ r = RBool true /\
                     exists x, o = Put x /\ znth buf (H mod cap) = Some x
  | PcRet r => st = Done r
  end.

Definition take_op (o : qop T) : Prop :=
  match o with Get | GetMove _ | GetOrDefault => True | _ => False end.

Definition cons_op (o : qop T) : Prop :=
  match o with
  | Get | GetMove _ | GetOrDefault | RemoveFirst | NumFilled | Empty | Reset => True
  | _ => False
  end.

Definition CInv (c : pc T) (Tl H : Z) (items : list T) (sn : Z) (st : status T) : Prop :=
  match c with
  | PcIdle => st = Idle
  | PcStart o => st = Called o /\ cons_op o
  | PcFirst o v => st = Called o /\ v = word W Tl /\ cons_op o /\ o <> Reset
  | PcSlot o v => st = Called o /\ v = word W Tl /\ items <> [] /\ take_op o
  | PcMoveOut o v it => st = Called o /\ v = word W Tl /\ (exists r, o = GetMove r) /\ (exists rest, items = it :: rest)
  | PcStore o v r =>
      match o with
      | Reset => st = Snapped /\ v = word W (Tl + sn) /\ 0 <= sn <= zlen items /\ r = RUnit
      | RemoveFirst => st = Called o /\ v = word W (Tl + 1) /\ r = RUnit /\ items <> []
      | _ => st = Called o /\ v = word W (Tl + 1) /\ take_op o /\
             exists x rest, items = x :: rest /\ r = item_result dflt o (Some x)
      end
  | PcRet r => st = Done r
  end.

Definition Inv (s : cstate) (q : queue T) (sn : tid -> Z) (stP stC : status T) (budget : Z) : Prop :=
  exists H Tl,
    c_max s = cap /\ qcap q = cap /\ zlen (c_buf s) = cap /\
    c_head s = word W H /\ c_tail s = word W Tl /\
    H - Tl = zlen (qitems q) /\ zlen (qitems q) <= cap /\
    (nowrap -> 0 <= Tl /\ H + pending_put (c_prod s) + budget <= 2 ^ W) /\
    (forall i, 0 <= i < zlen (qitems q) -> (moved_out (c_cons s) = true -> 0 < i) ->
               znth (c_buf s) ((Tl + i) mod cap) = znth (qitems q) i) /\
    PInv (c_prod s) (c_buf s) H (qitems q) stP /\
    CInv (c_cons s) Tl H (qitems q) (sn Cons) stC.

Definition other (t : tid) (e : event T) : Prop := ev_tid e = t.

(** What one action contributes: the events with their effect instants. *)
Definition Eff (stP stC : status T) q sn (es : list (event T)) stP' stC' q' sn' : Prop :=
  match es with
  | [] => stP' = stP /\ stC' = stC /\ q' = q /\ sn' = sn
  | [e] => happens dflt q sn e q' sn' /\
           match ev_tid e with Prod => explains stP e stP' /\ stC' = stC | Cons => explains stC e stC' /\ stP' = stP end
  | _ => False
  end.
Definition Advance (stP stC : status T) q sn (es : list (event T)) stP' stC' q' sn' (s' : cstate) (vis : list (event T)) : Prop :=
  filter visible es = vis /\
  (forall h, explained stP' (proj Prod h) -> explained stP (proj Prod (es ++ h))) /\
  (forall h, explained stC' (proj Cons h) -> explained stC (proj Cons (es ++ h))) /\
  (forall h, legal dflt q' sn' h -> legal dflt q sn (es ++ h)) /\
  Eff stP stC q sn es stP' stC' q' sn'.

Lemma adv_nil stP stC q sn s' : Advance stP stC q sn [] stP stC q sn s' [].
Proof. unfold Advance; cbn; auto 10. Qed.

Lemma adv_inv t o stP stC q sn s' :
  match t with Prod => stP = Idle | Cons => stC = Idle end ->
  Advance stP stC q sn [EInv t o]
    (match t with Prod => Called o | Cons => stP end)
    (match t with Prod => stC | Cons => Called o end) q sn s' [EInv t o].
Proof.
  intros E; unfold Advance; destruct t; subst; splits; intros; cbn in *; auto;
    try (splits; auto; constructor; auto); first [constructor; auto|apply lg_vis; auto].
Qed.

Lemma adv_res t r stP stC q sn s' :
  match t with Prod => stP = Done r | Cons => stC = Done r end ->
  Advance stP stC q sn [ERes t r]
    (match t with Prod => Idle | Cons => stP end)
    (match t with Prod => stC | Cons => Idle end) q sn s' [ERes t r].
Proof.
  intros E; unfold Advance; destruct t; subst; splits; intros; cbn in *; auto;
    try (splits; auto; constructor; auto); first [constructor; auto|apply lg_vis; auto].
Qed.

Lemma adv_lin t o r q' stP stC q sn s' :
  queue_step dflt q o = (q', r) ->
  match t with Prod => stP = Called o | Cons => stC = Called o end ->
  Advance stP stC q sn [ELin t o r]
    (match t with Prod => Done r | Cons => stP end)
    (match t with Prod => stC | Cons => Done r end) q' sn s' [].
Proof.
  intros Hq E; unfold Advance; destruct t; subst; splits; intros; cbn in *; auto;
    try (constructor; assumption).
  - pose proof (lg_lin dflt q sn Prod o h) as L. rewrite Hq in L; cbn in L; auto.
  - splits; auto; [|constructor]. pose proof (hp_lin dflt q sn Prod o) as L. rewrite Hq in L; exact L.
  - pose proof (lg_lin dflt q sn Cons o h) as L. rewrite Hq in L; cbn in L; auto.
  - splits; auto; [|constructor]. pose proof (hp_lin dflt q sn Cons o) as L. rewrite Hq in L; exact L.
Qed.

Lemma adv_snap stP stC q sn s' :
  stC = Called Reset ->
  Advance stP stC q sn [ESnap Cons] stP Snapped q (fun t' => if tid_eqb Cons t' then zlen (qitems q) else sn t') s' [].
Proof.
  intros E; unfold Advance; subst; splits; intros; cbn in *; auto; try (constructor; assumption). splits; auto; constructor.
Qed.

Lemma adv_drop stP stC q sn s' :
  stC = Snapped ->
  Advance stP stC q sn [EDrop Cons] stP (Done RUnit)
    (Queue (qcap q) (skipn (Z.to_nat (sn Cons)) (qitems q))) sn s' [].
Proof.
  intros E; unfold Advance; subst; splits; intros; cbn in *; auto; try (constructor; assumption). splits; auto; constructor.
Qed.

Ltac inv_open :=
  match goal with H : Inv ?s ?q ?sn ?a ?b ?n |- _ =>
    destruct H as (H0 & Tl & Em & Eq & Hb & Eh & Et & Hn & Hle & Hnw & Hcont & HP & HC) end.

Definition budget_of (a : action T) : Z :=
  match a with Invoke _ (Put _) => 1 | _ => 0 end.

Lemma cons_items s q sn stP stC n : Inv s q sn stP stC n -> zlen (qitems q) < 2 ^ W.
Proof. intros HI; inv_open; lia. Qed.

(** Changing only a program counter. *)
Lemma Inv_set_prod s q sn stP stC stP' n p :
  Inv s q sn stP stC n ->
  (forall H, c_head s = word W H -> PInv (c_prod s) (c_buf s) H (qitems q) stP -> PInv p (c_buf s) H (qitems q) stP') ->
  pending_put p <= pending_put (c_prod s) ->
  Inv (set_prod s p) q sn stP' stC n.
Proof.
  intros HI HPP Hpp. inv_open. exists H0, Tl. destruct s; cbn in *. splits; auto.
  intros Hn'; specialize (Hnw Hn'); lia.
Qed.

Lemma Inv_set_cons s q sn sn' stP stC stC' n p :
  Inv s q sn stP stC n ->
  (forall H Tl, c_head s = word W H -> c_tail s = word W Tl -> H - Tl = zlen (qitems q) ->
      (forall i, 0 <= i < zlen (qitems q) -> (moved_out (c_cons s) = true -> 0 < i) -> znth (c_buf s) ((Tl + i) mod cap) = znth (qitems q) i) ->
      CInv (c_cons s) Tl H (qitems q) (sn Cons) stC -> CInv p Tl H (qitems q) (sn' Cons) stC') ->
  (moved_out p = moved_out (c_cons s)) ->
  Inv (set_cons s p) q sn' stP stC' n.
Proof.
  intros HI HCC Hmo. inv_open. exists H0, Tl. destruct s; cbn in *. rewrite Hmo. splits; eauto.
Qed.

Lemma Inv_budget s q sn stP stC n n' : Inv s q sn stP stC n -> n' <= n -> Inv s q sn stP stC n'.
Proof.
  intros HI Hn'. inv_open. exists H0, Tl. splits; auto. intros Hw; specialize (Hnw Hw); lia.
Qed.

Lemma step_ok s q sn stP stC n a :
  Inv s q sn stP stC (n + budget_of a) -> 0 <= n -> action_ok false a = true ->
  exists s' vis es stP' stC' q' sn',
    cstep W dflt slot s a = Ok (s', vis) /\
    Advance stP stC q sn es stP' stC' q' sn' s' vis /\
    Inv s' q' sn' stP' stC' n.
Proof.
  intros HI Hn0 Ha.
  assert (Hskip : exists s' vis es stP' stC' q' sn',
    Ok (s, @nil (event T)) = Ok (s', vis) /\ Advance stP stC q sn es stP' stC' q' sn' s' vis /\ Inv s' q' sn' stP' stC' n).
  { do 7 eexists; split; [reflexivity|]; split; [apply adv_nil|].
    eapply Inv_budget; [exact HI|]. destruct a as [? []|]; cbn; lia. }
  assert (HIn : Inv s q sn stP stC n).
  { eapply Inv_budget; [exact HI|]. destruct a as [? []|]; cbn; lia. }
  destruct a as [t o|t]; cbn [cstep].
  - (* Invoke *)
    destruct (get_pc t s) eqn:Epc; try exact Hskip.
    destruct (allowed t o) eqn:Eal; [|exact Hskip].
    destruct t; cbn [get_pc] in Epc; cbn [set_pc].
    + assert (EP : stP = Idle) by (inv_open; rewrite Epc in HP; exact HP).
      do 7 eexists; split; [reflexivity|]; split; [apply (adv_inv Prod); exact EP|].
      cbn iota. clear HIn Hskip. inv_open. exists H0, Tl. destruct s; cbn in *. subst c_prod. splits; auto.
      * intros Hw; specialize (Hnw Hw). cbn in Hnw. destruct o; cbn in *; try discriminate; lia.
      * destruct o; cbn in *; try discriminate; eauto.
    + assert (EC : stC = Idle) by (inv_open; rewrite Epc in HC; exact HC).
      do 7 eexists; split; [reflexivity|]; split; [apply (adv_inv Cons); exact EC|].
      cbn iota. eapply Inv_set_cons; [exact HIn| |rewrite Epc; reflexivity].
      intros H1 Tl1 _ _ _ _ _. cbn. destruct o; cbn in *; try discriminate; auto.
  - (* Step *)
    pose proof HIn as HI2. destruct HIn as (H0 & Tl & Em & Eq & Hb & Eh & Et & Hn & Hle & Hnw & Hcont & HP & HC). unfold tstep.
    pose proof (zlen_nonneg (qitems q)) as Hnn.
    assert (Hlt : 0 <= zlen (qitems q) < 2 ^ W) by lia.
    pose proof (word_diff W H0 Tl _ Hn Hlt) as Hdiff.
    pose proof (word_eq_iff W H0 Tl _ Hn Hlt) as Heqz.
    assert (Hokpos : forall p, Tl <= p < H0 -> okpos W cap p).
    { intros p Hp. destruct Hlim as [Hd|Hw]; [left; assumption|right].
      specialize (Hnw Hw). assert (0 <= pending_put (c_prod s)) by (destruct (c_prod s) as [|[]|[]|[]| |[]|]; cbn; lia).
      assert (0 <= budget_of (Step t)) by (cbn; lia). lia. }
    destruct t; cbn [get_pc set_pc].
    + (* producer *)
      destruct (c_prod s) as [|o|o v|o v|o v it|o v r|r] eqn:Epc; cbn [PInv] in HP.
      * exact Hskip.
      * (* start *)
        destruct HP as [[-> [x ->]]|[-> [->| ->]]];
          (do 7 eexists; split; [reflexivity|]; split; [apply adv_nil|];
           eapply Inv_set_prod; [exact HI2| |rewrite Epc; cbn; lia];
           intros H1 EH _; cbn; splits; eauto).
      * (* second load *)
        destruct HP as (-> & -> & [[x ->]|[->| ->]]).
        -- rewrite Et, Em, Hdiff. destruct (Z.eqb_spec (zlen (qitems q)) cap) as [E|E].
           ++ do 7 eexists; split; [reflexivity|]; split.
              ** apply (adv_lin Prod (Put x) (RBool false) q); [|reflexivity].
                 cbn [queue_step]. rewrite Eq. replace (zlen (qitems q) =? cap) with true by lia. reflexivity.
              ** cbn iota. eapply Inv_set_prod; [exact HI2| |rewrite Epc; cbn; lia]. intros; reflexivity.
           ++ do 7 eexists; split; [reflexivity|]; split; [apply adv_nil|].
              eapply Inv_set_prod; [exact HI2| |rewrite Epc; cbn; lia].
              intros H1 EH HPP. rewrite Epc in HPP. cbn in HPP |- *. splits; try tauto; try lia; eauto.
        -- rewrite Et, Em, Hdiff. rewrite (word_small W (cap - zlen (qitems q))) by lia.
           do 7 eexists; split; [reflexivity|]; split.
           ++ apply (adv_lin Prod NumFree (RNum (cap - zlen (qitems q))) q); [|reflexivity].
              cbn [queue_step]. rewrite Eq; reflexivity.
           ++ cbn iota. eapply Inv_set_prod; [exact HI2| |rewrite Epc; cbn; lia]. intros; reflexivity.
        -- rewrite Et, Em, Hdiff. rewrite (word_small W (cap - zlen (qitems q))) by lia.
           do 7 eexists; split; [reflexivity|]; split.
           ++ apply (adv_lin Prod Full (RBool (cap - zlen (qitems q) =? 0)) q); [|reflexivity].
              cbn [queue_step]. rewrite Eq. replace (zlen (qitems q) =? cap) with (cap - zlen (qitems q) =? 0) by lia. reflexivity.
           ++ cbn iota. eapply Inv_set_prod; [exact HI2| |rewrite Epc; cbn; lia]. intros; reflexivity.
      * (* write slot *)
        destruct HP as (-> & -> & Hroom & x & ->).
        rewrite Em, Hslot.
        2:{ destruct Hlim as [Hd|Hw]; [left; assumption|right]. specialize (Hnw Hw).
            cbn [pending_put budget_of] in Hnw. lia. }
        cbn [bind]. pose proof (Z.mod_pos_bound H0 cap ltac:(lia)).
        rewrite wr_ok by lia; cbn [bind].
        do 7 eexists; split; [reflexivity|]; split; [apply adv_nil|].
        exists H0, Tl. destruct s; cbn in *; subst. rewrite zlen_zupd. rewrite word_add_l. splits; auto; try lia; try (intros Hw; specialize (Hnw Hw); lia).
        -- intros i Hi Hm. rewrite znth_zupd_ne; [apply Hcont; assumption|].
           intros E2; symmetry in E2; revert E2; apply mod_neq; lia.
        -- splits; auto. exists x; split; [reflexivity|]. apply znth_zupd_eq; lia.
      * contradiction.
      * (* publish *)
        destruct HP as (-> & -> & Hroom & -> & x & -> & Hx).
        do 7 eexists; split; [reflexivity|]; split.
        -- apply (adv_lin Prod (Put x) (RBool true) (Queue cap (qitems q ++ [x]))); [|reflexivity].
           cbn [queue_step]. rewrite Eq. replace (zlen (qitems q) =? cap) with false by lia. reflexivity.
        -- cbn iota. exists (H0 + 1), Tl. destruct s; cbn in *; subst.
           rewrite zlen_app, zlen_cons, zlen_nil. splits; auto; try lia; try (intros Hw; specialize (Hnw Hw); lia).
           ++ intros i Hi Hm. destruct (Z.eq_dec i (zlen (qitems q))) as [->|Hne].
              ** rewrite znth_app_r by lia. rewrite Z.sub_diag.
                 replace (Tl + zlen (qitems q)) with H0 by lia. rewrite Hx; reflexivity.
              ** rewrite znth_app_l by lia. apply Hcont; [lia|assumption].
           ++ clear - HC Hn Hnn. destruct c_cons as [|o|o v|o v|o v it|o v r|r]; cbn [CInv] in *; auto.
              ** destruct HC as (? & ? & Hne & ?); splits; auto. destruct (qitems q); [congruence|discriminate].
              ** destruct HC as (? & ? & ? & rest & Hr); splits; auto. exists (rest ++ [x]). rewrite Hr; reflexivity.
              ** destruct o; try (destruct HC as (? & ? & ? & y & rest & Hr & ?); splits; auto;
                   exists y, (rest ++ [x]); rewrite Hr; split; [reflexivity|assumption]).
                 --- destruct HC as (? & ? & ? & Hne); splits; auto. destruct (qitems q); [congruence|discriminate].
                 --- destruct HC as (? & ? & ? & ?); splits; auto; try lia.
                     rewrite zlen_app, zlen_cons, zlen_nil; lia.
      * (* return *)
        subst stP. do 7 eexists; split; [reflexivity|]; split; [apply (adv_res Prod); reflexivity|].
        cbn iota. eapply Inv_set_prod; [exact HI2| |rewrite Epc; cbn; lia]. intros; reflexivity.
    + (* consumer *)
      destruct (c_cons s) as [|o|o v|o v|o v it|o v r|r] eqn:Epc; cbn [CInv] in HC.
      * exact Hskip.
      * (* start *)
        destruct HC as [-> Hop].
        assert (Htail : o <> Reset ->
          exists s' vis es stP' stC' q' sn', Ok (set_cons s (PcFirst o (c_tail s)), @nil (event T)) = Ok (s', vis) /\
            Advance stP (Called o) q sn es stP' stC' q' sn' s' vis /\ Inv s' q' sn' stP' stC' n).
        { intros Hne. do 7 eexists; split; [reflexivity|]; split; [apply adv_nil|].
          eapply Inv_set_cons; [exact HI2| |rewrite Epc; reflexivity].
          intros H1 Tl1 EH ET _ _ _. cbn. splits; auto. }
        destruct o; cbn [cons_op] in Hop; try contradiction; try (apply Htail; discriminate).
        (* reset *)
        do 7 eexists; split; [reflexivity|]; split; [apply adv_snap; reflexivity|].
        eapply Inv_set_cons; [exact HI2| |rewrite Epc; reflexivity].
        intros H1 Tl1 EH ET Hd _ _. cbn. splits; auto; try lia. rewrite EH. f_equal; lia.
      * (* second load *)
        destruct HC as (-> & -> & Hop & HnR).
        assert (Htake : take_op o -> exists s' vis es stP' stC' q' sn',
           (if word W Tl =? c_head s then Ok (set_cons s (PcRet (item_result dflt o None)), @nil (event T)) else Ok (set_cons s (PcSlot o (word W Tl)), [])) = Ok (s', vis) /\
            Advance stP (Called o) q sn es stP' stC' q' sn' s' vis /\ Inv s' q' sn' stP' stC' n).
        { intros Hto. rewrite Eh, Heqz. destruct (Z.eqb_spec (zlen (qitems q)) 0) as [E|E].
          - assert (Enil : qitems q = []) by (apply zlen_zero_nil; lia).
            do 7 eexists; split; [reflexivity|]; split.
            + apply (adv_lin Cons o (item_result dflt o None) q); [|reflexivity].
              destruct o; try contradiction; cbn [queue_step]; rewrite Enil; reflexivity.
            + cbn iota. eapply Inv_set_cons; [exact HI2| |rewrite Epc; reflexivity]. intros; reflexivity.
          - do 7 eexists; split; [reflexivity|]; split; [apply adv_nil|].
            eapply Inv_set_cons; [exact HI2| |rewrite Epc; reflexivity].
            intros H1 Tl1 EH ET _ _ HCC. rewrite Epc in HCC; cbn in HCC |- *. splits; try tauto.
            intros Enil; rewrite Enil in E; apply E; reflexivity. }
        destruct o; cbn [cons_op] in Hop; try contradiction; try (apply Htake; exact I); try congruence.
        -- (* remove_first *)
           rewrite Eh, Heqz. destruct (Z.eqb_spec (zlen (qitems q)) 0) as [E|E]; cbn [negb].
           ++ assert (Enil : qitems q = []) by (apply zlen_zero_nil; lia).
              do 7 eexists; split; [reflexivity|]; split.
              ** apply (adv_lin Cons RemoveFirst RUnit q); [|reflexivity].
                 destruct q; cbn in *; subst; reflexivity.
              ** cbn iota. eapply Inv_set_cons; [exact HI2| |rewrite Epc; reflexivity]. intros; reflexivity.
           ++ do 7 eexists; split; [reflexivity|]; split; [apply adv_nil|].
              eapply Inv_set_cons; [exact HI2| |rewrite Epc; reflexivity].
              intros H1 Tl1 EH ET _ _ HCC. rewrite Epc in HCC; cbn in HCC |- *.
              destruct HCC as (_ & Ew & _). rewrite Ew, word_add_l. splits; auto.
              intros Enil; rewrite Enil in E; apply E; reflexivity.
        -- rewrite Eh, Hdiff. do 7 eexists; split; [reflexivity|]; split.
           ++ apply (adv_lin Cons NumFilled (RNum (zlen (qitems q))) q); reflexivity.
           ++ cbn iota. eapply Inv_set_cons; [exact HI2| |rewrite Epc; reflexivity]. intros; reflexivity.
        -- rewrite Eh, Hdiff. do 7 eexists; split; [reflexivity|]; split.
           ++ apply (adv_lin Cons Empty (RBool (zlen (qitems q) =? 0)) q); reflexivity.
           ++ cbn iota. eapply Inv_set_cons; [exact HI2| |rewrite Epc; reflexivity]. intros; reflexivity.
      * (* read slot *)
        destruct HC as (-> & -> & Hne & Hto).
        destruct (qitems q) as [|x rest] eqn:Eit; [congruence|]. rewrite zlen_cons in *.
        pose proof (zlen_nonneg rest).
        assert (Hx : znth (c_buf s) (Tl mod cap) = Some x).
        { specialize (Hcont 0 ltac:(lia)). rewrite Z.add_0_r in Hcont. rewrite Hcont; [reflexivity|cbn; discriminate]. }
        assert (Hs : slot (c_max s) (word W Tl) = Ok (Tl mod cap)) by (rewrite Em; apply Hslot, Hokpos; lia).
        assert (Hgo : (forall r, o <> GetMove r) -> exists s' vis es stP' stC' q' sn',
            (let* i := slot (c_max s) (word W Tl) in let* item := rd (c_buf s) i in
             Ok (set_cons s (PcStore o (word W (word W Tl + 1)) (item_result dflt o (Some item))), @nil (event T))) = Ok (s', vis) /\
            Advance stP (Called o) q sn es stP' stC' q' sn' s' vis /\ Inv s' q' sn' stP' stC' n).
        { intros Hng. rewrite Hs; cbn [bind]; rewrite (rd_ok _ _ _ Hx); cbn [bind].
          do 7 eexists; split; [reflexivity|]; split; [apply adv_nil|].
          eapply Inv_set_cons; [exact HI2| |rewrite Epc; destruct o; try reflexivity; exfalso; eapply Hng; reflexivity].
          intros H1 Tl1 EH ET _ _ HCC. rewrite Epc in HCC. cbn [CInv] in HCC |- *.
          destruct HCC as (_ & Ew & _). rewrite Ew, word_add_l.
          destruct o; try contradiction; try (exfalso; eapply Hng; reflexivity);
            (splits; auto; exists x, rest; split; [assumption|reflexivity]). }
        destruct o; cbn [take_op] in Hto; try contradiction; try (apply Hgo; discriminate).
        rewrite Hs; cbn [bind]; rewrite (rd_ok _ _ _ Hx); cbn [bind].
        do 7 eexists; split; [reflexivity|]; split; [apply adv_nil|].
        eapply Inv_set_cons; [exact HI2| |rewrite Epc; reflexivity].
        intros H1 Tl1 EH ET _ _ HCC. rewrite Epc in HCC. cbn [CInv] in HCC |- *.
        splits; try tauto; eauto.
      * (* leave residue *)
        destruct HC as (-> & -> & [r ->] & rest & Eit).
        assert (Hs : slot (c_max s) (word W Tl) = Ok (Tl mod cap)).
        { rewrite Em; apply Hslot, Hokpos. rewrite Eit, zlen_cons in Hn. pose proof (zlen_nonneg rest); lia. }
        rewrite Hs; cbn [bind]. pose proof (Z.mod_pos_bound Tl cap ltac:(lia)).
        rewrite wr_ok by lia; cbn [bind].
        do 7 eexists; split; [reflexivity|]; split; [apply adv_nil|].
        exists H0, Tl. destruct s; cbn in *; subst. rewrite zlen_zupd, word_add_l. splits; auto; try lia; try (intros Hw; specialize (Hnw Hw); lia).
        -- intros i Hi Hm. rewrite znth_zupd_ne; [apply Hcont; [assumption|discriminate]|].
           specialize (Hm eq_refl). apply mod_neq; lia.
        -- clear - HP Hn Hlt Hb Hcap Eit Hnn. destruct c_prod as [|o|o v|o v|o v it'|o v r'|r']; cbn [PInv] in *; auto.
           destruct HP as (? & ? & ? & ? & x & ? & Hx); splits; auto. exists x; split; [assumption|].
           rewrite znth_zupd_ne; [assumption|]. rewrite Eit, zlen_cons in *. pose proof (zlen_nonneg rest).
           apply mod_neq; lia.
        -- splits; auto. exists it, rest; split; [assumption|reflexivity].
      * (* publish tail *)
        assert (Hdrop : forall d q' r', 0 <= d <= zlen (qitems q) -> v = word W (Tl + d) ->
           q' = Queue cap (skipn (Z.to_nat d) (qitems q)) ->
           (moved_out (c_cons s) = true -> 0 < d) ->
           Inv (CState (c_max s) (c_head s) v (c_buf s) (c_prod s) (PcRet r')) q' sn stP (Done r') n).
        { intros d q' r' Hd Ev -> Hmo. exists H0, (Tl + d). destruct s; cbn in *; subst.
          rewrite zlen_skipn by lia. splits; auto; try lia; try (intros Hw; specialize (Hnw Hw); lia).
          - intros i Hi _. rewrite znth_skipn by lia. rewrite <- Hcont by (try lia; intros; specialize (Hmo H); lia).
            f_equal; f_equal; lia.
          - clear - HP Hd Hnn. destruct c_prod as [|o'|o' v'|o' v'|o' v' it'|o' v' r''|r'']; cbn [PInv] in *; auto.
            + destruct HP as (? & ? & ? & ?); splits; auto. rewrite zlen_skipn by lia; lia.
            + destruct HP as (? & ? & ? & ?); splits; try tauto. rewrite zlen_skipn by lia; lia. }
        assert (Htake : take_op o -> stC = Called o /\ v = word W (Tl + 1) /\
             (exists x rest, qitems q = x :: rest /\ r = item_result dflt o (Some x)) ->
           exists s' vis es stP' stC' q' sn',
             Ok (set_cons (CState (c_max s) (c_head s) v (c_buf s) (c_prod s) (c_cons s)) (PcRet r), @nil (event T)) = Ok (s', vis) /\
             Advance stP stC q sn es stP' stC' q' sn' s' vis /\ Inv s' q' sn' stP' stC' n).
        { intros Hto (-> & Ev & x & rest & Eit & Er).
          do 7 eexists; split; [reflexivity|]; split.
          - apply (adv_lin Cons o r (Queue cap rest)); [|reflexivity].
            destruct o; try contradiction; cbn [queue_step]; rewrite Eit, Eq, Er; reflexivity.
          - cbn iota. apply (Hdrop 1); [rewrite Eit, zlen_cons; pose proof (zlen_nonneg rest); lia|assumption|rewrite Eit; reflexivity|lia]. }
        rewrite Epc in Htake.
        destruct o; try (destruct HC as (E1 & E2 & Hto & E3); cbn [take_op] in Hto; first [contradiction|apply Htake; [exact I|splits; assumption]]).
        -- (* remove_first *)
           destruct HC as (-> & Ev & -> & Hne).
           destruct (qitems q) as [|x rest] eqn:Eit; [congruence|].
           do 7 eexists; split; [reflexivity|]; split.
           ++ apply (adv_lin Cons RemoveFirst RUnit (Queue cap rest)); [|reflexivity].
              cbn [queue_step]. rewrite Eit, Eq; reflexivity.
           ++ cbn iota. rewrite <- Epc at 1. apply (Hdrop 1); [rewrite zlen_cons; pose proof (zlen_nonneg rest); lia|assumption|reflexivity|lia].
        -- (* reset *)
           destruct HC as (-> & Ev & Hsn & ->).
           do 7 eexists; split; [reflexivity|]; split; [apply adv_drop; reflexivity|].
           apply (Hdrop (sn Cons)); [lia|assumption|rewrite Eq; reflexivity|rewrite Epc; discriminate].
      * (* return *)
        subst stC. do 7 eexists; split; [reflexivity|]; split; [apply (adv_res Cons); reflexivity|].
        cbn iota. eapply Inv_set_cons; [exact HI2| |rewrite Epc; reflexivity]. intros; reflexivity.
Qed.

Lemma invoked_puts_nonneg (l : list (action T)) : 0 <= invoked_puts l.
Proof. clear. induction l as [|[t o|t] l IH]; cbn [invoked_puts]; try lia. destruct o; lia. Qed.

Lemma invoked_puts_cons a (l : list (action T)) : invoked_puts (a :: l) = invoked_puts l + budget_of a.
Proof. clear. destruct a as [t o|t]; cbn [invoked_puts budget_of]; try lia. destruct o; lia. Qed.

Lemma crun_ok : forall sched s q sn stP stC,
  Inv s q sn stP stC (invoked_puts sched) -> forallb (action_ok false) sched = true ->
  exists s' h h' q' sn' stP' stC',
    crun W dflt slot s sched = Ok (s', h) /\ filter visible h' = h /\
    explained stP (proj Prod h') /\ explained stC (proj Cons h') /\ legal dflt q sn h' /\
    Inv s' q' sn' stP' stC' 0.
Proof.
  induction sched as [|a sched IH]; intros s q sn stP stC HI Hf; cbn [crun].
  - exists s, [], [], q, sn, stP, stC. cbn [invoked_puts] in HI. splits; auto; constructor.
  - rewrite invoked_puts_cons in HI. cbn [forallb] in Hf. apply andb_prop in Hf. destruct Hf as [Ha Hf].
    destruct (step_ok _ _ _ _ _ _ _ HI (invoked_puts_nonneg sched) Ha)
      as (s1 & vis & es & stP1 & stC1 & q1 & sn1 & E1 & (Hvis & HP & HC & HL & _) & HI1).
    destruct (IH _ _ _ _ _ HI1 Hf) as (s2 & h & h' & q2 & sn2 & stP2 & stC2 & E2 & F2 & P2 & C2 & L2 & HI2).
    rewrite E1; cbn [bind]; rewrite E2; cbn [bind].
    exists s2, (vis ++ h), (es ++ h'), q2, sn2, stP2, stC2. splits; auto.
    rewrite filter_app, Hvis, F2. reflexivity.
Qed.

Lemma Inv_start h buf n :
  zlen buf = cap -> 0 <= h < 2 ^ W -> (nowrap -> h + n <= 2 ^ W) ->
  Inv (cinit cap h buf) (Queue cap []) (fun _ => 0) Idle Idle n.
Proof.
  intros Hb Hh Hn. exists h, h. unfold cinit; cbn. rewrite word_small by lia.
  splits; auto; try lia; intros; try lia.
Qed.

Lemma Inv_exclusive s' q' sn' stP' stC' : Inv s' q' sn' stP' stC' 0 ->
  forall i j, slot_access slot Prod s' = Some (Ok i) -> slot_access slot Cons s' = Some (Ok j) -> i <> j.
Proof.
  intros HI. destruct HI as (H0 & Tl & Em & Eq & Hb0 & Eh & Et & Hn1 & Hle & Hnw & Hcont & HP & HC). intros i j Hi Hj. unfold slot_access, get_pc in Hi, Hj.
    pose proof (zlen_nonneg (qitems q')).
    assert (Hpw : nowrap -> H0 + pending_put (c_prod s') <= 2 ^ W /\ 0 <= Tl) by (intros Hw; specialize (Hnw Hw); lia).
    destruct (c_prod s') as [|o|o v|o v|o v it|o v r|r] eqn:Ep; try discriminate; cbn [PInv] in HP; try contradiction.
    destruct HP as (_ & -> & Hroom & x & ->).
    assert (Ei : i = H0 mod cap).
    { rewrite Em, Hslot in Hi; [congruence|]. destruct Hlim as [Hd|Hw]; [left; assumption|right].
      specialize (Hpw Hw). cbn [pending_put] in Hpw. lia. }
    assert (Hgo : forall v', v' = word W Tl -> qitems q' <> [] -> Some (slot (c_max s') v') = Some (Ok j) -> i <> j).
    { intros v' -> Hne Hj2.
      assert (0 < zlen (qitems q')) by (destruct (qitems q'); [congruence|rewrite zlen_cons; pose proof (zlen_nonneg l); lia]).
      assert (Ej : j = Tl mod cap).
      { rewrite Em, Hslot in Hj2; [congruence|]. destruct Hlim as [Hd|Hw]; [left; assumption|right].
        specialize (Hpw Hw). cbn [pending_put] in Hpw. lia. }
      subst i j. intros E2; symmetry in E2; revert E2; apply mod_neq; lia. }
    destruct (c_cons s') as [|o|o v|o v|o v it|o v r|r] eqn:Ec; try discriminate; cbn [CInv] in HC.
    + eapply Hgo; [apply HC|apply HC|exact Hj].
    + destruct HC as (_ & Ev & _ & rest & Er). eapply Hgo; [exact Ev|rewrite Er; discriminate|exact Hj].
Qed.

Lemma run_linearizable h buf sched :
  zlen buf = cap -> 0 <= h < 2 ^ W -> (nowrap -> h + invoked_puts sched <= 2 ^ W) ->
  forallb (action_ok false) sched = true ->
  exists s' hist, crun W dflt slot (cinit cap h buf) sched = Ok (s', hist) /\
    linearizable dflt (Queue cap []) hist /\
    (forall i j, slot_access slot Prod s' = Some (Ok i) -> slot_access slot Cons s' = Some (Ok j) -> i <> j).
Proof.
  intros Hb Hh Hn Hf.
  destruct (crun_ok sched _ _ _ _ _ (Inv_start h buf _ Hb Hh Hn) Hf)
    as (s' & hist & h' & q' & sn' & stP' & stC' & E & F & P & C & L & HI).
  exists s', hist. splits; [exact E| |].
  - exists h'. splits; auto. intros []; assumption.
  - eapply Inv_exclusive; exact HI.
Qed.
End Proof.

Section Final.
Context {T : Type}.
Variable dflt : T.

Lemma static_linearizable W k h buf sched :
  0 <= k < W -> 0 <= h < 2 ^ W -> zlen buf = 2 ^ k ->
  forallb (action_ok (T := T) false) sched = true ->
  exists s' hist, crun W dflt slot_static (cinit (2 ^ k) h buf) sched = Ok (s', hist) /\
    linearizable dflt (Queue (2 ^ k) []) hist /\
    (forall i j, slot_access slot_static Prod s' = Some (Ok i) -> slot_access slot_static Cons s' = Some (Ok j) -> i <> j).
Proof.
  intros Hk Hh Hb Hf.
  pose proof (ex_intro _ k (conj Hk eq_refl) : static_valid W (2 ^ k)) as Hv.
  pose proof (static_valid_range _ _ Hv). pose proof (pow2_pos k ltac:(lia)).
  apply (run_linearizable W dflt slot_static (2 ^ k)) with (nowrap := False); auto; try lia.
  - intros p Hp; apply static_slot; auto; lia.
  - left; apply static_valid_div; assumption.
Qed.

Lemma dyn_linearizable W cap h buf sched :
  0 <= W -> 0 < cap < 2 ^ W -> 0 <= h < 2 ^ W -> zlen buf = cap ->
  ((cap | 2 ^ W) \/ h + invoked_puts sched <= 2 ^ W) ->
  forallb (action_ok (T := T) false) sched = true ->
  exists s' hist, crun W dflt slot_dyn (cinit cap h buf) sched = Ok (s', hist) /\
    linearizable dflt (Queue cap []) hist /\
    (forall i j, slot_access slot_dyn Prod s' = Some (Ok i) -> slot_access slot_dyn Cons s' = Some (Ok j) -> i <> j).
Proof.
  intros HW Hc Hh Hb Hl Hf.
  apply (run_linearizable W dflt slot_dyn cap) with (nowrap := h + invoked_puts sched <= 2 ^ W); auto; try lia.
  intros p Hp; apply dyn_slot; auto; unfold dyn_valid; lia.
Qed.
End Final.

(** A legal history never reports more items than the capacity. *)
Lemma queue_step_len {T} (dflt : T) q o :
  (forall n, o <> Resize n) -> zlen (qitems q) <= qcap q -> 0 <= qcap q ->
  zlen (qitems (fst (queue_step dflt q o))) <= qcap (fst (queue_step dflt q o)) /\
  qcap (fst (queue_step dflt q o)) = qcap q.
Proof.
  intros Hr Hl Hc. destruct q as [c it]; cbn [qitems qcap] in *.
  assert (Ht : forall x r, it = x :: r -> zlen r <= c) by (intros x r ->; rewrite zlen_cons in Hl; lia).
  destruct o; cbn [queue_step qitems qcap fst]; try (split; [assumption|reflexivity]);
    try (destruct it as [|x r]; cbn [fst qitems qcap tl]; split; try reflexivity; try (eapply Ht; reflexivity); rewrite zlen_nil; lia).
  - destruct (Z.eqb_spec (zlen it) c); cbn [fst qitems qcap]; [split; [assumption|reflexivity]|].
    rewrite zlen_app, zlen_cons, zlen_nil; split; [lia|reflexivity].
  - exfalso; eapply Hr; reflexivity.
Qed.

Lemma zlen_skipn_le {A} (l : list A) n : zlen (skipn n l) <= zlen l.
Proof. unfold zlen; rewrite skipn_length; lia. Qed.

Lemma legal_bound {T} (dflt : T) q sn h :
  legal dflt q sn h -> zlen (qitems q) <= qcap q -> 0 <= qcap q ->
  (forall e, In e h -> match e with ELin _ (Resize _) _ => False | _ => True end) ->
  forall t r, In (ELin t NumFilled r) h -> exists n, r = RNum n /\ n <= qcap q.
Proof.
  induction 1 as [q sn|q sn e h Hv HL IH|q sn t o h HL IH|q sn t h HL IH|q sn t h HL IH];
    intros Hl Hc HR t' r' Hin.
  - contradiction.
  - destruct Hin as [->|Hin]; [discriminate|]. eapply IH; eauto. intros e' He'; apply HR; right; assumption.
  - assert (Hno : forall n, o <> Resize n).
    { intros n ->. exact (HR _ (or_introl eq_refl)). }
    destruct (queue_step_len dflt q o Hno Hl Hc) as [H1 H2].
    destruct Hin as [E|Hin].
    + injection E as -> -> <-. cbn. eauto.
    + rewrite <- H2. eapply IH; eauto; [lia|]. intros e' He'; apply HR; right; assumption.
  - destruct Hin as [E|Hin]; [discriminate|]. eapply IH; eauto. intros e' He'; apply HR; right; assumption.
  - destruct Hin as [E|Hin]; [discriminate|].
    cbn [qitems qcap] in IH. eapply IH; eauto; [pose proof (zlen_skipn_le (qitems q) (Z.to_nat (sn t))); lia|].
    intros e' He'; apply HR; right; assumption.
Qed.

(** Every response in an explained history was preceded by its effect. *)
Lemma explained_res {T} (st : status T) h :
  explained st h -> forall r, In (ERes Cons r) h ->
  (st = Done r \/ (exists o, (st = Called o \/ In (EInv Cons o) h \/ In (EInv Prod o) h) /\
                     (In (ELin Cons o r) h \/ In (ELin Prod o r) h)) \/ r = RUnit).
Proof.
  induction 1 as [st|t o h HE IH|t o r h HE IH|t h HE IH|t h HE IH|t r h HE IH]; intros r' Hin.
  - contradiction.
  - destruct Hin as [E|Hin]; [discriminate|]. destruct (IH _ Hin) as [E|[(o' & Ho & HL)|E]]; [discriminate| |auto].
    right; left; exists o'. split.
    + right. destruct Ho as [E|[Hi|Hi]]; [injection E as <-|left; right; assumption|right; right; assumption].
      destruct t; [right|left]; left; reflexivity.
    + destruct HL; [left|right]; right; assumption.
  - destruct Hin as [E|Hin]; [discriminate|]. destruct (IH _ Hin) as [E|[(o' & Ho & HL)|E]]; [|right; left|auto].
    + injection E as <-. right; left; exists o. split; [left; reflexivity|]. destruct t; [right|left]; left; reflexivity.
    + exists o'. split.
      * destruct Ho as [E|[Hi|Hi]]; [discriminate|right; left; right; assumption|right; right; right; assumption].
      * destruct HL; [left|right]; right; assumption.
  - destruct Hin as [E|Hin]; [discriminate|]. destruct (IH _ Hin) as [E|[(o' & Ho & HL)|E]]; [discriminate| |auto].
    right; left; exists o'. split.
    + destruct Ho as [E|[Hi|Hi]]; [discriminate|right; left; right; assumption|right; right; right; assumption].
    + destruct HL; [left|right]; right; assumption.
  - destruct Hin as [E|Hin]; [discriminate|]. destruct (IH _ Hin) as [E|[(o' & Ho & HL)|E]]; [|right; left|auto].
    + injection E as ->. right; right; reflexivity.
    + exists o'. split.
      * destruct Ho as [E|[Hi|Hi]]; [discriminate|right; left; right; assumption|right; right; right; assumption].
      * destruct HL; [left|right]; right; assumption.
  - destruct Hin as [E|Hin]; [injection E as -> ->; left; reflexivity|].
    destruct (IH _ Hin) as [E|[(o' & Ho & HL)|E]]; [discriminate| |auto].
    right; left; exists o'. split.
    + right. destruct Ho as [E|[Hi|Hi]]; [discriminate|left; right; assumption|right; right; assumption].
    + destruct HL; [left|right]; right; assumption.
Qed.

Lemma proj_in {T} t (e : event T) h : In e (proj t h) -> In e h /\ ev_tid e = t.
Proof.
  unfold proj; rewrite filter_In. intros [H1 H2]. split; [assumption|].
  destruct e as [[]|[]|[]|[]|[]], t; cbn in *; congruence.
Qed.

Lemma in_proj {T} t (e : event T) h : In e h -> ev_tid e = t -> In e (proj t h).
Proof. intros H E. unfold proj; rewrite filter_In; split; [assumption|]. rewrite E. destruct t; reflexivity. Qed.

(** A history in which NumFilled by the consumer (its only counting call)
    reports more than the capacity is not linearizable. *)
Lemma overfull_not_linearizable (T : Type) (dflt : T) cap (hist : list (event T)) n :
  In (ERes Cons (RNum n)) hist -> cap < n -> 0 <= cap ->
  (forall o, In (EInv Cons o) hist -> o = NumFilled \/ o = Get) ->
  (forall o, In (EInv Prod o) hist -> match o with Put _ | Reset => True | _ => False end) ->
  ~ linearizable dflt (Queue cap []) hist.
Proof.
  intros Hres Hn Hc HinvC HinvP (h' & HF & HE & HL).
  assert (Hv : forall e, In e h' -> visible e = true -> In e hist).
  { intros e He Hvis. rewrite <- HF. apply filter_In; auto. }
  assert (Hres' : In (ERes Cons (RNum n)) h').
  { rewrite <- HF in Hres. apply filter_In in Hres. tauto. }
  destruct (explained_res _ _ (HE Cons) (RNum n)) as [E|[(o & Ho & HLn)|E]]; try discriminate.
  { apply in_proj; auto. }
  assert (HoC : In (EInv Cons o) hist).
  { destruct Ho as [E|[Hi|Hi]]; [discriminate| |].
    - apply proj_in in Hi. apply Hv; tauto.
    - apply proj_in in Hi. destruct Hi as [_ Hi]; discriminate. }
  assert (HLin : In (ELin Cons o (RNum n)) h').
  { destruct HLn as [Hi|Hi]; apply proj_in in Hi; [tauto|]. destruct Hi as [_ Hi]; discriminate. }
  (* every effect belongs to a call that was made *)
  assert (Hcall : forall (st : status T) (l : list (event T)), explained st l -> forall t o' r, In (ELin t o' r) l ->
             st = Called o' \/ exists t', In (EInv t' o') l).
  { clear. induction 1 as [st|t o h HE IH|t o r h HE IH|t h HE IH|t h HE IH|t r h HE IH]; intros t' o' r' Hin; try contradiction;
      destruct Hin as [E|Hin]; try discriminate; try (injection E as -> -> ->; left; reflexivity);
      destruct (IH _ _ _ Hin) as [E|[t'' Hi]]; try discriminate;
      try (right; exists t''; right; assumption).
    injection E as ->. right; exists t; left; reflexivity. }
  assert (HnoR : forall e, In e h' -> match e with ELin _ (Resize _) _ => False | _ => True end).
  { intros e He. destruct e as [| |t o' r'| |]; auto. destruct o'; auto.
    destruct (Hcall _ _ (HE t) t (Resize n0) r') as [E|[t' Hi]]; [apply in_proj; auto|discriminate|].
    apply proj_in in Hi. destruct Hi as [Hi Et]. cbn in Et; subst t'. specialize (Hv _ Hi eq_refl).
    destruct t; [apply (HinvP _ Hv)|destruct (HinvC _ Hv); discriminate]. }
  destruct (HinvC _ HoC) as [->| ->].
  - destruct (legal_bound _ _ _ _ HL) with (t := Cons) (r := @RNum T n) as (m & Em & Hm); auto.
    cbn in Hm. injection Em as ->. lia.
  - clear - HL HLin. revert HLin. induction HL; intros Hin; try contradiction;
      try (destruct Hin as [E|Hin]; [try discriminate; subst; try discriminate|apply IHHL; assumption]).
    injection E as -> -> E2. destruct q as [c [|x it]]; cbn in E2; discriminate.
Qed.

Lemma consumer_reset_linearizable {T} (dflt : T) W k h buf sched :
  0 <= k < W -> 0 <= h < 2 ^ W -> zlen buf = 2 ^ k ->
  forallb (fun a : action T => match a with Invoke Prod Reset => false | _ => true end) sched = true ->
  exists s' hist, crun W dflt slot_static (cinit (2 ^ k) h buf) sched = Ok (s', hist) /\
    linearizable dflt (Queue (2 ^ k) []) hist.
Proof.
  intros Hk Hh Hb Hf.
  destruct (static_linearizable dflt W k h buf sched Hk Hh Hb) as (s' & hist & E & L & _).
  - rewrite forallb_forall in *. intros a Ha. specialize (Hf a Ha). destruct a as [[] []|]; exact Hf.
  - eauto.
Qed.

Definition reset_schedule : list (action Z) :=
  let put x := [Invoke Prod (Put x); Step Prod; Step Prod; Step Prod; Step Prod; Step Prod] in
  put 1 ++ put 2 ++
  (* consumer: get up to and including the buffer read *)
  [Invoke Cons Get; Step Cons; Step Cons; Step Cons] ++
  (* producer: reset, then two more items *)
  [Invoke Prod Reset; Step Prod; Step Prod; Step Prod] ++ put 3 ++ put 4 ++
  (* consumer: its stale tail store undoes the reset *)
  [Step Cons; Step Cons] ++
  [Invoke Cons NumFilled; Step Cons; Step Cons; Step Cons] ++ put 5.

Lemma producer_reset_witness :
  exists (sched : list (action Z)) s' hist,
    crun 32 0 slot_static (cinit (2 ^ 1) 0 [0; 0]) sched = Ok (s', hist) /\
    In (ERes Cons (RNum 3)) hist /\
    ~ linearizable 0 (Queue (2 ^ 1) []) hist.
Proof.
  exists reset_schedule.
  set (r := crun 32 0 slot_static (cinit (2 ^ 1) 0 [0; 0]) reset_schedule).
  vm_compute in r. subst r. do 2 eexists; split; [reflexivity|].
  assert (Hin : forall (o : qop Z) (l : list (event Z)) t, In (EInv t o) l -> In (EInv t o) l) by auto.
  split; [cbn; intuition congruence|].
  apply overfull_not_linearizable with (n := 3).
  - cbn; intuition congruence.
  - reflexivity.
  - discriminate.
  - intros o Ho; cbn in Ho; repeat (destruct Ho as [E|Ho]; [try discriminate; injection E as <-; auto|]); contradiction.
  - intros o Ho; cbn in Ho; repeat (destruct Ho as [E|Ho]; [try discriminate; injection E as <-; exact I|]); contradiction.
Qed.

Lemma crun_app {T} W (dflt : T) slot a : forall s b s1 h1,
  crun W dflt slot s a = Ok (s1, h1) ->
  crun W dflt slot s (a ++ b) = let* (s2, h2) := crun W dflt slot s1 b in Ok (s2, h1 ++ h2).
Proof.
  induction a as [|x a IH]; intros s b s1 h1 E.
  - cbn in E. injection E as <- <-. cbn. destruct (crun W dflt slot s b) as [[]| |]; reflexivity.
  - cbn [crun app] in E |- *. destruct (cstep W dflt slot s x) as [[s2 e2]| |]; cbn [bind] in E |- *; try discriminate.
    destruct (crun W dflt slot s2 a) as [[s3 e3]| |] eqn:E3; cbn [bind] in E; try discriminate.
    injection E as <- <-. rewrite (IH _ _ _ _ E3). destruct (crun W dflt slot s3 b) as [[]| |]; cbn [bind]; try reflexivity.
    rewrite app_assoc; reflexivity.
Qed.

Definition one_put {T} (x : T) : list (action T) := [Invoke Prod (Put x); Step Prod; Step Prod; Step Prod; Step Prod; Step Prod].
Definition put_events {T} (x : T) : list (event T) := [EInv Prod (Put x); ERes Prod (RBool true)].

(** One put that finds room. *)
Lemma one_put_run {T} (dflt x : T) W k head tail buf c :
  0 <= k < W -> 0 <= head < 2 ^ W -> zlen buf = 2 ^ k -> word W (head - tail) <> 2 ^ k ->
  exists buf', crun W dflt slot_static (CState (2 ^ k) head tail buf PcIdle c) (one_put x) =
    Ok (CState (2 ^ k) (word W (head + 1)) tail buf' PcIdle c, put_events x) /\ zlen buf' = 2 ^ k.
Proof.
  intros Hk Hh Hb Hne.
  assert (Hm : 0 <= Z.land head (2 ^ k - 1) < zlen buf).
  { replace (2 ^ k - 1) with (Z.ones k) by (rewrite Z.ones_equiv; lia). rewrite Z.land_ones by lia. rewrite Hb. apply Z.mod_pos_bound. lia. }
  exists (zupd buf (Z.land head (2 ^ k - 1)) x). split; [|rewrite zlen_zupd; assumption].
  unfold one_put, put_events. cbn [crun cstep tstep get_pc set_pc set_prod c_prod c_cons c_max c_head c_tail c_buf allowed bind app].
  rewrite (proj2 (Z.eqb_neq _ _)) by exact Hne.
  cbn [crun cstep tstep get_pc set_pc set_prod c_prod c_cons c_max c_head c_tail c_buf allowed bind app slot_static].
  unfold slot_static. cbn [bind]. rewrite wr_ok by exact Hm. cbn [bind app]. reflexivity.
Qed.

Lemma many_puts {T} (dflt x : T) W k (Hk : 0 <= k < W) c t0 : forall n i buf,
  0 <= i -> i + Z.of_nat n <= 2 ^ k -> zlen buf = 2 ^ k ->
  exists buf', crun W dflt slot_static (CState (2 ^ k) (word W (t0 + i)) (word W t0) buf PcIdle c) (concat (repeat (one_put x) n)) =
    Ok (CState (2 ^ k) (word W (t0 + i + Z.of_nat n)) (word W t0) buf' PcIdle c, concat (repeat (put_events x) n)) /\ zlen buf' = 2 ^ k.
Proof.
  assert (HW : 2 ^ k < 2 ^ W) by (apply Z.pow_lt_mono_r; lia).
  induction n as [|n IH]; intros i buf Hi Hn Hb.
  - exists buf. cbn. rewrite Z.add_0_r. auto.
  - destruct (one_put_run dflt x W k (word W (t0 + i)) (word W t0) buf c Hk ltac:(apply word_range; lia) Hb) as (b1 & E1 & L1).
    { rewrite (word_diff W (t0 + i) t0 i) by lia. lia. }
    rewrite word_add_l in E1.
    destruct (IH (i + 1) b1 ltac:(lia) ltac:(lia) L1) as (b2 & E2 & L2).
    exists b2. split; [|exact L2]. cbn [repeat concat]. rewrite (crun_app _ _ _ _ _ _ _ _ E1).
    replace (t0 + i + 1) with (t0 + (i + 1)) by lia. rewrite E2. cbn [bind].
    replace (t0 + (i + 1) + Z.of_nat n) with (t0 + i + Z.of_nat (S n)) by lia. reflexivity.
Qed.

Definition reset_race {T} (x : T) (n : nat) : list (action T) :=
  concat (repeat (one_put x) n) ++
  [Invoke Cons Get; Step Cons; Step Cons; Step Cons] ++ [Invoke Prod Reset; Step Prod; Step Prod; Step Prod] ++
  concat (repeat (one_put x) n) ++ [Step Cons; Step Cons] ++ [Invoke Cons NumFilled; Step Cons; Step Cons; Step Cons] ++ one_put x.

Lemma in_puts {T} (x : T) n e : In e (concat (repeat (put_events x) n)) -> e = EInv Prod (Put x) \/ e = ERes Prod (RBool true).
Proof. induction n as [|n IH]; cbn; [tauto|]. intros [<-|[<-|H]]; auto. Qed.

(** For every capacity above 1, whatever the counters start with. *)
Lemma producer_reset_overfills {T} (dflt x : T) W k h buf :
  1 <= k < W -> 0 <= h < 2 ^ W -> zlen buf = 2 ^ k ->
  exists (sched : list (action T)) s' hist before after,
    crun W dflt slot_static (cinit (2 ^ k) h buf) sched = Ok (s', hist) /\
    hist = before ++ [EInv Cons NumFilled; ERes Cons (RNum (2 * 2 ^ k - 1))] ++ after /\
    after = [EInv Prod (Put x); ERes Prod (RBool true)] /\
    ~ linearizable dflt (Queue (2 ^ k) []) hist.
Proof.
  intros Hk Hh Hb. set (n := Z.to_nat (2 ^ k)).
  assert (Hn : Z.of_nat n = 2 ^ k) by (apply Z2Nat.id; lia).
  assert (H2 : 2 ^ 1 <= 2 ^ k) by (apply Z.pow_le_mono_r; lia). change (2 ^ 1) with 2 in H2.
  assert (HW : 2 * 2 ^ k <= 2 ^ W) by (rewrite <- Z.pow_succ_r by lia; apply Z.pow_le_mono_r; lia).
  exists (reset_race x n).
  destruct (many_puts dflt x W k ltac:(lia) PcIdle h n 0 buf ltac:(lia) ltac:(lia) Hb) as (b1 & E1 & L1).
  rewrite !Z.add_0_r, (word_small W h) in E1 by lia. rewrite Hn in E1.
  assert (Hg : 0 <= Z.land h (2 ^ k - 1) < zlen b1).
  { replace (2 ^ k - 1) with (Z.ones k) by (rewrite Z.ones_equiv; lia). rewrite Z.land_ones by lia. rewrite L1. apply Z.mod_pos_bound. lia. }
  destruct (znth_some _ _ Hg) as (item & Ez). pose proof (rd_ok _ _ _ Ez) as Ei.
  destruct (many_puts dflt x W k ltac:(lia) (PcStore Get (word W (h + 1)) (ROpt (Some item))) (h + 2 ^ k) n 0 b1 ltac:(lia) ltac:(lia) L1) as (b2 & E2 & L2).
  rewrite !Z.add_0_r in E2. rewrite Hn in E2.
  destruct (one_put_run dflt x W k (word W (h + 2 ^ k + 2 ^ k)) (word W (h + 1)) b2 PcIdle ltac:(lia) ltac:(apply word_range; lia) L2) as (b3 & E3 & L3).
  { rewrite (word_diff W (h + 2 ^ k + 2 ^ k) (h + 1) (2 * 2 ^ k - 1)) by lia. lia. }
  assert (Hrun : exists s', crun W dflt slot_static (cinit (2 ^ k) h buf) (reset_race x n) =
    Ok (s', (concat (repeat (put_events x) n) ++ [EInv Cons Get] ++ [EInv Prod Reset; ERes Prod RUnit] ++ concat (repeat (put_events x) n) ++ [ERes Cons (ROpt (Some item))])
       ++ [EInv Cons NumFilled; ERes Cons (RNum (2 * 2 ^ k - 1))] ++ put_events x)).
  { unfold reset_race, cinit. eexists. rewrite (crun_app _ _ _ _ _ _ _ _ E1).
    assert (Hne : (h =? word W (h + 2 ^ k)) = false).
    { apply Z.eqb_neq. intros Heq. pose proof (word_diff W (h + 2 ^ k) h (2 ^ k) ltac:(lia) ltac:(lia)) as D.
      rewrite <- Heq, (word_small W h), Z.sub_diag, word_small in D by lia. lia. }
    assert (Eg : crun W dflt slot_static (CState (2 ^ k) (word W (h + 2 ^ k)) h b1 PcIdle PcIdle)
        ([Invoke Cons Get; Step Cons; Step Cons; Step Cons] ++ [Invoke Prod Reset; Step Prod; Step Prod; Step Prod]) =
       Ok (CState (2 ^ k) (word W (h + 2 ^ k)) (word W (h + 2 ^ k)) b1 PcIdle (PcStore Get (word W (h + 1)) (ROpt (Some item))),
           [EInv Cons Get] ++ [EInv Prod Reset; ERes Prod RUnit])).
    { cbn [app]. cbn [crun cstep tstep get_pc set_pc set_prod set_cons c_prod c_cons c_max c_head c_tail c_buf allowed bind app].
      rewrite Hne. cbn [crun cstep tstep get_pc set_pc set_prod set_cons c_prod c_cons c_max c_head c_tail c_buf allowed bind app].
      unfold slot_static. cbn [bind]. rewrite Ei. cbn [bind app item_result crun cstep tstep get_pc set_pc set_prod set_cons c_prod c_cons c_max c_head c_tail c_buf allowed]. reflexivity. }
    rewrite (app_assoc [Invoke Cons Get; Step Cons; Step Cons; Step Cons]).
    rewrite (crun_app _ _ _ _ _ _ _ _ Eg).
    rewrite (crun_app _ _ _ _ _ _ _ _ E2).
    assert (Ec : crun W dflt slot_static (CState (2 ^ k) (word W (h + 2 ^ k + 2 ^ k)) (word W (h + 2 ^ k)) b2 PcIdle (PcStore Get (word W (h + 1)) (ROpt (Some item))))
        ([Step Cons; Step Cons] ++ [Invoke Cons NumFilled; Step Cons; Step Cons; Step Cons]) =
       Ok (CState (2 ^ k) (word W (h + 2 ^ k + 2 ^ k)) (word W (h + 1)) b2 PcIdle PcIdle,
           [ERes Cons (ROpt (Some item)); EInv Cons NumFilled; ERes Cons (RNum (2 * 2 ^ k - 1))])).
    { cbn [app crun cstep tstep get_pc set_pc set_prod set_cons c_prod c_cons c_max c_head c_tail c_buf allowed bind].
      rewrite (word_diff W (h + 2 ^ k + 2 ^ k) (h + 1) (2 * 2 ^ k - 1)) by lia. reflexivity. }
    rewrite (app_assoc [Step Cons; Step Cons]).
    rewrite (crun_app _ _ _ _ _ _ _ _ Ec). rewrite E3. cbn [bind].
    rewrite <- !app_assoc. cbn [app]. reflexivity. }
  destruct Hrun as (s' & Hrun). do 4 eexists. split; [exact Hrun|]. split; [reflexivity|]. split; [reflexivity|].
  apply overfull_not_linearizable with (n := 2 * 2 ^ k - 1); try lia.
  - rewrite !in_app_iff. right; left. cbn; auto.
  - intros o Ho. rewrite !in_app_iff in Ho. cbn [In] in Ho.
    repeat match goal with H : _ \/ _ |- _ => destruct H | H : In _ (concat _) |- _ => apply in_puts in H | H : In _ (put_events _) |- _ => unfold put_events in H; cbn [In] in H | H : In _ [] |- _ => destruct H end; try contradiction; try discriminate; match goal with H : EInv _ _ = EInv _ _ |- _ => injection H as <- end; auto.
  - intros o Ho. rewrite !in_app_iff in Ho. cbn [In] in Ho.
    repeat match goal with H : _ \/ _ |- _ => destruct H | H : In _ (concat _) |- _ => apply in_puts in H | H : In _ (put_events _) |- _ => unfold put_events in H; cbn [In] in H | H : In _ [] |- _ => destruct H end; try contradiction; try discriminate; match goal with H : EInv _ _ = EInv _ _ |- _ => inversion H; subst end; exact I.
Qed.
