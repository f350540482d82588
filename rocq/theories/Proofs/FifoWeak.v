From Verif.Common Require Import Base Lemmas.
From Verif.Spec Require Import FifoLog.
From Verif.Model Require Import Fifo FifoWeak.
From Verif.Proofs Require Import Fifo.
Ltac Zify.zify_post_hook ::= Z.div_mod_to_equations.

Definition tpos (tp : list Z) (j : Z) : Z := match znth tp j with Some p => p | None => 0 end.
Lemma tpos_app_l tp p j : 0 <= j < zlen tp -> tpos (tp ++ [p]) j = tpos tp j.
Proof. intros; unfold tpos; rewrite znth_app_l by lia; reflexivity. Qed.
Lemma tpos_app_r tp p : tpos (tp ++ [p]) (zlen tp) = p.
Proof. unfold tpos; rewrite znth_app_r, Z.sub_diag by lia; reflexivity. Qed.

Section Proof.
Context {T : Type}.
Variables (W cap h0 Hmax : Z) (slot : Z -> Z -> outcome Z) (ord : orders).
Hypothesis Hcap : 0 < cap < 2 ^ W.
Hypothesis Hslot : forall p, h0 <= p < Hmax -> slot cap (word W p) = Ok (p mod cap).
Hypothesis Hord : put_tail_acq ord = true /\ put_head_rel ord = true /\ get_tail_rel ord = true.

Notation wstate := (wstate T).

Definition pend (c : wpc T) : Z :=
  match c with WPut1 _ | WPut2 _ _ | WPut3 _ _ | WPut4 _ _ => 1 | _ => 0 end.
Definition wrote (c : wpc T) : Z := match c with WPut4 _ _ => 1 | _ => 0 end.
Definition ctaking (c : wpc T) : Z :=
  match c with WGet1 | WGet2 _ | WGet3 _ | WGet4 _ _ | WRem1 | WRem2 _ | WRem3 _ => 1 | _ => 0 end.
Definition taken (c : wpc T) : bool := match c with WGet4 _ _ => true | _ => false end.

Definition Hpos (s : wstate) : Z := h0 + zlen (m_head s) - 1.


(** [cr] items after those being taken are known to be visible to the consumer. *)
Record Inv (s : wstate) (tp : list Z) (q : list T) (budget cr : Z) : Prop := {
  i_credit : 0 <= cr /\ (cr = 0 \/ tpos tp (zlen tp - 1) + ctaking (cpc s) + cr <= h0 + v_pw (cv s) /\
                                  tpos tp (zlen tp - 1) + ctaking (cpc s) + cr <= h0 + v_head (cv s));
  i_hlen : 0 < zlen (m_head s);
  i_tlen : 0 < zlen (m_tail s);
  i_tplen : zlen tp = zlen (m_tail s);
  i_head : forall j x v, znth (m_head s) j = Some (x, v) ->
     x = word W (h0 + j) /\ v_pw v = j /\ v_cr v <= v_cr (cv s) /\ v_tail v <= zlen (m_tail s) - 1 /\ v_head v <= j;
  i_tail : forall j x v, znth (m_tail s) j = Some (x, v) ->
     x = word W (tpos tp j) /\ v_pw v <= v_pw (pv s) /\ v_head v <= zlen (m_head s) - 1 /\
     v_tail v <= j /\ v_cr v <= v_cr (cv s) /\
     forall i r, znth (w_rst s) i = Some r -> r <= v_cr v \/ exists p, tpos tp j <= p < Hpos s /\ p mod cap = i;
  i_mono : forall i j, 0 <= i <= j -> j < zlen tp -> tpos tp i <= tpos tp j;
  i_first : h0 <= tpos tp 0;
  i_q : zlen q = Hpos s - tpos tp (zlen tp - 1);
  i_buflen : zlen (w_buf s) = cap;
  i_wlen : zlen (w_wst s) = cap;
  i_rlen : zlen (w_rst s) = cap;
  i_pvhead : v_head (pv s) = zlen (m_head s) - 1;
  i_cvtail : v_tail (cv s) = zlen (m_tail s) - 1;
  i_pvtail : 0 <= v_tail (pv s) < zlen (m_tail s);
  i_pvpw : v_pw (pv s) = zlen (m_head s) - 1 + wrote (ppc s);
  i_pvcr : forall x v, znth (m_tail s) (v_tail (pv s)) = Some (x, v) -> v_cr v <= v_cr (pv s);
  i_pvcr2 : v_cr (pv s) <= v_cr (cv s);
  i_cvpw : v_pw (cv s) <= v_pw (pv s);
  i_cvhead : tpos tp (zlen tp - 1) <= h0 + v_head (cv s) /\ 0 <= v_head (cv s) < zlen (m_head s);
  i_wst : forall i e, znth (w_wst s) i = Some e -> 
            e <= 0 \/ (h0 + e - 1) mod cap = i /\ e <= v_pw (pv s);
  i_rst : forall i r, znth (w_rst s) i = Some r -> r <= v_cr (cv s);
  i_cvpos : 0 <= v_pw (cv s) /\ 0 <= v_cr (cv s) /\ 0 <= v_cr (pv s);
  i_room : Hpos s <= tpos tp (v_tail (pv s)) + cap;
  i_max : Hpos s + pend (ppc s) + budget <= Hmax;
  i_cont : forall i, 0 <= i < zlen q -> (taken (cpc s) = true -> 0 < i) ->
             znth (w_buf s) ((tpos tp (zlen tp - 1) + i) mod cap) = znth q i;
  i_ppc : match ppc s with
          | WIdle | WPut1 _ => True
          | WPut2 x h => h = word W (Hpos s)
          | WPut3 x h => h = word W (Hpos s) /\ Hpos s < tpos tp (v_tail (pv s)) + cap
          | WPut4 x h => h = word W (Hpos s) /\ Hpos s < tpos tp (v_tail (pv s)) + cap /\
                         znth (w_buf s) (Hpos s mod cap) = Some x
          | _ => False
          end;
  i_cpc : let Tl := tpos tp (zlen tp - 1) in
          match cpc s with
          | WIdle | WRem1 => True
          | WReset1 => reset_tail_rel ord = true /\ cr = 0
          | WGet1 => get_head_acq ord = true \/ Tl < h0 + v_head (cv s) /\ Tl < h0 + v_pw (cv s)
          | WGet2 t => t = word W Tl /\ (get_head_acq ord = true \/ Tl < h0 + v_head (cv s) /\ Tl < h0 + v_pw (cv s))
          | WGet3 t => t = word W Tl /\ Tl < h0 + v_head (cv s) /\ Tl < h0 + v_pw (cv s)
          | WGet4 t x => t = word W Tl /\ Tl < h0 + v_head (cv s) /\ exists q', q = x :: q'
          | WRem2 t => t = word W Tl
          | WRem3 t => t = word W Tl /\ Tl < h0 + v_head (cv s)
          | WReset2 h => reset_tail_rel ord = true /\ cr = 0 /\ h = word W (h0 + v_head (cv s))
          | _ => False
          end }.


Lemma tl_bounds s tp q n cr : Inv s tp q n cr ->
  tpos tp (v_tail (pv s)) <= tpos tp (zlen tp - 1) /\ h0 <= tpos tp (zlen tp - 1) /\
  tpos tp (zlen tp - 1) <= Hpos s <= tpos tp (zlen tp - 1) + cap.
Proof.
  clear slot Hslot. intros I.
  pose proof (i_pvtail _ _ _ _ _ I). pose proof (i_tplen _ _ _ _ _ I). pose proof (i_room _ _ _ _ _ I).
  pose proof (i_mono _ _ _ _ _ I (v_tail (pv s)) (zlen tp - 1) ltac:(lia) ltac:(lia)).
  pose proof (i_mono _ _ _ _ _ I 0 (zlen tp - 1) ltac:(lia) ltac:(lia)).
  pose proof (i_first _ _ _ _ _ I). pose proof (i_cvhead _ _ _ _ _ I). unfold Hpos in *. lia.
Qed.

(** A consumer tail store moving the tail to absolute position [p]. *)
Lemma store_tail_inv s tp q n cr p x :
  Inv s tp q n cr -> x = word W p ->
  tpos tp (zlen tp - 1) <= p <= h0 + v_head (cv s) ->
  taken (cpc s) = false \/ p = tpos tp (zlen tp - 1) + 1 ->
  cr = 0 \/ ctaking (cpc s) = 1 /\ p = tpos tp (zlen tp - 1) + 1 ->
  Inv (store_tail s x true) (tp ++ [p]) (skipn (Z.to_nat (p - tpos tp (zlen tp - 1))) q) n cr.
Proof.
  clear slot Hslot. intros I Ex Hp Htk Hcr. pose proof (tl_bounds _ _ _ _ _ I) as (B1 & B2 & B3).
  pose proof I as J. destruct J. unfold store_tail; cbn iota.
  set (Tl := tpos tp (zlen tp - 1)) in *.
  assert (Hpos' : Hpos (WState (m_head s) (m_tail s ++ [(x, View (v_head (cv s)) (zlen (m_tail s)) (v_pw (cv s)) (v_cr (cv s)))]) (w_buf s) (w_wst s)
         (w_rst s) (pv s) (View (v_head (cv s)) (zlen (m_tail s)) (v_pw (cv s)) (v_cr (cv s))) (ppc s) WIdle) = Hpos s) by reflexivity.
  assert (Hlast : tpos (tp ++ [p]) (zlen (tp ++ [p]) - 1) = p).
  { zl. replace (zlen tp + 1 - 1) with (zlen tp) by lia. apply tpos_app_r. }
  constructor; rewrite ?Hlast, ?Hpos'; cbn [m_head m_tail w_buf w_wst w_rst pv cv ppc cpc v_head v_tail v_pw v_cr taken];
    zl; try assumption; try lia.
  - destruct i_credit0 as [C0 [->|[C1 C2]]]; [lia|]. destruct Hcr as [->|[E ->]]; [lia|]. cbn [ctaking]. unfold Tl in *. lia.
  - intros j y v Hj. destruct (i_head0 _ _ _ Hj) as (A1 & A2 & A3 & A4 & A5). splits; try assumption; lia.
  - intros j y v Hj. rewrite znth_app in Hj. destruct (Z.ltb_spec j (zlen (m_tail s))) as [L|L].
    + pose proof (znth_some_range _ _ _ Hj). rewrite tpos_app_l by lia. eauto.
    + assert (j = zlen (m_tail s)) by (apply znth_some_range in Hj; zl_in Hj; lia).
      subst j. rewrite Z.sub_diag, znth_cons_0 in Hj. injection Hj as <- <-.
      rewrite <- i_tplen0, tpos_app_r. cbn. splits; try assumption; try lia.
      intros i r Hr. left. eauto.
  - intros i j Hij Hj. destruct (Z.eq_dec j (zlen tp)) as [->|].
    + rewrite tpos_app_r. destruct (Z.eq_dec i (zlen tp)) as [->|]; [rewrite tpos_app_r; lia|].
      rewrite tpos_app_l by lia. specialize (i_mono0 i (zlen tp - 1) ltac:(lia) ltac:(lia)). unfold Tl in *; lia.
    + rewrite !tpos_app_l by lia. apply i_mono0; lia.
  - rewrite tpos_app_l by lia. assumption.
  - rewrite zlen_skipn by (unfold Hpos in *; lia). unfold Hpos in *; lia.
  - intros y v Hj. rewrite znth_app_l in Hj by lia. eauto.
  - rewrite tpos_app_l by lia. assumption.
  - intros i Hi _. rewrite zlen_skipn in Hi by (unfold Hpos in *; lia).
    rewrite znth_skipn by lia. rewrite <- i_cont0; [f_equal; f_equal; lia|lia|].
    intros E. destruct Htk as [Htk|Htk]; [congruence|]. unfold Tl in *; lia.
  - destruct (ppc s); rewrite ?tpos_app_l by lia; try assumption.
Qed.

Lemma set_c_inv s tp q n cr cr' v c :
  Inv s tp q n cr -> 0 <= cr' <= cr -> (cr' = 0 \/ ctaking c + cr' <= ctaking (cpc s) + cr) ->
  v_tail v = v_tail (cv s) -> v_cr v = v_cr (cv s) -> v_head (cv s) <= v_head v < zlen (m_head s) ->
  v_pw (cv s) <= v_pw v <= v_pw (pv s) ->
  taken c = taken (cpc s) ->
  (let Tl := tpos tp (zlen tp - 1) in
          match c with
          | WIdle | WRem1 => True
          | WReset1 => reset_tail_rel ord = true /\ cr' = 0
          | WGet1 => get_head_acq ord = true \/ Tl < h0 + v_head v /\ Tl < h0 + v_pw v
          | WGet2 t => t = word W Tl /\ (get_head_acq ord = true \/ Tl < h0 + v_head v /\ Tl < h0 + v_pw v)
          | WGet3 t => t = word W Tl /\ Tl < h0 + v_head v /\ Tl < h0 + v_pw v
          | WRem2 t => t = word W Tl
          | WRem3 t => t = word W Tl /\ Tl < h0 + v_head v
          | WReset2 h => reset_tail_rel ord = true /\ cr' = 0 /\ h = word W (h0 + v_head v)
          | _ => False
          end) ->
  Inv (with_c s v c) tp q n cr'.
Proof.
  clear slot Hslot. intros I Hc1 Hc2 Et Ecr Eh Epw Etk Hc. destruct I.
  constructor; unfold with_c, Hpos in *; cbn [m_head m_tail w_buf w_wst w_rst pv cv ppc cpc] in *; 
    rewrite ?Et, ?Ecr, ?Etk; try assumption; try lia.
  destruct c; auto; contradiction.
Qed.

Lemma set_p_inv s tp q n n' cr v c :
  Inv s tp q n cr ->
  v_head v = v_head (pv s) -> v_pw v = v_pw (pv s) ->
  v_tail (pv s) <= v_tail v < zlen (m_tail s) -> v_cr (pv s) <= v_cr v <= v_cr (cv s) ->
  (forall x w, znth (m_tail s) (v_tail v) = Some (x, w) -> v_cr w <= v_cr v) ->
  wrote c = wrote (ppc s) -> pend c + n' <= pend (ppc s) + n ->
  (match c with
          | WIdle | WPut1 _ => True
          | WPut2 x h => h = word W (Hpos s)
          | WPut3 x h => h = word W (Hpos s) /\ Hpos s < tpos tp (v_tail v) + cap
          | _ => False
          end) ->
  Inv (with_p s v c) tp q n' cr.
Proof.
  clear slot Hslot. intros I Eh Epw Et Ecr Hm Ew Ep Hc. destruct I.
  specialize (i_mono0 (v_tail (pv s)) (v_tail v)) as M.
  constructor; unfold with_p, Hpos in *; cbn [m_head m_tail w_buf w_wst w_rst pv cv ppc cpc] in *; 
    rewrite ?Eh, ?Epw, ?Ew; try assumption; try lia.
  destruct c; auto; contradiction.
Qed.

(** The effects [es] are possible from [q] and what they leave satisfies [K]. *)
Fixpoint effs_then (q : list T) (es : list (effect T)) (K : list T -> Prop) : Prop :=
  match es with
  | [] => K q
  | EffPut x :: r => zlen q < cap /\ effs_then (q ++ [x]) r K
  | EffGot x :: r => exists q', q = x :: q' /\ effs_then q' r K
  | EffSkip n :: r => 0 <= n <= zlen q /\ effs_then (skipn (Z.to_nat n) q) r K
  end.
Definition effs_ok (q : list T) (es : list (effect T)) (q' : list T) : Prop :=
  forall K : list T -> Prop, K q' -> effs_then q es K.
Lemma effs_replay es : forall q log, effs_then q es (fun q' => replay cap q' log) -> replay cap q (es ++ log).
Proof.
  clear. induction es as [|[x|x|n] es IH]; intros q log H; cbn [effs_then app replay] in *; auto.
  - destruct H; auto.
  - destruct H as (q' & -> & H). eauto.
  - destruct H; auto.
Qed.

(** The credit left after a call: a get needs an acquiring load or an item known to be visible. *)
Definition call_ok (a : waction T) (cr cr' : Z) : Prop :=
  match a with
  | CGet => 0 <= cr' <= cr /\ (get_head_acq ord = true /\ cr' = 0 \/ cr' = cr - 1)
  | CRemove => 0 <= cr' <= cr /\ (cr' = 0 \/ cr' = cr - 1)
  | CReset => reset_tail_rel ord = true /\ cr' = 0
  | _ => cr' = cr
  end.
Lemma call_ok_le a cr cr' : 0 <= cr -> call_ok a cr cr' -> 0 <= cr' <= cr.
Proof. clear. destruct a; cbn; lia. Qed.
Lemma credit_le s tp q n cr cr' : Inv s tp q n cr -> 0 <= cr' <= cr -> Inv s tp q n cr'.
Proof. clear. intros I H. destruct I; constructor; auto; [destruct i_credit0 as [A [B|[B C]]]; split; lia|].
  cbn zeta in *. destruct (cpc s); auto; intuition lia. Qed.

Lemma step_ok s tp q n cr cr' a :
  Inv s tp q (n + begun_puts [a]) cr -> 0 <= n -> call_ok a cr cr' ->
  exists s' es tp' q', wstep W cap slot ord s a = Ok (s', es) /\ Inv s' tp' q' n cr' /\ effs_ok q es q'.
Proof.
  intros I Hn Hcall. pose proof (tl_bounds _ _ _ _ _ I) as (B1 & B2 & B3).
  assert (In : Inv s tp q n cr).
  { destruct I; constructor; auto. destruct a; cbn in *; lia. }
  pose proof (call_ok_le _ _ _ (proj1 (i_credit _ _ _ _ _ I)) Hcall) as Hle. pose proof (credit_le _ _ _ _ _ _ In Hle) as In'.
  assert (Skip : exists s' es tp' q', Ok (s, @nil (effect T)) = Ok (s', es) /\ Inv s' tp' q' n cr' /\ effs_ok q es q').
  { do 4 eexists; split; [reflexivity|]; split; [exact In'|]. intros l Hl; exact Hl. }
  assert (Hc : forall v c, Inv (with_c s v c) tp q n cr' ->
     exists s' es tp' q', Ok (with_c s v c, @nil (effect T)) = Ok (s', es) /\ Inv s' tp' q' n cr' /\ effs_ok q es q').
  { intros v c Ic. do 4 eexists; split; [reflexivity|]; split; [exact Ic|]. intros l Hl; exact Hl. }
  assert (Hp : forall v c, Inv (with_p s v c) tp q n cr' ->
     exists s' es tp' q', Ok (with_p s v c, @nil (effect T)) = Ok (s', es) /\ Inv s' tp' q' n cr' /\ effs_ok q es q').
  { intros v c Ic. do 4 eexists; split; [reflexivity|]; split; [exact Ic|]. intros l Hl; exact Hl. }
  destruct Hord as (O1 & O2 & O3).
  pose proof I as J. destruct J.
  destruct a as [x| | | |j|j residue]; cbn [wstep begun_puts] in *.
  - cbn [call_ok] in Hcall. subst cr'. destruct (ppc s) eqn:Epc; try exact Skip. apply Hp. eapply set_p_inv; [exact I|..]; rewrite ?Epc; cbn [wrote pend]; try lia; auto.
  - destruct (cpc s) eqn:Epc; try exact Skip. apply Hc. eapply set_c_inv; [exact In|..]; rewrite ?Epc; cbn [taken ctaking]; auto; cbn [call_ok] in Hcall; try lia.
    cbn zeta. destruct Hcall as [_ [[A _]|A]]; [left; exact A|right]. cbn [ctaking] in i_credit0. lia.
  - destruct (cpc s) eqn:Epc; try exact Skip. apply Hc. eapply set_c_inv; [exact In|..]; rewrite ?Epc; cbn [taken ctaking]; auto; cbn [call_ok] in Hcall; try lia.
  - destruct (cpc s) eqn:Epc; try exact Skip. apply Hc. eapply set_c_inv; [exact In|..]; rewrite ?Epc; cbn [taken ctaking]; auto; cbn [call_ok] in Hcall; try lia.
  - (* producer *)
    cbn [call_ok] in Hcall. subst cr'.
    unfold pstep. destruct (ppc s) as [|x|x h|x h|x h| |t|t|t x| |t|t| |h] eqn:Epc; try exact Skip.
    + (* WPut1 *)
      unfold load_head. destruct (Z.ltb_spec j (v_head (pv s))); [exact Skip|].
      destruct (znth (m_head s) j) as [[y w]|] eqn:Ej; [|exact Skip]. cbn iota.
      destruct (i_head0 _ _ _ Ej) as (-> & A2 & A3 & A4 & A5). pose proof (znth_some_range _ _ _ Ej).
      assert (j = zlen (m_head s) - 1) by lia. subst j.
      apply Hp. eapply set_p_inv; [exact In|..]; rewrite ?Epc; cbn; auto; try lia.
      unfold Hpos. f_equal; lia.
    + (* WPut2 *)
      unfold load_tail. destruct (Z.ltb_spec j (v_tail (pv s))); [exact Skip|].
      destruct (znth (m_tail s) j) as [[y w]|] eqn:Ej; [|exact Skip]. rewrite O1.
      destruct (i_tail0 _ _ _ Ej) as (-> & A2 & A3 & Hhw & Hcrw & A4). pose proof (znth_some_range _ _ _ Ej).
      assert (Mj : tpos tp (v_tail (pv s)) <= tpos tp j) by (apply i_mono0; lia).
      assert (Mj2 : tpos tp j <= tpos tp (zlen tp - 1)) by (apply i_mono0; lia).
      rewrite i_ppc0. rewrite (word_diff W (Hpos s) (tpos tp j) (Hpos s - tpos tp j)) by lia.
      set (v := vjoin _ w).
      assert (Ev : v_head v = v_head (pv s) /\ v_pw v = v_pw (pv s) /\ v_tail v = j /\ v_cr (pv s) <= v_cr v <= v_cr (cv s) /\ v_cr w <= v_cr v).
      { unfold v, vjoin; cbn. splits; lia. }
      destruct Ev as (E1 & E2 & E3 & E4 & E5).
      destruct (Z.eqb_spec (Hpos s - tpos tp j) cap).
      * apply Hp. eapply set_p_inv; [exact In|..]; rewrite ?Epc; cbn [wrote pend]; auto; try lia.
        rewrite E3. intros z u Hz. congruence.
      * apply Hp. eapply set_p_inv; [exact In|..]; rewrite ?Epc; cbn [wrote pend]; auto; try lia.
        -- rewrite E3. intros z u Hz. congruence.
        -- rewrite E3. split; [reflexivity|lia].
    + (* WPut3 *)
      destruct i_ppc0 as (-> & Hroom).
      rewrite Hslot by (cbn [pend] in *; lia). cbn [bind].
      pose proof (Z.mod_pos_bound (Hpos s) cap ltac:(lia)).
      unfold write_slot. destruct (znth_some (w_rst s) (Hpos s mod cap)) as [r Hr]; [lia|].
      rewrite (rd_ok _ _ _ Hr). cbn [bind].
      assert (Hrc : r <= v_cr (pv s)).
      { destruct (znth_some (m_tail s) (v_tail (pv s))) as [[y w] Hy]; [lia|].
        pose proof (i_pvcr0 _ _ Hy). destruct (i_tail0 _ _ _ Hy) as (_ & _ & _ & _ & _ & A).
        destruct (A _ _ Hr) as [|(p & Hp1 & Hp2)]; [lia|].
        exfalso. revert Hp2. apply mod_neq; lia. }
      destruct (Z.ltb_spec (v_cr (pv s)) r); [lia|].
      rewrite !wr_ok by lia. cbn [bind].
      do 2 eexists; exists tp, q; split; [reflexivity|]; split; [|intros l Hl; exact Hl].
      constructor; unfold Hpos in *; cbn [m_head m_tail w_buf w_wst w_rst pv cv ppc cpc v_head v_tail v_pw v_cr wrote pend] in *;
        rewrite ?zlen_zupd; try eassumption; try lia.
      * intros j' y w Hj'. destruct (i_tail0 _ _ _ Hj') as (A1 & A2 & A3 & A5 & A6 & A4). splits; try assumption; lia.
      * intros i e. rewrite znth_zupd.
        destruct (Z.eqb_spec ((h0 + zlen (m_head s) - 1) mod cap) i) as [<-|]; cbn [andb].
        -- replace ((0 <=? (h0 + zlen (m_head s) - 1) mod cap) && ((h0 + zlen (m_head s) - 1) mod cap <? zlen (w_wst s))) with true by lia.
           intros E; injection E as <-. right; split; [f_equal; lia|lia].
        -- intros E; destruct (i_wst0 _ _ E); [left; lia|right; lia].
      * intros i Hi Htk. rewrite znth_zupd_ne; [apply i_cont0; assumption|].
        intros E; symmetry in E; revert E; apply mod_neq; lia.
      * splits; auto. rewrite znth_zupd_eq; [reflexivity|lia].
    + (* WPut4 *)
      destruct i_ppc0 as (-> & Hroom & Hx).
      do 2 eexists; exists tp, (q ++ [x]); split; [reflexivity|]; split.
      2:{ intros l Hl. cbn. split; [lia|exact Hl]. }
      unfold store_head; rewrite O2.
      constructor; unfold Hpos in *; cbn [m_head m_tail w_buf w_wst w_rst pv cv ppc cpc v_head v_tail v_pw v_cr wrote pend] in *;
        zl; try eassumption; try lia.
      * intros j' y w Hj'. rewrite znth_app in Hj'. destruct (Z.ltb_spec j' (zlen (m_head s))); [eauto|].
        assert (j' = zlen (m_head s)) by (apply znth_some_range in Hj'; zl_in Hj'; lia).
        subst j'. rewrite Z.sub_diag, znth_cons_0 in Hj'. injection Hj' as <- <-. cbn.
        splits; try lia. rewrite word_add_l. f_equal; lia.
      * intros j' y w Hj'. destruct (i_tail0 _ _ _ Hj') as (A1 & A2 & A3 & A5 & A6 & A4). splits; try assumption; try lia.
        intros i r Hr. destruct (A4 _ _ Hr) as [|(p & P1 & P2)]; [left; assumption|right; exists p; split; [lia|assumption]].
      * intros i Hi Htk. destruct (Z.eq_dec i (zlen q)) as [->|].
        -- rewrite znth_app_r, Z.sub_diag by lia. rewrite znth_cons_0, <- Hx. f_equal; f_equal; lia.
        -- rewrite znth_app_l by lia. apply i_cont0; [lia|assumption].
      * destruct (cpc s); try assumption.
        destruct i_cpc0 as (A1 & A2 & q' & ->). splits; try assumption. eexists; reflexivity.
  - (* consumer *)
    cbn [call_ok] in Hcall. subst cr'.
    set (Tl := tpos tp (zlen tp - 1)) in *.
    assert (LT : forall c : Z -> wpc T, taken (cpc s) = false ->
       (forall t, t = word W Tl -> forall v, v_tail v = v_tail (cv s) -> v_cr v = v_cr (cv s) -> v_head v = v_head (cv s) -> v_pw v = v_pw (cv s) -> Inv (with_c s v (c t)) tp q n cr) ->
       exists s' es tp' q', match load_tail (cv s) false s j with
                            | Some (t, v) => Ok (with_c s v (c t), [])
                            | None => Ok (s, []) end = Ok (s', es) /\ Inv s' tp' q' n cr /\ effs_ok q es q').
    { intros c Htk HI. unfold load_tail. destruct (Z.ltb_spec j (v_tail (cv s))); [exact Skip|].
      destruct (znth (m_tail s) j) as [[y w]|] eqn:Ej; [|exact Skip]. cbn iota.
      pose proof (znth_some_range _ _ _ Ej). assert (j = zlen tp - 1) by lia. subst j.
      destruct (i_tail0 _ _ _ Ej) as (-> & _). apply Hc. apply HI; cbn; auto; lia. }
    assert (HW0 : zlen q < 2 ^ W) by lia.
    unfold cstepw. destruct (cpc s) as [|x|x h|x h|x h| |t|t|t x| |t|t| |h] eqn:Epc; try exact Skip.
    + apply LT; [rewrite ?Epc; reflexivity|]. intros t -> v E1 E2 E3 E4.
      eapply set_c_inv; [exact In|..]; rewrite ?Epc; cbn; auto; try lia. fold Tl. rewrite E3, E4. auto.
    + (* WGet2 *)
      unfold load_head. destruct (Z.ltb_spec j (v_head (cv s))); [exact Skip|].
      destruct (znth (m_head s) j) as [[y w]|] eqn:Ej; [|exact Skip]. cbn iota.
      destruct i_cpc0 as (-> & Hvis).
      destruct (i_head0 _ _ _ Ej) as (-> & A2 & A3 & A4 & A5). pose proof (znth_some_range _ _ _ Ej).
      set (v := if get_head_acq ord then _ else _).
      assert (Ev : v_tail v = v_tail (cv s) /\ v_cr v = v_cr (cv s) /\ v_head v = j /\ v_pw (cv s) <= v_pw v <= v_pw (pv s) /\ (get_head_acq ord = true -> j <= v_pw v)).
      { unfold v, vjoin. destruct (get_head_acq ord); cbn; destruct (ppc s); cbn [wrote] in *; splits; try lia; intros; lia. }
      destruct Ev as (E1 & E2 & E3 & E4 & E5).
      fold Tl. rewrite (word_eq_iff W (h0 + j) Tl (h0 + j - Tl)) by (unfold Hpos in *; lia).
      destruct (Z.eqb_spec (h0 + j - Tl) 0).
      * apply Hc. eapply set_c_inv; [exact In|..]; rewrite ?Epc; cbn [taken ctaking]; auto; lia.
      * apply Hc. eapply set_c_inv; [exact In|..]; rewrite ?Epc; cbn [taken ctaking]; auto; try lia.
        fold Tl. cbn zeta. splits; auto; try lia. destruct Hvis as [Ha|[_ Hb]]; [specialize (E5 Ha)|]; lia.
    + (* WGet3 *)
      destruct i_cpc0 as (-> & HT & HPW).
      rewrite Hslot by (unfold Hpos in *; destruct (ppc s); cbn [pend] in *; lia). cbn [bind].
      pose proof (Z.mod_pos_bound Tl cap ltac:(lia)).
      unfold take_slot. destruct (znth_some (w_wst s) (Tl mod cap)) as [e He]; [lia|].
      rewrite (rd_ok _ _ _ He). cbn [bind].
      assert (Hec : e <= v_pw (cv s)).
      { destruct (i_wst0 _ _ He) as [|[Q1 Q2]]; [lia|].
        destruct (Z.leb_spec e (v_pw (cv s))); [lia|exfalso]. symmetry in Q1. revert Q1. apply mod_neq; [lia|].
        unfold Hpos in *. destruct (ppc s); cbn [wrote] in *; lia. }
      destruct (Z.ltb_spec (v_pw (cv s)) e); [lia|].
      assert (Hqn : 0 < zlen q) by (unfold Hpos in *; lia).
      destruct q as [|x q']; [zl_in Hqn; lia|].
      assert (Hx : znth (w_buf s) (Tl mod cap) = Some x).
      { rewrite <- (znth_cons_0 x q'), <- i_cont0; [f_equal; f_equal; unfold Tl; lia|lia|discriminate]. }
      rewrite (rd_ok _ _ _ Hx). cbn [bind].
      assert (HB : exists b, match residue with Some r => wr (w_buf s) (Tl mod cap) r | None => Ok (w_buf s) end = Ok b /\
                     zlen b = cap /\ forall i, i <> Tl mod cap -> znth b i = znth (w_buf s) i).
      { destruct residue as [r|]; [|eauto]. rewrite wr_ok by lia. eexists; split; [reflexivity|].
        rewrite zlen_zupd; split; [assumption|]. intros; apply znth_zupd_ne; auto. }
      destruct HB as (b & -> & Hb1 & Hb2). cbn [bind]. rewrite wr_ok by lia. cbn [bind].
      do 2 eexists; exists tp, (x :: q'); split; [reflexivity|]; split; [|intros l Hl; exact Hl].
      unfold with_c; constructor; unfold Hpos in *; cbn [m_head m_tail w_buf w_wst w_rst pv cv ppc cpc v_head v_tail v_pw v_cr taken] in *;
        rewrite ?zlen_zupd; try eassumption; try lia.
      * intros j' y w Hj'. destruct (i_head0 _ _ _ Hj') as (A1 & A2 & A3 & A4 & A5). splits; try assumption; lia.
      * intros j' y w Hj'. destruct (i_tail0 _ _ _ Hj') as (A1 & A2 & A3 & A5 & A6 & A4). splits; try assumption; try lia.
        intros i r. rewrite znth_zupd. destruct (Z.eqb_spec (Tl mod cap) i) as [<-|]; cbn [andb]; [|eauto].
        intros _. right. exists Tl. split; [|reflexivity]. pose proof (znth_some_range _ _ _ Hj').
        split; [|unfold Hpos in *; lia]. apply i_mono0; lia.
      * intros i r. rewrite znth_zupd. destruct (Z.eqb_spec (Tl mod cap) i) as [<-|]; cbn [andb].
        -- replace ((0 <=? Tl mod cap) && (Tl mod cap <? zlen (w_rst s))) with true by lia. intros E; injection E as <-. lia.
        -- intros E; specialize (i_rst0 _ _ E); lia.
      * intros i Hi Htk. specialize (Htk eq_refl). rewrite Hb2; [apply i_cont0; [lia|discriminate]|].
        intros E; symmetry in E; revert E. fold Tl. apply mod_neq; lia.
      * destruct (ppc s); try assumption. destruct i_ppc0 as (P1 & P2 & P3). splits; try assumption.
        rewrite Hb2; [assumption|]. intros E; symmetry in E; revert E. apply mod_neq; lia.
      * fold Tl. splits; auto. eexists; reflexivity.
    + (* WGet4 *)
      destruct i_cpc0 as (-> & HT & q' & ->).
      do 2 eexists; exists (tp ++ [Tl + 1]), q'; split; [reflexivity|]; split.
      2:{ intros l Hl. cbn. exists q'; split; [reflexivity|exact Hl]. }
      replace q' with (skipn (Z.to_nat (Tl + 1 - Tl)) (x :: q')) by (replace (Tl + 1 - Tl) with 1 by lia; reflexivity).
      rewrite O3. apply store_tail_inv; [exact In|apply word_add_l|fold Tl; lia|right; reflexivity|right; rewrite Epc; split; reflexivity].
    + apply LT; [rewrite ?Epc; reflexivity|]. intros t -> v E1 E2 E3 E4.
      eapply set_c_inv; [exact In|..]; rewrite ?Epc; cbn; auto; lia.
    + (* WRem2 *)
      unfold load_head. destruct (Z.ltb_spec j (v_head (cv s))); [exact Skip|].
      destruct (znth (m_head s) j) as [[y w]|] eqn:Ej; [|exact Skip]. cbn iota.
      destruct (i_head0 _ _ _ Ej) as (-> & A2 & A3 & A4 & A5). pose proof (znth_some_range _ _ _ Ej).
      rewrite i_cpc0. fold Tl. rewrite (word_eq_iff W (h0 + j) Tl (h0 + j - Tl)) by (unfold Hpos in *; lia).
      destruct (Z.eqb_spec (h0 + j - Tl) 0).
      * apply Hc. eapply set_c_inv; [exact In|..]; rewrite ?Epc; cbn [taken ctaking v_tail v_head v_pw v_cr]; auto; lia.
      * apply Hc. eapply set_c_inv; [exact In|..]; rewrite ?Epc; cbn [taken ctaking v_tail v_head v_pw v_cr]; auto; try lia.
        fold Tl. splits; auto; lia.
    + (* WRem3 *)
      destruct i_cpc0 as (-> & HT).
      do 2 eexists; exists (tp ++ [Tl + 1]), (skipn (Z.to_nat (Tl + 1 - Tl)) q); split; [reflexivity|]; split.
      2:{ intros l Hl. cbn [effs_then]. split; [unfold Hpos in *; lia|]. replace (Tl + 1 - Tl) with 1 in Hl by lia. exact Hl. }
      rewrite O3. apply store_tail_inv; [exact In|apply word_add_l|fold Tl; lia|right; reflexivity|right; rewrite Epc; split; reflexivity].
    + (* WReset1 *)
      unfold load_head. destruct (Z.ltb_spec j (v_head (cv s))); [exact Skip|].
      destruct (znth (m_head s) j) as [[y w]|] eqn:Ej; [|exact Skip]. cbn iota.
      destruct (i_head0 _ _ _ Ej) as (-> & A2 & A3 & A4 & A5). pose proof (znth_some_range _ _ _ Ej).
      destruct i_cpc0 as [Rt ->].
      apply Hc. eapply set_c_inv; [exact In|..]; rewrite ?Epc; cbn [taken ctaking v_tail v_head v_pw v_cr]; auto; lia.
    + (* WReset2 *)
      destruct i_cpc0 as (Rt & Ecr & ->).
      destruct (znth_some (m_tail s) (zlen (m_tail s) - 1)) as [[y w] Hy]; [lia|]. rewrite Hy.
      destruct (i_tail0 _ _ _ Hy) as (-> & _). rewrite <- i_tplen0. fold Tl.
      rewrite (word_diff W (h0 + v_head (cv s)) Tl (h0 + v_head (cv s) - Tl)) by (unfold Hpos in *; lia).
      do 2 eexists; exists (tp ++ [h0 + v_head (cv s)]), (skipn (Z.to_nat (h0 + v_head (cv s) - Tl)) q); split; [reflexivity|]; split.
      2:{ intros l Hl. cbn [effs_then]. split; [unfold Hpos in *; lia|exact Hl]. }
      rewrite Rt. apply store_tail_inv; [exact In|reflexivity|fold Tl; lia|left; rewrite Epc; reflexivity|left; exact Ecr].
Qed.

Lemma run_ok : get_head_acq ord = true -> reset_tail_rel ord = true ->
  forall sched s tp q, Inv s tp q (begun_puts sched) 0 ->
  exists s' log, wrun W cap slot ord s sched = Ok (s', log) /\ replay cap q log.
Proof.
  intros Ga Rt. induction sched as [|a sched IH]; intros s tp q I; cbn [wrun].
  - do 2 eexists; split; [reflexivity|exact Logic.I].
  - assert (Hb : 0 <= begun_puts sched) by (clear; induction sched as [|[]]; cbn [begun_puts]; lia).
    assert (E : begun_puts (a :: sched) = begun_puts sched + begun_puts [a]) by (destruct a; cbn [begun_puts]; lia).
    assert (Ho : call_ok a 0 0) by (destruct a; cbn; auto; split; auto; lia).
    rewrite E in I. destruct (step_ok _ _ _ _ _ _ _ I Hb Ho) as (s1 & e1 & tp1 & q1 & E1 & I1 & R1).
    rewrite E1; cbn [bind]. destruct (IH _ _ _ I1) as (s2 & e2 & E2 & R2). rewrite E2; cbn [bind].
    do 2 eexists; split; [reflexivity|]. apply effs_replay, R1; exact R2.
Qed.

(** num_filled() by an idle consumer: the count becomes the credit. *)
Lemma count_inv s tp q n cr j h v t w :
  Inv s tp q n cr -> cpc s = WIdle -> load_head (cv s) true s j = Some (h, v) ->
  znth (m_tail s) (zlen (m_tail s) - 1) = Some (t, w) ->
  Inv (with_c s v WIdle) tp q n (word W (h - t)) /\ 0 <= word W (h - t) <= zlen q /\ zlen q <= cap.
Proof.
  clear slot Hslot Hord. intros I Ei Hl Ht. pose proof (tl_bounds _ _ _ _ _ I) as (B1 & B2 & B3).
  pose proof I as J. destruct J. set (Tl := tpos tp (zlen tp - 1)) in *.
  unfold load_head in Hl. destruct (Z.ltb_spec j (v_head (cv s))); [discriminate|].
  destruct (znth (m_head s) j) as [[y u]|] eqn:Ej; [|discriminate]. injection Hl as <- <-.
  destruct (i_head0 _ _ _ Ej) as (-> & A2 & A3 & A4 & A5). pose proof (znth_some_range _ _ _ Ej).
  destruct (i_tail0 _ _ _ Ht) as (-> & _). rewrite <- i_tplen0. fold Tl.
  rewrite (word_diff W (h0 + j) Tl (h0 + j - Tl)) by (unfold Hpos in *; lia).
  split; [|unfold Hpos in *; lia].
  set (v := vjoin _ u).
  assert (Ev : v_tail v = v_tail (cv s) /\ v_cr v = v_cr (cv s) /\ v_head v = j /\ v_pw (cv s) <= v_pw v <= v_pw (pv s) /\ j <= v_pw v).
  { unfold v, vjoin. cbn; destruct (ppc s); cbn [wrote] in *; splits; lia. }
  destruct Ev as (E1 & E2 & E3 & E4 & E5). clearbody v.
  constructor; unfold with_c, Hpos in *; cbn [m_head m_tail w_buf w_wst w_rst pv cv ppc cpc] in *;
    rewrite ?Ei in *; cbn [taken ctaking] in *; rewrite ?E1, ?E2, ?E3; try assumption; try exact Logic.I; lia.
Qed.

(** A get of an announced item does not come back empty. *)
Lemma get_not_empty s tp q n cr a s' es t :
  Inv s tp q n cr -> get_head_acq ord = false -> cpc s = WGet2 t ->
  wstep W cap slot ord s a = Ok (s', es) -> cpc s' <> WIdle.
Proof.
  intros I Ga Ep Hs. pose proof (tl_bounds _ _ _ _ _ I) as (B1 & B2 & B3). destruct I.
  set (Tl := tpos tp (zlen tp - 1)) in *.
  destruct a as [x| | | |j|j residue]; cbn [wstep] in Hs; rewrite ?Ep in Hs.
  - destruct (ppc s); injection Hs as <- <-; cbn [with_p cpc]; rewrite Ep; discriminate.
  - injection Hs as <- <-; rewrite Ep; discriminate.
  - injection Hs as <- <-; rewrite Ep; discriminate.
  - injection Hs as <- <-; rewrite Ep; discriminate.
  - intros Ec. enough (cpc s' = cpc s) by congruence. clear Ep Ec.
    unfold pstep in Hs. destruct (ppc s); try (injection Hs as <- <-; reflexivity).
    + destruct (load_head _ _ _ _) as [[? ?]|]; injection Hs as <- <-; reflexivity.
    + destruct (load_tail _ _ _ _) as [[? ?]|]; [destruct (_ =? _)|]; injection Hs as <- <-; reflexivity.
    + destruct (slot cap h); cbn [bind] in Hs; try discriminate. unfold write_slot in Hs.
      destruct (rd (w_rst s) a); cbn [bind] in Hs; try discriminate. destruct (_ <? _); cbn [bind] in Hs; try discriminate.
      destruct (wr (w_buf s) a x); cbn [bind] in Hs; try discriminate.
      destruct (wr (w_wst s) a (v_pw (pv s) + 1)); cbn [bind] in Hs; try discriminate. injection Hs as <- <-; reflexivity.
  - unfold cstepw in Hs. rewrite Ep in Hs, i_cpc0. rewrite Ga in *. destruct i_cpc0 as (-> & [Hf|[V1 V2]]); [discriminate|].
    unfold load_head in Hs. destruct (Z.ltb_spec j (v_head (cv s))); [injection Hs as <- <-; rewrite Ep; discriminate|].
    destruct (znth (m_head s) j) as [[y w]|] eqn:Ej; [|injection Hs as <- <-; rewrite Ep; discriminate].
    cbn iota in Hs. destruct (i_head0 _ _ _ Ej) as (-> & A2 & A3 & A4 & A5). pose proof (znth_some_range _ _ _ Ej).
    fold Tl in Hs, V1. rewrite (word_eq_iff W (h0 + j) Tl (h0 + j - Tl)) in Hs by (unfold Hpos in *; lia).
    destruct (Z.eqb_spec (h0 + j - Tl) 0); [lia|]. injection Hs as <- <-. discriminate.
Qed.

Lemma init_inv (buf : list T) (n : Z) : zlen buf = cap -> h0 + n <= Hmax ->
  Inv (winit cap (word W h0) buf) [h0] [] n 0.
Proof.
  clear slot Hslot. intros Hb Hm. unfold winit.
  assert (E0 : tpos [h0] 0 = h0) by reflexivity.
  constructor; unfold Hpos; cbn [m_head m_tail w_buf w_wst w_rst pv cv ppc cpc v_head v_tail v_pw v_cr taken wrote pend vbot];
    zl; cbn [Z.add Z.sub Z.opp Pos.add Z.pos_sub]; rewrite ?zlen_zrepeat by lia; rewrite ?E0; try lia; try exact Logic.I.
  - intros j x v Hj. pose proof (znth_some_range _ _ _ Hj) as Hr. zl_in Hr. assert (j = 0) by lia; subst j.
    injection Hj as <- <-. cbn. splits; try lia. f_equal; lia.
  - intros j x v Hj. pose proof (znth_some_range _ _ _ Hj) as Hr. zl_in Hr. assert (j = 0) by lia; subst j.
    injection Hj as <- <-. cbn. splits; try lia.
    intros i r Hi. pose proof (znth_some_range _ _ _ Hi) as Hr2. rewrite zlen_zrepeat in Hr2 by lia. rewrite znth_zrepeat in Hi by lia. injection Hi as <-. left; lia.
  - intros i j Hij Hj. replace i with j by lia. lia.
  - intros x v Hv. injection Hv as <- <-. cbn; lia.
  - intros i r Hi. pose proof (znth_some_range _ _ _ Hi) as Hr2. rewrite zlen_zrepeat in Hr2 by lia. rewrite znth_zrepeat in Hi by lia. injection Hi as <-. left; lia.
  - intros i r Hi. pose proof (znth_some_range _ _ _ Hi) as Hr2. rewrite zlen_zrepeat in Hr2 by lia. rewrite znth_zrepeat in Hi by lia. injection Hi as <-. lia.
Qed.
End Proof.

Lemma static_race_free (T : Type) (W k h : Z) (buf : list T) (sched : list (waction T)) :
  0 <= k < W -> 0 <= h < 2 ^ W -> zlen buf = 2 ^ k ->
  exists s' log, wrun W (2 ^ k) slot_static fixed_orders (winit (2 ^ k) h buf) sched = Ok (s', log) /\
                 replay (2 ^ k) [] log.
Proof.
  intros Hk Hh Hb.
  pose proof (ex_intro _ k (conj Hk eq_refl) : static_valid W (2 ^ k)) as Hv.
  pose proof (static_valid_range _ _ Hv). pose proof (pow2_pos k ltac:(lia)).
  rewrite <- (word_small W h Hh).
  eapply (run_ok W (2 ^ k) h (h + begun_puts sched)); [lia| |cbn; auto|reflexivity|reflexivity|apply init_inv; lia].
  intros p Hp. apply static_slot; [assumption|lia|]. left. apply static_valid_div; assumption.
Qed.

Lemma dyn_race_free (T : Type) (W cap h : Z) (buf : list T) (sched : list (waction T)) :
  0 < cap < 2 ^ W -> 0 <= h < 2 ^ W -> zlen buf = cap ->
  ((cap | 2 ^ W) \/ h + begun_puts sched <= 2 ^ W) ->
  exists s' log, wrun W cap slot_dyn fixed_orders (winit cap h buf) sched = Ok (s', log) /\
                 replay cap [] log.
Proof.
  intros Hc Hh Hb Hl.
  assert (HW : 0 <= W). { destruct (Z.leb_spec 0 W); [assumption|]. rewrite Z.pow_neg_r in * by lia; lia. }
  rewrite <- (word_small W h Hh).
  eapply (run_ok W cap h (h + begun_puts sched)); [lia| |cbn; auto|reflexivity|reflexivity|apply init_inv; lia].
  intros p Hp. apply dyn_slot; [assumption|unfold dyn_valid; lia|lia|].
  destruct Hl; [left; assumption|right; lia].
Qed.

(** Witnesses of races: capacity 1, 32-bit counters. *)
Definition one_put (x : Z) (jh jt : Z) : list (waction Z) := [PBegin x; PStep jh; PStep jt; PStep 0; PStep 0].
Definition one_get (jt jh : Z) : list (waction Z) := [CGet; CStep jt None; CStep jh None; CStep 0 None; CStep 0 None].

Lemma code_get_races : forall W k, 0 <= k < W ->
  wrun W (2 ^ k) slot_static code_orders (winit (2 ^ k) 0 (zrepeat 0 (2 ^ k)))
       (one_put 5 0 0 ++ one_get 0 1) = UB DataRace.
Proof.
  intros W k Hk. pose proof (pow2_pos k ltac:(lia)).
  assert (2 ^ k < 2 ^ W) by (apply Z.pow_lt_mono_r; lia).
  assert (E0 : slot_static (2 ^ k) 0 = Ok 0) by reflexivity.
  assert (EW : word W 0 = 0) by (apply word_small; lia).
  assert (EW1 : word W 1 = 1) by (apply word_small; lia).
  assert (R0 : forall (x : Z), rd (zrepeat x (2 ^ k)) 0 = Ok x) by (intros; apply rd_ok, znth_zrepeat; lia).
  assert (W0 : forall (x y : Z), wr (zrepeat x (2 ^ k)) 0 y = Ok (zupd (zrepeat x (2 ^ k)) 0 y)).
  { intros; apply wr_ok; rewrite zlen_zrepeat; lia. }
  assert (R1 : forall (x y : Z), rd (zupd (zrepeat x (2 ^ k)) 0 y) 0 = Ok y).
  { intros; apply rd_ok, znth_zupd_eq; rewrite zlen_zrepeat; lia. }
  Ltac cc := lazy -[word zrepeat Z.pow wr rd slot_static zupd Z.eqb].
  cc. rewrite EW. replace (0 =? 2 ^ k) with false by lia.
  cc. rewrite E0. cc. rewrite R0. cc. rewrite !W0. cc. rewrite EW1. change (0 =? 1) with false.
  cc. rewrite E0. cc. rewrite R1. reflexivity.
Qed.

(** Each of the five orders of the corrected version is necessary. *)
Lemma weakenings_race : forall ord : orders,
  In ord [Orders false true true true true; Orders true false true true true; Orders true true false true true;
          Orders true true true false true; Orders true true true true false] ->
  exists sched, wrun 32 1 slot_static ord (winit 1 0 [0]) sched = UB DataRace.
Proof.
  intros ord Hin. cbn in Hin. destruct Hin as [<-|[<-|[<-|[<-|[<-|[]]]]]].
  - exists (one_put 5 0 0 ++ one_get 0 1 ++ one_put 6 1 1). vm_compute; reflexivity.
  - exists (one_put 5 0 0 ++ one_get 0 1). vm_compute; reflexivity.
  - exists (one_put 5 0 0 ++ one_get 0 1). vm_compute; reflexivity.
  - exists (one_put 5 0 0 ++ one_get 0 1 ++ one_put 6 1 1). vm_compute; reflexivity.
  - exists (one_put 5 0 0 ++ one_get 0 1 ++ [CReset; CStep 1 None; CStep 0 None] ++ one_put 6 1 2). vm_compute; reflexivity.
Qed.
