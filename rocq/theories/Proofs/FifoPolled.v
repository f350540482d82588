(* Proofs for C141: the polled consumer. *)
From Verif.Common Require Import Base Lemmas.
From Verif.Spec Require Import FifoLog PolledLog.
From Verif.Model Require Import Fifo FifoWeak FifoPolled.
From Verif.Proofs Require Import Fifo FifoWeak.

Lemma polled_puts_nonneg {T} (l : list (paction T)) : 0 <= polled_puts l.
Proof. induction l as [|[j|[]] l IH]; cbn [polled_puts]; lia. Qed.

Section Proof.
Context {T : Type}.
Variables (W cap h0 Hmax : Z) (slot : Z -> Z -> outcome Z).
Hypothesis Hcap : 0 < cap < 2 ^ W.
Hypothesis Hslot : forall p, h0 <= p < Hmax -> slot cap (word W p) = Ok (p mod cap).
Notation Inv := (Inv (T := T) W cap h0 Hmax code_orders).

(** The events [es] turn a queue holding [q] into one of which [K] holds. *)
Fixpoint pevs_then (q : list T) (es : list (pevent T)) (K : list T -> Prop) : Prop :=
  match es with
  | [] => K q
  | Counted n :: r => 0 <= n <= zlen q /\ zlen q <= cap /\ pevs_then q r K
  | CameBackEmpty :: _ => False
  | Eff (EffPut x) :: r => zlen q < cap /\ pevs_then (q ++ [x]) r K
  | Eff (EffGot x) :: r => exists q', q = x :: q' /\ pevs_then q' r K
  | Eff (EffSkip n) :: r => 0 <= n <= zlen q /\ pevs_then (skipn (Z.to_nat n) q) r K
  end.
Lemma pevs_legal es : forall q log, pevs_then q es (fun q' => polled_legal cap q' log) -> polled_legal cap q (es ++ log).
Proof.
  clear. induction es as [|[n| |[x|x|n]] es IH]; intros q log H; cbn [pevs_then app polled_legal] in *; auto.
  - destruct H as (A & B & H); auto.
  - destruct H; auto.
  - destruct H as (q' & -> & H). eauto.
  - destruct H; auto.
Qed.
Lemma effs_pevs (es : list (effect T)) (K : list T -> Prop) : forall q,
  effs_then cap q es K -> pevs_then q (map Eff es) K.
Proof.
  clear. induction es as [|[x|x|n] es IH]; intros q H; cbn [effs_then map app pevs_then] in *; auto.
  - destruct H; auto.
  - destruct H as (q' & -> & H). eauto.
  - destruct H; auto.
Qed.

Lemma code_ok : put_tail_acq code_orders = true /\ put_head_rel code_orders = true /\ get_tail_rel code_orders = true.
Proof. cbn; auto. Qed.

Lemma polled_step_ok s tp q n a :
  Inv (p_mem s) tp q (n + polled_puts [a]) (p_left s) -> 0 <= n ->
  exists s' es tp' q', polled_step W cap slot code_orders 0 s a = Ok (s', es) /\ Inv (p_mem s') tp' q' n (p_left s') /\
     (forall K : list T -> Prop, K q' -> pevs_then q es K).
Proof.
  destruct s as [w c]; cbn [p_mem p_left]. intros I Hn.
  pose proof (proj1 (i_credit _ _ _ _ _ _ _ _ _ _ I)) as Hc0.
  assert (Hsame : n + polled_puts [a] = n -> exists s' es tp' q', Ok (Polled w c, @nil (pevent T)) = Ok (s', es) /\ Inv (p_mem s') tp' q' n (p_left s') /\
     (forall K : list T -> Prop, K q' -> pevs_then q es K)).
  { intros E. rewrite E in I. do 4 eexists; split; [reflexivity|]. split; [exact I|]. cbn; auto. }
  assert (Step : forall b cr', polled_puts [Base b] = begun_puts [b] -> a = Base b -> call_ok code_orders b c cr' ->
     exists w' es tp' q', wstep W cap slot code_orders w b = Ok (w', es) /\ Inv w' tp' q' n cr' /\
       (forall K : list T -> Prop, K q' -> pevs_then q (map Eff es) K)).
  { intros b cr' E -> Hc. rewrite E in I.
    destruct (step_ok W cap h0 Hmax slot code_orders Hcap Hslot code_ok _ _ _ _ _ _ _ I Hn Hc) as (w' & es & tp' & q' & E1 & I1 & R1).
    do 4 eexists; split; [exact E1|]. split; [exact I1|]. intros K Hl. apply effs_pevs, R1, Hl. }
  assert (Other : forall b, polled_puts [Base b] = begun_puts [b] -> a = Base b -> call_ok code_orders b c c ->
     exists s' es tp' q', (let* (w', es) := wstep W cap slot code_orders w b in
      Ok (Polled w' c, (if asking (cpc w) && idle (cpc w') then [CameBackEmpty] else []) ++ map Eff es)) = Ok (s', es) /\ Inv (p_mem s') tp' q' n (p_left s') /\
     (forall K : list T -> Prop, K q' -> pevs_then q es K)).
  { intros b E Ea Hc. destruct (Step b c E Ea Hc) as (w' & es & tp' & q' & E1 & I1 & R1).
    assert (En : asking (cpc w) && idle (cpc w') = false).
    { destruct (cpc w) eqn:Ep; cbn [asking andb]; try reflexivity.
      assert (Hne : cpc w' <> WIdle) by (eapply get_not_empty; [exact Hcap|exact Hslot|exact I|reflexivity|exact Ep|exact E1]).
      destruct (cpc w'); try reflexivity. congruence. }
    rewrite E1; cbn [bind]. rewrite En. do 4 eexists; split; [reflexivity|]. split; [exact I1|exact R1]. }
  destruct a as [j|[x| | | |j|j r]]; cbn [polled_step p_mem p_left].
  - destruct (cpc w) eqn:Ep; cbn [idle]; try (apply Hsame; cbn; lia).
    unfold count. destruct (load_head (cv w) true w j) as [[h v]|] eqn:Eh; [|apply Hsame; cbn; lia].
    destruct (znth (m_tail w) (zlen (m_tail w) - 1)) as [[t u]|] eqn:Et; [|apply Hsame; cbn; lia].
    destruct (count_inv W cap h0 Hmax code_orders Hcap _ _ _ _ _ _ _ _ _ _ I Ep Eh Et) as (I1 & B1 & B2).
    do 4 eexists; split; [reflexivity|]. split.
    + cbn [p_mem p_left]. cbn [polled_puts] in I1. replace (n + 0) with n in I1 by lia. exact I1.
    + intros K Hl. cbn [pevs_then]. auto.
  - apply Other; reflexivity.
  - destruct (cpc w) eqn:Ep; cbn [idle andb]; try (apply Hsame; cbn; lia).
    destruct (Z.ltb_spec (- 0) c); [|apply Hsame; cbn; lia].
    destruct (Step CGet (c - 1) eq_refl eq_refl ltac:(cbn; lia)) as (w' & es & tp' & q' & E1 & I1 & R1).
    rewrite E1; cbn [bind]. do 4 eexists; split; [reflexivity|]. split; [exact I1|exact R1].
  - destruct (cpc w) eqn:Ep; cbn [idle andb]; try (apply Hsame; cbn; lia).
    destruct (Step CRemove (Z.max 0 (c - 1)) eq_refl eq_refl ltac:(cbn; lia)) as (w' & es & tp' & q' & E1 & I1 & R1).
    rewrite E1; cbn [bind]. do 4 eexists; split; [reflexivity|]. split; [exact I1|exact R1].
  - apply Hsame; cbn; lia.
  - apply Other; reflexivity.
  - apply Other; reflexivity.
Qed.

Lemma polled_run_ok : forall l s tp q, Inv (p_mem s) tp q (polled_puts l) (p_left s) ->
  exists s' log, polled_run W cap slot code_orders 0 s l = Ok (s', log) /\ polled_legal cap q log.
Proof.
  induction l as [|a l IH]; intros s tp q I; cbn [polled_run].
  - do 2 eexists; split; [reflexivity|exact Logic.I].
  - pose proof (polled_puts_nonneg l).
    assert (E : polled_puts (a :: l) = polled_puts l + polled_puts [a]) by (destruct a as [j|[]]; cbn [polled_puts]; lia).
    rewrite E in I. destruct (polled_step_ok _ _ _ _ _ I H) as (s1 & e1 & tp1 & q1 & E1 & I1 & R1).
    rewrite E1; cbn [bind]. destruct (IH _ _ _ I1) as (s2 & e2 & E2 & R2). rewrite E2; cbn [bind].
    do 2 eexists; split; [reflexivity|]. apply pevs_legal, R1; exact R2.
Qed.
End Proof.

Lemma polled_static (T : Type) (W k h : Z) (buf : list T) (l : list (paction T)) :
  0 <= k < W -> 0 <= h < 2 ^ W -> zlen buf = 2 ^ k ->
  exists s' log, polled_run W (2 ^ k) slot_static code_orders 0 (polled_init (2 ^ k) h buf) l = Ok (s', log) /\
                 polled_legal (2 ^ k) [] log.
Proof.
  intros Hk Hh Hb.
  pose proof (ex_intro _ k (conj Hk eq_refl) : static_valid W (2 ^ k)) as Hv.
  pose proof (static_valid_range _ _ Hv). pose proof (pow2_pos k ltac:(lia)).
  rewrite <- (word_small W h Hh).
  eapply (polled_run_ok W (2 ^ k) h (h + polled_puts l)); [lia| |apply init_inv; lia].
  intros p Hp. apply static_slot; [assumption|lia|]. left. apply static_valid_div; assumption.
Qed.

Lemma polled_dyn (T : Type) (W cap h : Z) (buf : list T) (l : list (paction T)) :
  0 < cap < 2 ^ W -> 0 <= h < 2 ^ W -> zlen buf = cap ->
  ((cap | 2 ^ W) \/ h + polled_puts l <= 2 ^ W) ->
  exists s' log, polled_run W cap slot_dyn code_orders 0 (polled_init cap h buf) l = Ok (s', log) /\
                 polled_legal cap [] log.
Proof.
  intros Hc Hh Hb Hl.
  assert (HW : 0 <= W). { destruct (Z.leb_spec 0 W); [assumption|]. rewrite Z.pow_neg_r in * by lia; lia. }
  rewrite <- (word_small W h Hh).
  eapply (polled_run_ok W cap h (h + polled_puts l)); [lia| |apply init_inv; lia].
  intros p Hp. apply dyn_slot; [assumption|unfold dyn_valid; lia|lia|].
  destruct Hl; [left; assumption|right; lia].
Qed.

(** One item announced and taken, then another one taken without asking. *)
Definition greedy {T} (x : T) : list (paction T) :=
  map Base [PBegin x; PStep 0; PStep 0; PStep 0; PStep 0; CGet; CStep 0 None; CStep 1 None; CStep 0 None].
Lemma greedy_races (T : Type) (W cap h i : Z) slot (buf : list T) (x : T) :
  0 < cap < 2 ^ W -> 0 <= h < 2 ^ W -> slot cap h = Ok i -> 0 <= i < cap -> zlen buf = cap ->
  polled_run W cap slot code_orders 1 (polled_init cap h buf) (greedy x) = UB DataRace.
Proof.
  intros Hc Hh Es Hi Hb.
  assert (EW : word W (h - h) = 0) by (rewrite Z.sub_diag; apply word_small; lia).
  assert (Hn : (h =? word W (h + 1)) = false).
  { apply Z.eqb_neq. unfold word. destruct (Z.eq_dec (h + 1) (2 ^ W)) as [E|E]; [rewrite E, Z.mod_same by lia; lia|rewrite Z.mod_small by lia; lia]. }
  assert (R0 : rd (zrepeat 0 cap) i = Ok 0) by (apply rd_ok, znth_zrepeat; lia).
  assert (W0 : forall y, wr (zrepeat 0 cap) i y = Ok (zupd (zrepeat 0 cap) i y)) by (intros; apply wr_ok; rewrite zlen_zrepeat; lia).
  assert (W1 : wr buf i x = Ok (zupd buf i x)) by (apply wr_ok; lia).
  assert (R1 : forall y : Z, rd (zupd (zrepeat 0 cap) i y) i = Ok y) by (intros; apply rd_ok, znth_zupd_eq; rewrite zlen_zrepeat; lia).
  unfold greedy, polled_init, winit.
  lazy -[word zrepeat Z.pow wr rd zupd Z.eqb Z.sub Z.add]. 
  rewrite EW. replace (0 =? cap) with false by lia.
  lazy -[word zrepeat Z.pow wr rd zupd Z.eqb Z.sub Z.add].
  rewrite Es. lazy -[word zrepeat Z.pow wr rd zupd Z.eqb Z.sub Z.add]. rewrite R0. lazy -[word zrepeat Z.pow wr rd zupd Z.eqb Z.sub Z.add].
  rewrite W1. lazy -[word zrepeat Z.pow wr rd zupd Z.eqb Z.sub Z.add]. rewrite W0. lazy -[word zrepeat Z.pow wr rd zupd Z.eqb Z.sub Z.add].
  rewrite Hn. lazy -[word zrepeat Z.pow wr rd zupd Z.eqb Z.sub Z.add]. rewrite Es. lazy -[word zrepeat Z.pow wr rd zupd Z.eqb Z.sub Z.add].
  rewrite R1. reflexivity.
Qed.
Lemma greedy_static (T : Type) (W k h : Z) (buf : list T) (x : T) : 0 <= k < W -> 0 <= h < 2 ^ W -> zlen buf = 2 ^ k ->
  polled_run W (2 ^ k) slot_static code_orders 1 (polled_init (2 ^ k) h buf) (greedy x) = UB DataRace.
Proof.
  intros Hk Hh Hb. pose proof (pow2_pos k ltac:(lia)). assert (2 ^ k < 2 ^ W) by (apply Z.pow_lt_mono_r; lia).
  apply greedy_races with (i := h mod 2 ^ k); auto; try lia.
  - unfold slot_static. replace (2 ^ k - 1) with (Z.ones k) by (rewrite Z.ones_equiv; lia). rewrite Z.land_ones by lia. reflexivity.
Qed.
Lemma greedy_dyn (T : Type) (W cap h : Z) (buf : list T) (x : T) : 0 < cap < 2 ^ W -> 0 <= h < 2 ^ W -> zlen buf = cap ->
  polled_run W cap slot_dyn code_orders 1 (polled_init cap h buf) (greedy x) = UB DataRace.
Proof.
  intros Hc Hh Hb. apply greedy_races with (i := h mod cap); auto.
  - unfold slot_dyn. replace (cap =? 0) with false by lia. reflexivity.
  - apply Z.mod_pos_bound. lia.
Qed.
