From Verif.Common Require Import Base Lemmas.
From Verif.Spec Require Import History PollSpec.
From Verif.Model Require Import Poll.
From Verif.Proofs Require Import History.

Section PE.
Variables W period : Z.
Hypotheses (HW : 0 < W) (Hp : 0 <= period < 2 ^ W).
Lemma pe_step_correct L T : 0 <= L <= T -> T < L + 2 ^ W ->
  (T / 2 ^ W = L / 2 ^ W \/ L / 2 ^ W < (L + period) / 2 ^ W) ->
  pe_poll W period (L mod 2 ^ W) (T mod 2 ^ W) = if period <=? T - L then (T mod 2 ^ W, true) else (L mod 2 ^ W, false).
Proof.
  intros HL HT Hg. unfold pe_poll, word. set (M := 2 ^ W) in *. assert (HM : 0 < M) by (apply Z.pow_pos_nonneg; lia).
  pose proof (Z.div_mod L M ltac:(lia)) as DL. pose proof (Z.div_mod T M ltac:(lia)) as DT.
  pose proof (Z.mod_pos_bound L M HM). pose proof (Z.mod_pos_bound T M HM).
  pose proof (Z.div_le_mono L T M HM ltac:(lia)).
  set (l := L mod M) in *. set (t := T mod M) in *. set (a := L / M) in *. set (b := T / M) in *.
  assert (Hb : b = a \/ b = a + 1) by nia.
  destruct (Z.ltb_spec t l).
  - assert (b = a + 1) by nia. destruct Hg as [Hg|Hg]; [lia|].
    pose proof (Z.div_mod (L + period) M ltac:(lia)) as DP. pose proof (Z.mod_pos_bound (L + period) M HM).
    assert ((L + period) / M = a + 1) as E by nia. rewrite E in DP.
    assert (Em : (l + period) mod M = l + period - M).
    { symmetry. apply (Z.mod_unique_pos _ _ 1); nia. }
    rewrite Em, Z.geb_leb. destruct (Z.leb_spec (l + period - M) t), (Z.leb_spec period (T - L)); nia || reflexivity.
  - assert (b = a) by nia. rewrite Z.geb_leb. destruct (Z.leb_spec period (t - l)), (Z.leb_spec period (T - L)); nia || reflexivity.
Qed.
Lemma pe_run ts : forall L, 0 <= L -> timely W period L ts ->
  snd (srun (pe_poll W period) (L mod 2 ^ W) (map (fun t => t mod 2 ^ W) ts)) = firings period L ts.
Proof.
  induction ts as [|t ts IH]; intros L HL Ht; [reflexivity|]. cbn [timely] in Ht. destruct Ht as (H1 & H2 & H3).
  cbn [map srun firings]. rewrite pe_step_correct by (lia || assumption).
  destruct (period <=? t - L).
  - specialize (IH t ltac:(lia) H3). destruct (srun _ _ _) as [s rs]. cbn [snd] in *. rewrite IH. reflexivity.
  - specialize (IH L HL H3). destruct (srun _ _ _) as [s rs]. cbn [snd] in *. rewrite IH. reflexivity.
Qed.
(* no wrap at all *)
Lemma pe_run_nowrap ts : forall L, 0 <= L -> (forall t, In t ts -> L <= t < 2 ^ W) -> (forall a b x y, ts = a ++ x :: y :: b -> x <= y) ->
  snd (srun (pe_poll W period) L ts) = firings period L ts.
Proof.
  induction ts as [|t ts IH]; intros L HL Hb Hs; [reflexivity|].
  pose proof (Hb t (or_introl eq_refl)) as Ht. cbn [srun firings].
  assert (E : pe_poll W period L t = if period <=? t - L then (t, true) else (L, false)).
  { unfold pe_poll. destruct (Z.ltb_spec t L); [lia|]. rewrite Z.geb_leb. reflexivity. }
  rewrite E.
  assert (Hmono : forall l s, (forall a b x y, s :: l = a ++ x :: y :: b -> x <= y) -> forall z, In z l -> s <= z).
  { induction l as [|u l IHl]; intros s Hl z Hz; [destruct Hz|]. destruct Hz as [->|Hz].
    - apply (Hl [] l s z). reflexivity.
    - transitivity u; [apply (Hl [] l s u); reflexivity|]. apply IHl; [|assumption]. intros a b x y E'. apply (Hl (s :: a) b x y). rewrite E'. reflexivity. }
  assert (Hs' : forall a b x y, ts = a ++ x :: y :: b -> x <= y) by (intros a b x y E'; apply (Hs (t :: a) b x y); rewrite E'; reflexivity).
  destruct (period <=? t - L).
  - specialize (IH t ltac:(lia)). destruct (srun (pe_poll W period) t ts) as [s rs]. cbn [snd] in *. f_equal. apply IH; [|exact Hs'].
    intros z Hz. split; [apply (Hmono ts t Hs z Hz)|apply (Hb z (or_intror Hz))].
  - specialize (IH L HL). destruct (srun (pe_poll W period) L ts) as [s rs]. cbn [snd] in *. f_equal. apply IH; [|exact Hs'].
    intros z Hz. apply (Hb z (or_intror Hz)).
Qed.
(* the missed expiry *)
Lemma pe_miss L T : 0 <= L -> (L / 2 ^ W + 1) * 2 ^ W <= T < L + 2 ^ W + period -> L mod 2 ^ W + period < 2 ^ W ->
  period <= T - L /\ pe_poll W period (L mod 2 ^ W) (T mod 2 ^ W) = (L mod 2 ^ W, false).
Proof.
  intros HL HT Hn. unfold pe_poll, word. set (M := 2 ^ W) in *. assert (HM : 0 < M) by (apply Z.pow_pos_nonneg; lia).
  pose proof (Z.div_mod L M ltac:(lia)) as DL. pose proof (Z.mod_pos_bound L M HM). set (l := L mod M) in *. set (a := L / M) in *.
  split; [nia|]. assert (ET : T mod M = T - (a + 1) * M) by (symmetry; apply (Z.mod_unique_pos _ _ (a + 1)); nia).
  rewrite ET. rewrite (Z.mod_small (l + period)) by lia. rewrite !Z.geb_leb.
  destruct (Z.ltb_spec (T - (a + 1) * M) l).
  - destruct (Z.leb_spec (l + period) (T - (a + 1) * M)); [lia|reflexivity].
  - destruct (Z.leb_spec period (T - (a + 1) * M - l)); [nia|reflexivity].
Qed.
Lemma pe_signed last now : 0 <= last <= now -> now < 2 ^ (W - 1) ->
  pe_poll_s W period last now = Ok (if period <=? now - last then (now, true) else (last, false)).
Proof using.
  clear HW Hp. intros H1 H2. unfold pe_poll_s. destruct (Z.ltb_spec now last); [lia|]. unfold schk.
  assert (Hb : ((- 2 ^ (W - 1) <=? now - last) && (now - last <? 2 ^ (W - 1))) = true) by (apply andb_true_intro; split; [apply Z.leb_le|apply Z.ltb_lt]; lia).
  rewrite Hb. cbn [bind]. rewrite Z.geb_leb. reflexivity.
Qed.
Lemma pe_signed_wrap last now : now < last -> 2 ^ (W - 1) <= last + period -> pe_poll_s W period last now = UB SignedOverflow.
Proof using.
  clear HW Hp. intros H1 H2. unfold pe_poll_s. destruct (Z.ltb_spec now last); [|lia]. unfold schk.
  destruct (Z.ltb_spec (last + period) (2 ^ (W - 1))); [lia|]. rewrite andb_false_r. reflexivity.
Qed.
End PE.

(* ---------------- PollChange ---------------- *)
Section PChange.
Variable ticks : Z.
Lemma reading_snoc h o : reading ticks (h ++ [o]) =
  match o with
  | PPoll now s => if ticks <=? (now - fst (reading ticks h)) mod 2 ^ 32 then (now, s) else reading ticks h
  | PForce => (0, snd (reading ticks h))
  | _ => reading ticks h
  end.
Proof. unfold reading. rewrite fold_left_app. cbn [fold_left]. destruct (fold_left _ h _) as [l v]. destruct o; reflexivity. Qed.
Lemma pc_spec h : let s := after (pc_step ticks) pc0 h in
  (last_update_time s, current_state s) = reading ticks h /\
  (change_detected s = true <-> since (notices ticks) (fun _ o => o = PTake) h).
Proof.
  induction h as [|o h IH] using rev_ind; cbv zeta in *.
  - split; [reflexivity|]. cbn. split; [discriminate|]. intros H; exfalso; eapply since_nil; exact H.
  - rewrite after_snoc, reading_snoc, since_snoc. destruct IH as [I1 I2]. rewrite <- I2. unfold notices, due. rewrite <- I1.
    destruct (after (pc_step ticks) pc0 h) as [c d l]. cbn [current_state change_detected last_update_time fst snd].
    destruct o as [| |now s|]; cbn [pc_step].
    + cbn. split; [reflexivity|]. intuition.
    + cbn. split; [reflexivity|]. split; [|intros [[|(now & s & E & _)]|[]]; [discriminate|discriminate|assumption]].
      intros ->. right. split; [reflexivity|discriminate].
    + unfold word. cbn [last_update_time current_state]. rewrite Z.geb_leb. destruct (Z.leb_spec ticks ((now - l) mod 2 ^ 32)) as [Hd|Hd].
      * destruct (Bool.eqb c s) eqn:E; cbn [fst current_state change_detected last_update_time].
        -- apply eqb_prop in E. subst s. split; [reflexivity|]. split; [intros ->; right; split; [reflexivity|discriminate]|].
           intros [[|(n' & s' & E' & _ & D)]|[]]; [discriminate| |assumption]. injection E' as <- <-. congruence.
        -- apply eqb_false_iff in E. split; [reflexivity|]. split; [|reflexivity]. intros _. left. right. exists now, s. splits; auto.
      * cbn [fst current_state change_detected last_update_time]. split; [reflexivity|]. split; [intros ->; right; split; [reflexivity|discriminate]|].
        intros [[|(n' & s' & E' & D & _)]|[]]; [discriminate| |assumption]. injection E' as <- <-. lia.
    + destruct d; cbn [fst current_state change_detected last_update_time]; (split; [reflexivity|]).
      * split; [discriminate|]. intros [[|(n' & s' & E' & _)]|[_ D]]; [discriminate|discriminate|]. congruence.
      * split; [discriminate|]. intros [[|(n' & s' & E' & _)]|[D _]]; [discriminate|discriminate|]. congruence.
Qed.
Lemma pc_answers h now s :
  (answer (pc_step ticks) pc0 h PTake = true <-> since (notices ticks) (fun _ o => o = PTake) h) /\
  (answer (pc_step ticks) pc0 h (PPoll now s) = true <-> due ticks (fst (reading ticks h)) now).
Proof.
  destruct (pc_spec h) as [H1 H2]. cbv zeta in *. rewrite <- H2, <- H1. unfold answer, due.
  destruct (after (pc_step ticks) pc0 h) as [c d l]. cbn [pc_step current_state change_detected last_update_time fst]. split.
  - destruct d; cbn; split; auto.
  - unfold word. rewrite Z.geb_leb. destruct (Z.leb_spec ticks ((now - l) mod 2 ^ 32)); [destruct (Bool.eqb c s)|]; cbn [snd]; split; auto; try lia; discriminate.
Qed.
Lemma due_real T L : 0 <= T - L < 2 ^ 32 -> (due ticks (L mod 2 ^ 32) (T mod 2 ^ 32) <-> ticks <= T - L).
Proof. intros H. unfold due. rewrite <- Zminus_mod. rewrite Z.mod_small by exact H. reflexivity. Qed.
Lemma force_due h now : 0 <= now < 2 ^ 32 -> (due ticks (fst (reading ticks (h ++ [PForce]))) now <-> ticks <= now).
Proof. intros H. rewrite reading_snoc. cbn [fst]. unfold due. rewrite Z.sub_0_r, Z.mod_small by exact H. reflexivity. Qed.
End PChange.
