(* Proofs for C161: set_read_offset under the C++ memory model. *)
From Verif.Common Require Import Base Lemmas.
From Verif.Spec Require Import FifoLog PolledLog SeekLog.
From Verif.Model Require Import Fifo FifoWeak FifoPolled FifoSeekWeak.
From Verif.Proofs Require Import Fifo FifoWeak FifoPolled.

Lemma seek_puts_nonneg {T} (l : list (saction T)) : 0 <= seek_puts l.
Proof. induction l as [|[? ?| |[j|[]]] l IH]; cbn [seek_puts]; lia. Qed.

Section Proof.
Context {T : Type}.
Variables (W cap h0 Hmax : Z) (slot : Z -> Z -> outcome Z).
Hypothesis Hcap : 0 < cap < 2 ^ W.
Hypothesis Hslot : forall p, h0 <= p < Hmax -> slot cap (word W p) = Ok (p mod cap).
Hypothesis Hh0 : 0 <= h0.
Notation Inv := (Inv (T := T) W cap h0 Hmax code_orders).
Notation wr := (2 ^ W <=? Hmax).
Notation step := (seek_step (T := T) W cap slot code_orders true true 0).

Definition pend_ok (s : seeker T) (seen : Z) : Prop :=
  match k_pend s with
  | None => True
  | Some (off, h) =>
      cpc (p_mem (k_pol s)) = WIdle /\ 0 <= off <= seen /\ seen = p_left (k_pol s) /\ (h < off -> wr = true) /\
      exists t u, znth (m_tail (p_mem (k_pol s))) (zlen (m_tail (p_mem (k_pol s))) - 1) = Some (t, u) /\ seen = word W (h - t)
  end.
Definition KInv (s : seeker T) (tp : list Z) (q : list T) (n seen : Z) : Prop :=
  Inv (p_mem (k_pol s)) tp q n (p_left (k_pol s)) /\ pend_ok s seen.

Lemma pevs_seek (es : list (pevent T)) : forall q seen log, pevs_then cap q es (fun q' => seek_legal cap wr q' seen log) ->
  seek_legal cap wr q seen (map SE es ++ log).
Proof.
  clear. induction es as [|[n| |[x|x|n]] es IH]; intros q seen log H; cbn [pevs_then map app seek_legal] in *; auto.
  - destruct H as (A & B & H); auto.
  - destruct H; auto.
  - destruct H as (q' & -> & H). eauto.
  - destruct H; auto.
Qed.

Lemma producer_keeps w b w' es : producer_action (T := T) (Base b) = true ->
  wstep W cap slot code_orders w b = Ok (w', es) -> cpc w' = cpc w /\ m_tail w' = m_tail w.
Proof.
  clear. destruct b; cbn [producer_action wstep]; try discriminate; intros _ Hs.
  - destruct (ppc w); injection Hs as <- <-; split; reflexivity.
  - unfold pstep in Hs. destruct (ppc w); try (injection Hs as <- <-; split; reflexivity).
    + destruct (load_head _ _ _ _) as [[? ?]|]; injection Hs as <- <-; split; reflexivity.
    + destruct (load_tail _ _ _ _) as [[? ?]|]; [destruct (_ =? _)|]; injection Hs as <- <-; split; reflexivity.
    + destruct (slot cap h) as [a| |]; cbn [bind] in Hs; try discriminate. unfold write_slot in Hs.
      destruct (rd (w_rst w) a); cbn [bind] in Hs; try discriminate. destruct (_ <? _); cbn [bind] in Hs; try discriminate.
      destruct (Base.wr (w_buf w) a x); cbn [bind] in Hs; try discriminate.
      destruct (Base.wr (w_wst w) a (v_pw (pv w) + 1)); cbn [bind] in Hs; try discriminate. injection Hs as <- <-; split; reflexivity.
Qed.

Lemma credit_up w tp q n c : Inv w tp q n 0 -> cpc w = WIdle -> 0 <= c ->
  tpos tp (zlen tp - 1) + c <= h0 + v_pw (cv w) -> tpos tp (zlen tp - 1) + c <= h0 + v_head (cv w) -> Inv w tp q n c.
Proof. clear. intros I E Hc A B. destruct I; constructor; auto; [rewrite E; cbn [ctaking]; split; lia|]. cbn zeta in *. rewrite E in *. auto. Qed.

Lemma seek_step_ok s tp q n seen a :
  KInv s tp q (n + seek_puts [a]) seen -> 0 <= n ->
  exists s' es tp' q' seen', step s a = Ok (s', es) /\ KInv s' tp' q' n seen' /\
     (forall log, seek_legal cap wr q' seen' log -> seek_legal cap wr q seen (es ++ log)).
Proof.
  intros [I P] Hn. destruct s as [pl pd]. cbn [k_pol] in I.
  assert (Hsame : seek_puts [a] = 0 -> exists s' es tp' q' seen', Ok (Seeker pl pd, @nil (sevent T)) = Ok (s', es) /\ KInv s' tp' q' n seen' /\
     (forall log, seek_legal cap wr q' seen' log -> seek_legal cap wr q seen (es ++ log))).
  { intros E. replace (n + seek_puts [a]) with n in I by lia. do 5 eexists; split; [reflexivity|]. split; [split; [exact I|exact P]|]. cbn; auto. }
  destruct a as [off j| |b]; cbn [seek_step k_pol k_pend].
  - destruct pd; [apply Hsame; reflexivity|].
    destruct (cpc (p_mem pl)) eqn:Ep; cbn [idle andb]; try (apply Hsame; reflexivity).
    destruct (Z.leb_spec 0 off); cbn [andb]; [|apply Hsame; reflexivity].
    destruct (Z.leb_spec off (p_left pl + 0)); [|apply Hsame; reflexivity].
    destruct (load_head (cv (p_mem pl)) true (p_mem pl) j) as [[h v]|] eqn:Eh; [|apply Hsame; reflexivity].
    destruct (znth (m_tail (p_mem pl)) (zlen (m_tail (p_mem pl)) - 1)) as [[t u]|] eqn:Et; [|apply Hsame; reflexivity].
    cbn [seek_puts] in I. replace (n + 0) with n in I by lia.
    destruct (count_inv W cap h0 Hmax code_orders Hcap _ _ _ _ _ _ _ _ _ _ I Ep Eh Et) as (I1 & B1 & B2).
    assert (Hoff : off <= word W (h - t) /\ (h < off -> wr = true)).
    { pose proof (tl_bounds W cap h0 Hmax code_orders _ _ _ _ _ I) as (C1 & C2 & C3).
      pose proof (i_max _ _ _ _ _ _ _ _ _ _ I). pose proof (i_hlen _ _ _ _ _ _ _ _ _ _ I). pose proof (i_tplen _ _ _ _ _ _ _ _ _ _ I) as Htp.
      pose proof (i_credit _ _ _ _ _ _ _ _ _ _ I) as [D1 D2]. rewrite Ep in D2. cbn [ctaking] in D2.
      unfold load_head in Eh. destruct (Z.ltb_spec j (v_head (cv (p_mem pl)))); [discriminate|].
      destruct (znth (m_head (p_mem pl)) j) as [[y w]|] eqn:Ej; [|discriminate]. injection Eh as <- <-.
      destruct (i_head _ _ _ _ _ _ _ _ _ _ I _ _ _ Ej) as (-> & _). pose proof (znth_some_range _ _ _ Ej).
      destruct (i_tail _ _ _ _ _ _ _ _ _ _ I _ _ _ Et) as (-> & _).
      rewrite <- Htp in *. set (Tl := tpos tp (zlen tp - 1)) in *.
      pose proof (i_cvhead _ _ _ _ _ _ _ _ _ _ I) as [F1 F2]. fold Tl in F1.
      assert (0 <= pend (ppc (p_mem pl))) by (destruct (ppc (p_mem pl)); cbn; lia).
      rewrite (word_diff W (h0 + j) Tl (h0 + j - Tl)) in * by (unfold Hpos in *; lia).
      split; [lia|]. intros Hlt. destruct (Z.leb_spec (2 ^ W) Hmax); [reflexivity|]. exfalso.
      rewrite word_small in Hlt by (unfold Hpos in *; lia). lia. }
    do 4 eexists; exists (word W (h - t)); split; [reflexivity|]. split; [split; [exact I1|]|].
    + unfold pend_ok. cbn [k_pend k_pol p_mem p_left with_c cpc m_tail]. splits; [reflexivity|lia|lia|reflexivity|tauto|]. exists t, u. split; [exact Et|reflexivity].
    + intros log Hl. cbn [app seek_legal]. splits; try lia. exact Hl.
  - destruct pd as [[off h]|]; [|apply Hsame; reflexivity].
    cbn [seek_puts] in I. replace (n + 0) with n in I by lia.
    unfold pend_ok in P. cbn [k_pend k_pol] in P. destruct P as (Ep & Ho & Es & Hw & t & u & Et & En).
    assert (Hq : seen <= zlen q).
    { pose proof (i_credit _ _ _ _ _ _ _ _ _ _ I) as [D1 D2]. pose proof (i_q _ _ _ _ _ _ _ _ _ _ I). rewrite Ep in D2. cbn [ctaking] in D2.
      pose proof (i_cvhead _ _ _ _ _ _ _ _ _ _ I) as [F1 F2]. unfold Hpos in *. pose proof (zlen_nonneg q). lia. }
    destruct (Z.leb_spec off h).
    + pose proof (i_tplen _ _ _ _ _ _ _ _ _ _ I) as Htp.
      destruct (i_tail _ _ _ _ _ _ _ _ _ _ I _ _ _ Et) as (Eth & _). rewrite <- Htp in Eth.
      set (Tl := tpos tp (zlen tp - 1)) in *.
      pose proof (i_credit _ _ _ _ _ _ _ _ _ _ I) as [D1 D2]. rewrite Ep in D2. cbn [ctaking] in D2. fold Tl in D2.
      pose proof (i_cvhead _ _ _ _ _ _ _ _ _ _ I) as [F1 F2]. fold Tl in F1.
      pose proof (i_cvpos _ _ _ _ _ _ _ _ _ _ I).
      assert (Ew : word W (h - off) = word W (Tl + (seen - off))).
      { rewrite En, Eth. unfold word. set (M := 2 ^ W) in *. pose proof (Z.mod_eq Tl M ltac:(lia)) as Q1.
        pose proof (Z.mod_eq (h - Tl mod M) M ltac:(lia)) as Q2. rewrite Q2, Q1.
        set (k := (h - _) / M). set (l := Tl / M). replace (Tl + (h - (Tl - M * l) - M * k - off)) with (h - off + (l - k) * M) by lia.
        symmetry. apply Z_mod_plus_full. }
      assert (I0 : Inv (p_mem pl) tp q n 0) by (eapply credit_le; [exact I|lia]).
      pose proof (store_tail_inv W cap h0 Hmax code_orders Hcap _ _ _ _ _ (Tl + (seen - off)) _ I0 Ew) as I1. fold Tl in I1.
      specialize (I1 ltac:(lia)). rewrite Ep in I1. specialize (I1 (or_introl eq_refl) (or_introl eq_refl)).
      replace (Tl + (seen - off) - Tl) with (seen - off) in I1 by lia.
      do 5 eexists; split; [reflexivity|]. split; [split; [|exact Logic.I]|].
      * cbn [k_pol p_mem p_left]. destruct (Z.eq_dec off 0) as [->|]; [exact I1|]. apply credit_up; [exact I1|reflexivity|lia| |];
          unfold store_tail; cbn [cv v_pw v_head]; replace (zlen (tp ++ [Tl + (seen - off)]) - 1) with (zlen tp) by (rewrite zlen_app; unfold zlen; cbn; lia);
          rewrite tpos_app_r; lia.
      * intros log Hl. cbn [app seek_legal]. splits; try lia. exact Hl.
    + do 5 eexists; split; [reflexivity|]. split; [split; [|exact Logic.I]|].
      * cbn [k_pol p_mem p_left]. eapply credit_le; [exact I|lia].
      * intros log Hl. cbn [app seek_legal]. split; [apply Hw; lia|exact Hl].
  - assert (Ib : Inv (p_mem pl) tp q (n + polled_puts [b]) (p_left pl)).
    { replace (polled_puts [b]) with (seek_puts [Plain b]); [exact I|]. destruct b as [|[]]; reflexivity. }
    destruct (polled_step_ok W cap h0 Hmax slot Hcap Hslot _ _ _ _ _ Ib Hn) as (p' & es & tp' & q' & E1 & I1 & R1).
    destruct pd as [c|].
    + destruct (producer_action b) eqn:Eb; [|apply Hsame; destruct b as [|[]]; try reflexivity; discriminate].
      rewrite E1; cbn [bind]. do 5 eexists; split; [reflexivity|]. split; [split; [exact I1|]|intros log Hl; apply pevs_seek, R1, Hl].
      unfold pend_ok in *. cbn [k_pend k_pol] in *. destruct c as [off h]. destruct b as [|b]; [discriminate|].
      assert (Ek : p_left p' = p_left pl /\ exists es0, wstep W cap slot code_orders (p_mem pl) b = Ok (p_mem p', es0)).
      { unfold polled_step in E1. destruct b; try discriminate.
        all: destruct (wstep _ _ _ _ _ _) as [[w' es0]| |]; cbn [bind] in E1; try discriminate; injection E1 as <- <-; cbn [p_left p_mem]; eauto. }
      destruct Ek as (El & es0 & Ew). destruct (producer_keeps _ _ _ _ Eb Ew) as [K1 K2]. rewrite El, K1, K2. exact P.
    + rewrite E1; cbn [bind]. do 5 eexists; split; [reflexivity|]. split; [split; [exact I1|exact Logic.I]|intros log Hl; apply pevs_seek, R1, Hl].
Qed.

Lemma seek_run_ok : forall l s tp q seen, KInv s tp q (seek_puts l) seen ->
  exists s' log, seek_run W cap slot code_orders true true 0 s l = Ok (s', log) /\ seek_legal cap wr q seen log.
Proof.
  induction l as [|a l IH]; intros s tp q seen I; cbn [seek_run].
  - do 2 eexists; split; [reflexivity|exact Logic.I].
  - pose proof (seek_puts_nonneg l).
    assert (E : seek_puts (a :: l) = seek_puts l + seek_puts [a]) by (destruct a as [? ?| |[j|[]]]; cbn [seek_puts]; lia).
    rewrite E in I. destruct (seek_step_ok _ _ _ _ _ _ I H) as (s1 & e1 & tp1 & q1 & seen1 & E1 & I1 & R1).
    rewrite E1; cbn [bind]. destruct (IH _ _ _ _ I1) as (s2 & e2 & E2 & R2). rewrite E2; cbn [bind].
    do 2 eexists; split; [reflexivity|]. apply R1; exact R2.
Qed.
End Proof.

Lemma seek_static (T : Type) (W k h : Z) (buf : list T) (l : list (saction T)) :
  0 <= k < W -> 0 <= h < 2 ^ W -> zlen buf = 2 ^ k ->
  exists s' log, seek_run W (2 ^ k) slot_static code_orders true true 0 (seek_init (2 ^ k) h buf) l = Ok (s', log) /\
                 seek_legal (2 ^ k) (2 ^ W <=? h + seek_puts l) [] 0 log.
Proof.
  intros Hk Hh Hb.
  pose proof (ex_intro _ k (conj Hk eq_refl) : static_valid W (2 ^ k)) as Hv.
  pose proof (static_valid_range _ _ Hv). pose proof (pow2_pos k ltac:(lia)).
  enough (K : exists s' log, seek_run W (2 ^ k) slot_static code_orders true true 0 (seek_init (2 ^ k) (word W h) buf) l = Ok (s', log) /\
     seek_legal (2 ^ k) (2 ^ W <=? h + seek_puts l) [] 0 log) by (rewrite (word_small W h Hh) in K; exact K).
  eapply (seek_run_ok W (2 ^ k) h (h + seek_puts l)); [lia| |lia|split; [apply init_inv; lia|exact Logic.I]].
  intros p Hp. apply static_slot; [assumption|lia|]. left. apply static_valid_div; assumption.
Qed.

Lemma seek_dyn (T : Type) (W cap h : Z) (buf : list T) (l : list (saction T)) :
  0 < cap < 2 ^ W -> 0 <= h < 2 ^ W -> zlen buf = cap ->
  ((cap | 2 ^ W) \/ h + seek_puts l <= 2 ^ W) ->
  exists s' log, seek_run W cap slot_dyn code_orders true true 0 (seek_init cap h buf) l = Ok (s', log) /\
                 seek_legal cap (2 ^ W <=? h + seek_puts l) [] 0 log.
Proof.
  intros Hc Hh Hb Hl.
  assert (HW : 0 <= W). { destruct (Z.leb_spec 0 W); [assumption|]. rewrite Z.pow_neg_r in * by lia; lia. }
  enough (K : exists s' log, seek_run W cap slot_dyn code_orders true true 0 (seek_init cap (word W h) buf) l = Ok (s', log) /\
     seek_legal cap (2 ^ W <=? h + seek_puts l) [] 0 log) by (rewrite (word_small W h Hh) in K; exact K).
  eapply (seek_run_ok W cap h (h + seek_puts l)); [lia| |lia|split; [apply init_inv; lia|exact Logic.I]].
  intros p Hp. apply dyn_slot; [assumption|unfold dyn_valid; lia|lia|].
  destruct Hl; [left; assumption|right; lia].
Qed.

(** Each order and the discipline are needed. *)
Definition sput (x jh jt : Z) : list (saction Z) := map (fun a => Plain (Base a)) [PBegin x; PStep jh; PStep jt; PStep 0; PStep 0].
Definition sget (jt jh : Z) : list (saction Z) := map (fun a => Plain (Base a)) [CGet; CStep jt None; CStep jh None; CStep 0 None; CStep 0 None].
Definition unsynchronised {T} (x y : T) : list (saction T) :=
  map (fun a => Plain (Base a)) [PBegin x; PStep 0; PStep 0; PStep 0; PStep 0] ++ [Plain (Count 1)] ++
  map (fun a => Plain (Base a)) [PBegin y; PStep 1; PStep 0; PStep 0; PStep 0] ++ [SeekLoad 1 2; SeekStore] ++
  map (fun a => Plain (Base a)) [CGet; CStep 1 None; CStep 2 None; CStep 0 None].
Ltac lz1 := lazy -[word zrepeat Z.pow wr rd zupd Z.eqb Z.sub Z.add Z.leb].
Ltac lz := lz1; repeat (first [progress change (1 - 1) with 0|progress change (0 + 1) with 1|progress change (1 + 1) with 2|progress change (1 + 0) with 1|progress change (1 <=? 1) with true|progress change (0 <=? 1) with true]; lz1).
Lemma relaxed_load (T : Type) (W cap h i j : Z) slot (buf : list T) (x y : T) :
  1 < cap < 2 ^ W -> 0 <= h -> h + 2 < 2 ^ W -> slot cap h = Ok i -> slot cap (h + 1) = Ok j -> 0 <= i < cap -> 0 <= j < cap -> i <> j -> zlen buf = cap ->
  seek_run W cap slot code_orders false true 0 (seek_init cap h buf) (unsynchronised x y) = UB DataRace.
Proof.
  intros Hc Hh H2 Es Es2 Hi Hj Hij Hb.
  assert (w0 : word W (h - h) = 0) by (rewrite Z.sub_diag; apply word_small; lia).
  assert (w1 : word W (h + 1) = h + 1) by (apply word_small; lia).
  assert (w2 : word W (h + 1 + 1) = h + 2) by (rewrite word_small; lia).
  assert (w3 : word W (h + 1 - h) = 1) by (rewrite word_small; lia).
  assert (w4 : word W (h + 2 - h) = 2) by (rewrite word_small; lia).
  assert (w5 : word W (h + 2 - 1) = h + 1) by (rewrite word_small; lia).
  assert (R0 : rd (zrepeat 0 cap) i = Ok 0) by (apply rd_ok, znth_zrepeat; lia).
  assert (R0' : rd (zrepeat 0 cap) j = Ok 0) by (apply rd_ok, znth_zrepeat; lia).
  assert (W0 : forall v, wr (zrepeat 0 cap) i v = Ok (zupd (zrepeat 0 cap) i v)) by (intros; apply wr_ok; rewrite zlen_zrepeat; lia).
  assert (W0' : forall v u, wr (zupd (zrepeat 0 cap) i u) j v = Ok (zupd (zupd (zrepeat 0 cap) i u) j v)) by (intros; apply wr_ok; rewrite zlen_zupd, zlen_zrepeat; lia).
  assert (W1 : wr buf i x = Ok (zupd buf i x)) by (apply wr_ok; lia).
  assert (W2 : wr (zupd buf i x) j y = Ok (zupd (zupd buf i x) j y)) by (apply wr_ok; rewrite zlen_zupd; lia).
  assert (R2 : forall u v, rd (zupd (zupd (zrepeat 0 cap) i u) j v) j = Ok v) by (intros; apply rd_ok, znth_zupd_eq; rewrite zlen_zupd, zlen_zrepeat; lia).
  assert (L2 : (1 <=? h + 2) = true) by lia. assert (N1 : (h + 1 =? h + 2) = false) by lia. assert (c0 : (0 =? cap) = false) by lia. assert (c1 : (1 =? cap) = false) by lia.
  unfold unsynchronised, seek_init, polled_init, winit.
  lz. rewrite ?w0, ?c0. lz. rewrite Es. lz. rewrite R0. lz. rewrite W1. lz. rewrite W0. lz. rewrite w1. lz.
  rewrite ?w3, ?c1. lz. rewrite Es2. lz. rewrite R0'. lz. rewrite W2. lz. rewrite W0'. lz. rewrite ?w2. lz.
  rewrite ?w4. lz. rewrite L2. lz. rewrite ?w5. lz. rewrite N1. lz. rewrite Es2. lz. rewrite R2. reflexivity.
Qed.
Lemma relaxed_load_static (T : Type) (W k h : Z) (buf : list T) (x y : T) : 0 < k < W -> 0 <= h -> h + 2 < 2 ^ W -> zlen buf = 2 ^ k ->
  seek_run W (2 ^ k) slot_static code_orders false true 0 (seek_init (2 ^ k) h buf) (unsynchronised x y) = UB DataRace.
Proof.
  intros Hk Hh H2 Hb. pose proof (pow2_pos k ltac:(lia)). assert (2 ^ k < 2 ^ W) by (apply Z.pow_lt_mono_r; lia). assert (2 ^ 1 <= 2 ^ k) by (apply Z.pow_le_mono_r; lia).
  assert (ES : forall p, slot_static (2 ^ k) p = Ok (p mod 2 ^ k)) by (intros p; unfold slot_static; replace (2 ^ k - 1) with (Z.ones k) by (rewrite Z.ones_equiv; lia); rewrite Z.land_ones by lia; reflexivity).
  apply relaxed_load with (i := h mod 2 ^ k) (j := (h + 1) mod 2 ^ k); auto; try lia; try (apply Z.mod_pos_bound; lia).
  intros E. pose proof (Z.div_mod h (2 ^ k) ltac:(lia)). pose proof (Z.div_mod (h + 1) (2 ^ k) ltac:(lia)). assert (E1 : (2 ^ k) * ((h + 1) / (2 ^ k) - h / (2 ^ k)) = 1) by lia. apply (Z.mul_eq_1) in E1. lia.
Qed.
Lemma relaxed_load_dyn (T : Type) (W cap h : Z) (buf : list T) (x y : T) : 1 < cap < 2 ^ W -> 0 <= h -> h + 2 < 2 ^ W -> zlen buf = cap ->
  seek_run W cap slot_dyn code_orders false true 0 (seek_init cap h buf) (unsynchronised x y) = UB DataRace.
Proof.
  intros Hc Hh H2 Hb. assert (ES : forall p, slot_dyn cap p = Ok (p mod cap)) by (intros p; unfold slot_dyn; replace (cap =? 0) with false by lia; reflexivity).
  apply relaxed_load with (i := h mod cap) (j := (h + 1) mod cap); auto; try (apply Z.mod_pos_bound; lia).
  intros E. pose proof (Z.div_mod h cap ltac:(lia)). pose proof (Z.div_mod (h + 1) cap ltac:(lia)). assert (E1 : cap * ((h + 1) / cap - h / cap) = 1) by lia. apply (Z.mul_eq_1) in E1. lia.
Qed.
Lemma seek_relaxed_store_races : exists l, seek_run 32 1 slot_static code_orders true false 0 (seek_init 1 0 [0]) l = UB DataRace.
Proof. exists (sput 5 0 0 ++ [Plain (Count 1)] ++ sget 0 1 ++ [SeekLoad 0 1; SeekStore] ++ sput 6 1 2). vm_compute. reflexivity. Qed.
Lemma seek_back_races : exists l, seek_run 32 2 slot_static code_orders true true 1 (seek_init 2 0 [0; 0]) l = UB DataRace.
Proof.
  exists (sput 5 0 0 ++ [Plain (Count 1)] ++ sget 0 1 ++ sput 6 1 0 ++ map (fun a => Plain (Base a)) [PBegin 7; PStep 2; PStep 1] ++
     [Plain (Count 2)] ++ [SeekLoad 2 2; SeekStore] ++ map (fun a => Plain (Base a)) [PStep 0] ++ sget 2 2).
  vm_compute. reflexivity.
Qed.
