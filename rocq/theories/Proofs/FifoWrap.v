From Verif.Common Require Import Base Lemmas.
From Verif.Spec Require Import Queue Tape.
From Verif.Model Require Import Fifo FifoTape.
From Verif.Proofs Require Import Fifo.
Ltac Zify.zify_post_hook ::= Z.div_mod_to_equations.

Section Wrap.
Context {T : Type}.
Variables (W cap : Z) (dflt a b : T).
Hypothesis HW : 0 <= W.
Hypothesis Hcap : 0 < cap < 2 ^ W.

Fixpoint pairs (n : nat) : list (qop T) :=
  match n with O => [] | S n' => Put a :: Get :: pairs n' end.
Fixpoint pair_outs (n : nat) : list (qout T) :=
  match n with O => [] | S n' => RBool true :: ROpt (Some a) :: pair_outs n' end.

Lemma slot_dyn_ok p : slot_dyn cap p = Ok (p mod cap).
Proof. unfold slot_dyn. replace (cap =? 0) with false by lia; reflexivity. Qed.

Lemma run_pairs n : forall p buf, 0 <= p -> p + Z.of_nat n < 2 ^ W -> zlen buf = cap ->
  exists buf', zlen buf' = cap /\
    run (fifo_step W dflt slot_dyn) (Fifo cap p p buf) (pairs n)
    = Ok (Fifo cap (p + Z.of_nat n) (p + Z.of_nat n) buf', pair_outs n).
Proof.
  induction n as [|n IH]; intros p buf Hp Hlt Hl.
  - exists buf; split; [assumption|]. cbn [pairs pair_outs run]. rewrite Z.add_0_r. reflexivity.
  - cbn [pairs pair_outs run fifo_step]. unfold put; cbn [f_max f_head f_tail f_buf].
    rewrite Z.sub_diag. replace (word W 0) with 0 by (unfold word; rewrite Z.mod_0_l; lia).
    replace (0 =? cap) with false by lia. rewrite slot_dyn_ok; cbn [bind].
    pose proof (Z.mod_pos_bound p cap ltac:(lia)).
    rewrite wr_ok by lia; cbn [bind]. unfold get; cbn [f_max f_head f_tail f_buf].
    rewrite (word_small W (p + 1)) by lia.
    replace (p =? p + 1) with false by lia.
    rewrite slot_dyn_ok; cbn [bind].
    rewrite (rd_ok _ _ a) by (apply znth_zupd_eq; lia); cbn [bind].
    destruct (IH (p + 1) (zupd buf (p mod cap) a)) as (buf' & Hl' & E); [lia|lia|rewrite zlen_zupd; lia|].
    exists buf'; split; [assumption|].
    rewrite E; cbn [bind]. replace (p + 1 + Z.of_nat n) with (p + Z.of_nat (S n)) by lia. reflexivity.
Qed.

Lemma run_put_b n : forall h t buf, 0 <= t <= h -> h - t + Z.of_nat n <= cap -> h + Z.of_nat n <= 2 ^ W -> zlen buf = cap ->
  exists buf', zlen buf' = cap /\
    run (fifo_step W dflt slot_dyn) (Fifo cap h t buf) (repeat (Put b) n)
    = Ok (Fifo cap (if Nat.eqb n 0 then h else word W (h + Z.of_nat n)) t buf', repeat (RBool true) n).
Proof.
  induction n as [|n IH]; intros h t buf Hp Hlt Hm Hl.
  - exists buf; split; [assumption|]. reflexivity.
  - cbn [repeat run fifo_step]. unfold put; cbn [f_max f_head f_tail f_buf].
    rewrite (word_small W (h - t)) by lia.
    replace (h - t =? cap) with false by lia. rewrite slot_dyn_ok; cbn [bind].
    pose proof (Z.mod_pos_bound h cap ltac:(lia)).
    rewrite wr_ok by lia; cbn [bind].
    destruct n as [|n].
    + eexists; split; [rewrite zlen_zupd; eassumption|]. reflexivity.
    + destruct (IH (h + 1) t (zupd buf (h mod cap) b)) as (buf' & Hl' & E); [lia|lia|lia|rewrite zlen_zupd; lia|].
      exists buf'; split; [assumption|].
      rewrite (word_small W (h + 1)) by lia.
      rewrite E; cbn [bind Nat.eqb]. replace (h + 1 + Z.of_nat (S n)) with (h + Z.of_nat (S (S n))) by lia. reflexivity.
Qed.

(** The history that goes wrong: bring the counters to the last multiple of the
    capacity below 2^W, put [a], then put [b] until one [b] lands past the wrap. *)
Definition bad_history : list (qop T) :=
  pairs (Z.to_nat (2 ^ W - 2 ^ W mod cap)) ++ [Put a] ++ repeat (Put b) (Z.to_nat (2 ^ W mod cap)) ++ [Get].

Lemma spec_pairs n : srun (queue_step dflt) (Queue cap []) (pairs n) = (Queue cap [], pair_outs n).
Proof.
  induction n as [|n IH]; [reflexivity|].
  cbn [pairs pair_outs srun queue_step qitems qcap]. rewrite zlen_nil.
  replace (0 =? cap) with false by lia. cbn [app qitems qcap]. rewrite IH. reflexivity.
Qed.

Lemma spec_put_b n : forall l, zlen l + Z.of_nat n <= cap ->
  srun (queue_step dflt) (Queue cap l) (repeat (Put b) n) = (Queue cap (l ++ repeat b n), repeat (RBool true) n).
Proof.
  induction n as [|n IH]; intros l Hl; cbn [repeat srun queue_step qitems qcap].
  - rewrite app_nil_r; reflexivity.
  - replace (zlen l =? cap) with false by lia.
    rewrite IH by (rewrite zlen_app, zlen_cons, zlen_nil; lia).
    rewrite <- app_assoc; reflexivity.
Qed.

Lemma srun_app {S O R} (step : S -> O -> S * R) s l1 l2 :
  srun step s (l1 ++ l2) =
  let (s1, r1) := srun step s l1 in let (s2, r2) := srun step s1 l2 in (s2, r1 ++ r2).
Proof.
  revert s; induction l1 as [|o l1 IH]; intros s; cbn [srun app].
  - destruct (srun step s l2); reflexivity.
  - destruct (step s o) as [s1 r]. rewrite IH.
    destruct (srun step s1 l1) as [s2 r1]. destruct (srun step s2 l2) as [s3 r2]. reflexivity.
Qed.

Lemma bad_history_outputs : ~ (cap | 2 ^ W) ->
  let r := Z.to_nat (2 ^ W mod cap) in
  let pre := pair_outs (Z.to_nat (2 ^ W - 2 ^ W mod cap)) ++ [RBool true] ++ repeat (RBool true) r in
  resizes bad_history = [] /\
  queue_outputs dflt cap [] bad_history = pre ++ [ROpt (Some a)] /\
  exists s', run (fifo_step W dflt slot_dyn) (fifo_init dflt cap) bad_history = Ok (s', pre ++ [ROpt (Some b)]).
Proof.
  intros Hnd r pre.
  pose proof (pow2_pos W HW).
  pose proof (Z.mod_pos_bound (2 ^ W) cap ltac:(lia)) as Hr.
  assert (Hr0 : 2 ^ W mod cap <> 0) by (intros E; apply Hnd, Z.mod_divide; lia).
  set (P := 2 ^ W - 2 ^ W mod cap) in *.
  assert (HP : P mod cap = 0).
  { unfold P. rewrite Zminus_mod_idemp_r, Z.sub_diag. apply Z.mod_0_l; lia. }
  splits.
  - unfold bad_history. clear.
    assert (Hra : forall l1 l2 : list (qop T), resizes (l1 ++ l2) = resizes l1 ++ resizes l2).
    { induction l1 as [|o l1 IH]; intros l2; [reflexivity|]. destruct o; cbn [resizes app]; rewrite IH; reflexivity. }
    rewrite !Hra. cbn [resizes app].
    assert (Hp : forall n, resizes (pairs n) = []) by (induction n; cbn; auto).
    assert (Hq : forall n, resizes (repeat (Put b) n) = []) by (induction n; cbn; auto).
    rewrite Hp, Hq. reflexivity.
  - unfold queue_outputs, bad_history, pre. fold r. fold P.
    rewrite srun_app, spec_pairs. cbn [app srun queue_step qitems qcap]. rewrite zlen_nil.
    replace (0 =? cap) with false by lia. cbn [app].
    rewrite srun_app, spec_put_b by (rewrite zlen_cons, zlen_nil; unfold r; lia).
    cbn [app srun queue_step qitems qcap snd]. rewrite <- app_assoc. reflexivity.
  - unfold bad_history, pre. fold r. fold P.
    rewrite run_app. unfold fifo_init.
    destruct (run_pairs (Z.to_nat P) 0 (zrepeat dflt cap)) as (b1 & L1 & E1);
      [lia|unfold P; lia|apply zlen_zrepeat; lia|].
    rewrite E1; cbn [bind app run fifo_step].
    replace (0 + Z.of_nat (Z.to_nat P)) with P by (unfold P; lia).
    unfold put at 1; cbn [f_max f_head f_tail f_buf].
    rewrite Z.sub_diag. replace (word W 0) with 0 by (unfold word; rewrite Z.mod_0_l; lia).
    replace (0 =? cap) with false by lia. rewrite slot_dyn_ok; cbn [bind].
    rewrite HP. rewrite wr_ok by lia; cbn [bind].
    rewrite run_app.
    assert (Er : exists r', r = S r') by (exists (pred r); unfold r; lia).
    destruct Er as [r' Er].
    replace (repeat (@Put T b) r) with (repeat (@Put T b) r' ++ [Put b]).
    2:{ rewrite Er. clear. induction r'; [reflexivity|]. cbn [repeat app]. rewrite IHr'. reflexivity. }
    rewrite run_app.
    assert (EP : P + 1 + Z.of_nat r' = 2 ^ W) by (unfold P; lia).
    assert (Hput : exists b2, zlen b2 = cap /\
      run (fifo_step W dflt slot_dyn) (Fifo cap (word W (P + 1)) P (zupd b1 0 a)) (repeat (Put b) r')
      = Ok (Fifo cap 0 P b2, repeat (RBool true) r')).
    { destruct r' as [|r''].
      - exists (zupd b1 0 a); split; [rewrite zlen_zupd; assumption|].
        cbn [repeat run]. replace (word W (P + 1)) with 0; [reflexivity|].
        unfold word. replace (P + 1) with (2 ^ W) by lia. rewrite Z_mod_same_full; reflexivity.
      - rewrite (word_small W (P + 1)) by lia.
        destruct (run_put_b (S r'') (P + 1) P (zupd b1 0 a)) as (b2 & L2 & E2);
          [lia|lia|lia|rewrite zlen_zupd; lia|].
        exists b2; split; [assumption|]. rewrite E2. cbn [Nat.eqb].
        rewrite EP. unfold word. rewrite Z_mod_same_full. reflexivity. }
    destruct Hput as (b2 & L2 & E2). rewrite E2; cbn [bind run fifo_step].
    unfold put at 1; cbn [f_max f_head f_tail f_buf].
    assert (Ed : word W (0 - P) = 2 ^ W mod cap).
    { unfold word. replace (0 - P) with (2 ^ W mod cap + (-1) * 2 ^ W) by (unfold P; lia).
      rewrite Z_mod_plus_full. apply Z.mod_small; lia. }
    rewrite Ed. replace (2 ^ W mod cap =? cap) with false by lia.
    rewrite slot_dyn_ok; cbn [bind]. rewrite Z.mod_0_l by lia.
    rewrite wr_ok by lia; cbn [bind].
    unfold get; cbn [f_max f_head f_tail f_buf].
    assert (Hw1 : P <> word W (0 + 1)).
    { intros E. rewrite E in Ed. unfold word in Ed.
      rewrite Zminus_mod_idemp_r in Ed. replace (0 - (0 + 1)) with (2 ^ W - 1 + (-1) * 2 ^ W) in Ed by lia.
      rewrite Z_mod_plus_full, Z.mod_small in Ed by lia. lia. }
    replace (P =? word W (0 + 1)) with false by lia.
    rewrite slot_dyn_ok; cbn [bind]. rewrite HP.
    rewrite (rd_ok _ _ b) by (apply znth_zupd_eq; lia); cbn [bind].
    eexists. f_equal. f_equal.
    rewrite Er. rewrite !app_assoc_reverse. cbn [app repeat]. do 2 f_equal.
    clear. induction r'; [reflexivity|]. cbn [repeat app]. f_equal. exact IHr'.
Qed.

Lemma dyn_wrap_wrong : ~ (cap | 2 ^ W) -> a <> b ->
  exists ops s' outs, resizes ops = [] /\
    run (fifo_step W dflt slot_dyn) (fifo_init dflt cap) ops = Ok (s', outs) /\
    outs <> queue_outputs dflt cap [] ops.
Proof.
  intros Hnd Hab. destruct (bad_history_outputs Hnd) as (Hr & Hq & s' & E).
  exists bad_history; do 2 eexists; split; [exact Hr|]; split; [exact E|].
  rewrite Hq. intros EE. apply app_inv_head in EE. congruence.
Qed.
End Wrap.
