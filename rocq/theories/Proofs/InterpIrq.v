From Coq Require Import QArith Lia.
From Verif.Common Require Import Base Lemmas Lists.
From Verif.Spec Require Import InterpVarSpec IrqSpec InterpIrqSpec.
From Verif.Model Require Import InterpVar Irq InterpIrq.
From Verif.Proofs Require Import Irq Interp InterpVar.
Open Scope Z_scope.

Section G.
Context {A : Type} (add sub div : A -> A -> A) (of_int : Z -> A).
Notation step := (vb_at_once add sub div of_int).
Notation main := (vb_main add sub div of_int).
Lemma run_total s l : run step s l = Ok (srun (vb_step add sub div of_int) s l).
Proof using.
  revert s. induction l as [|c l IH]; intros s; [reflexivity|]. cbn [run srun]. unfold vb_at_once, total at 1. cbn [bind]. destruct (vb_step add sub div of_int s c) as [s1 r]. cbn [bind]. rewrite IH. cbn [bind]. destruct (srun _ s1 l). reflexivity.
Qed.
Lemma run_app_ok l1 l2 s s1 q1 s2 q2 : run step s l1 = Ok (s1, q1) -> run step s1 l2 = Ok (s2, q2) -> run step s (l1 ++ l2) = Ok (s2, q1 ++ q2).
Proof using. apply run_cat_ok. Qed.
Lemma run_step c l s s1 r : vb_step add sub div of_int s c = (s1, r) -> run step s (c :: l) = let* (s2, q) := run step s1 l in Ok (s2, r :: q).
Proof using. intros E. cbn [run]. unfold vb_at_once at 1, total. rewrite E. reflexivity. Qed.
(* handler calls of next *)
Lemma nexts_run l : forall s, Forall advances l -> exists q, run step s l = Ok (IVB (Nat.iter (length l) (fun c => add c (vb_size s)) (vb_cur s)) (vb_target s) (vb_size s) (vb_num s), q) /\ length q = length l.
Proof using.
  induction l as [|c l IH]; intros s H; [exists []; destruct s; auto|]. assert (c = VNext) by exact (Forall_inv H). subst c. destruct (IH (IVB (add (vb_cur s) (vb_size s)) (vb_target s) (vb_size s) (vb_num s)) (Forall_inv_tail H)) as (q & E & L).
  rewrite (run_step VNext l s _ _ eq_refl), E. cbn [bind]. exists (Some (add (vb_cur s) (vb_size s)) :: q). split; [|cbn; f_equal; exact L]. do 2 f_equal. cbn [vb_cur vb_size vb_target vb_num length].
  f_equal. generalize (length l). intros k. induction k as [|k IHk]; [reflexivity|]. change (Nat.iter (S k) ?f ?x) with (f (Nat.iter k f x)). cbn beta. rewrite IHk. reflexivity.
Qed.
(* handler calls of set_new_value and set_num_updates *)
Lemma conf_run l : forall s, Forall configures l -> exists s' q, run step s l = Ok (s', q) /\ length q = length l /\ vb_cur s' = vb_cur s.
Proof using.
  induction l as [|c l IH]; intros s H; [exists s, []; auto|]. pose proof (Forall_inv H) as Hc. destruct (vb_step add sub div of_int s c) as [s1 r] eqn:Es. destruct (IH s1 (Forall_inv_tail H)) as (s' & q & E & L & C).
  rewrite (run_step c l s _ _ Es), E. cbn [bind]. do 2 eexists. split; [reflexivity|]. split; [cbn; f_equal; exact L|]. rewrite C. destruct c; try contradiction; cbn in Es; injection Es as <- <-; reflexivity.
Qed.
Lemma gaps4 (gaps : list (list (vcall A))) : concat gaps = nth 0 gaps [] ++ nth 1 gaps [] ++ nth 2 gaps [] ++ nth 3 gaps [] ++ concat (skipn 4 gaps).
Proof using. destruct gaps as [|a [|b [|c [|d g]]]]; cbn; rewrite ?app_nil_r; reflexivity. Qed.
(* the two long calls, spelled out *)
Lemma set_exec x s gaps : iexec step (main (VSet x)) s gaps =
  let* (s0, q0) := run step s (nth 0 gaps []) in
  let* (s1, q1) := run step (IVB (vb_cur s0) x (vb_size s0) (vb_num s0)) (nth 1 gaps []) in
  let* (s2, q2) := run step s1 (nth 2 gaps []) in
  let* (s3, q3) := run step s2 (nth 3 gaps []) in
  let* (s4, q4) := run step (IVB (vb_cur s3) (vb_target s3) (div (sub x (vb_cur s1)) (of_int (vb_num s2))) (vb_num s3)) (concat (skipn 4 gaps)) in
  Ok (s4, None, q0 ++ q1 ++ q2 ++ q3 ++ q4).
Proof using.
  cbn [vb_main]. unfold put_target, get_cur, get_num, put_size. cbn [iexec]. rewrite !run_total. cbn [bind]. 
  destruct gaps as [|a [|b [|c [|d g]]]]; cbn [hd tl nth skipn concat app]; repeat (match goal with |- context [srun ?f ?s ?l] => destruct (srun f s l) end; cbn [bind run concat hd tl]; rewrite ?run_total; cbn [bind]); rewrite ?app_nil_r, <- ?app_assoc; reflexivity.
Qed.
Lemma next_exec s gaps : iexec step (main VNext) s gaps =
  let* (s0, q0) := run step s (nth 0 gaps []) in
  let* (s1, q1) := run step s0 (nth 1 gaps []) in
  let* (s2, q2) := run step s1 (nth 2 gaps []) in
  let* (s3, q3) := run step (IVB (add (vb_cur s0) (vb_size s1)) (vb_target s2) (vb_size s2) (vb_num s2)) (nth 3 gaps []) in
  let* (s4, q4) := run step s3 (concat (skipn 4 gaps)) in
  Ok (s4, Some (vb_cur s3), q0 ++ q1 ++ q2 ++ q3 ++ q4).
Proof using.
  cbn [vb_main]. unfold put_cur, get_cur, get_size. cbn [iexec]. rewrite !run_total. cbn [bind].
  destruct gaps as [|a [|b [|c [|d g]]]]; cbn [hd tl nth skipn concat app]; repeat (match goal with |- context [srun ?f ?s ?l] => destruct (srun f s l) end; cbn [bind run concat hd tl]; rewrite ?run_total; cbn [bind]); rewrite ?app_nil_r, <- ?app_assoc; reflexivity.
Qed.
Lemma gap_adv gaps n : Forall advances (concat gaps) -> Forall advances (nth n gaps (@nil (vcall A))).
Proof using. intros H. destruct (nth_in_or_default n gaps []) as [E|E]; [|rewrite E; constructor]. rewrite Forall_forall in *. intros c Hc. apply H, in_concat. eauto. Qed.
Lemma gap_conf gaps n : Forall configures (concat gaps) -> Forall configures (nth n gaps (@nil (vcall A))).
Proof using. intros H. destruct (nth_in_or_default n gaps []) as [E|E]; [|rewrite E; constructor]. rewrite Forall_forall in *. intros c Hc. apply H, in_concat. eauto. Qed.
Lemma rest_of {Q : vcall A -> Prop} gaps n : Forall Q (concat gaps) -> Forall Q (concat (skipn n gaps)).
Proof using. intros H. rewrite <- (firstn_skipn n gaps), concat_app in H. apply Forall_app in H. apply H. Qed.

Theorem set_at_once s x gaps : Forall advances (concat gaps) -> nth 2 gaps [] = [] -> nth 3 gaps [] = [] ->
  one_moment (run step) s (VSet x) gaps (iexec step (main (VSet x)) s gaps).
Proof using.
  intros HG H2 H3. rewrite set_exec, H2, H3. pose proof (gap_adv gaps 0 HG) as G0. pose proof (gap_adv gaps 1 HG) as G1. pose proof (rest_of gaps 4 HG) as G4.
  destruct (nexts_run _ s G0) as (q0 & E0 & L0). rewrite E0. cbn [bind vb_cur vb_size vb_num vb_target].
  set (c0 := Nat.iter (length (nth 0 gaps [])) _ _). destruct (nexts_run _ (IVB c0 x (vb_size s) (vb_num s)) G1) as (q1 & E1 & L1). rewrite E1. cbn [bind run vb_cur vb_size vb_num vb_target].
  set (c1 := Nat.iter (length (nth 1 gaps [])) _ _). set (s3 := IVB c1 x (div (sub x c1) (of_int (vb_num s))) (vb_num s)). destruct (nexts_run _ s3 G4) as (q4 & E4 & L4). rewrite E4. cbn [bind].
  exists (nth 0 gaps [] ++ nth 1 gaps []), (concat (skipn 4 gaps)). do 2 eexists. exists (q0 ++ q1), q4. split; [rewrite (gaps4 gaps), H2, H3, <- app_assoc; reflexivity|]. split; [rewrite !app_length; lia|]. split.
  - assert (Ea : run step s (nth 0 gaps [] ++ nth 1 gaps []) = Ok (IVB c1 (vb_target s) (vb_size s) (vb_num s), q0 ++ q1)).
    { eapply run_app_ok; [exact E0|]. destruct (nexts_run _ (IVB c0 (vb_target s) (vb_size s) (vb_num s)) G1) as (q1' & E1' & L1'). fold c0. rewrite E1'. cbn [vb_cur vb_size vb_num vb_target]. fold c1. do 2 f_equal.
      assert (X : forall l t t' c, Forall advances l -> forall sa qa sb qb, run step (IVB c t (vb_size s) (vb_num s)) l = Ok (sa, qa) -> run step (IVB c t' (vb_size s) (vb_num s)) l = Ok (sb, qb) -> qa = qb).
      { clear. induction l as [|k l IH]; intros t t' c H sa qa sb qb Ea Eb; [cbn in *; congruence|]. assert (k = VNext) by exact (Forall_inv H). subst k. rewrite (run_step VNext l _ _ _ eq_refl) in Ea. rewrite (run_step VNext l _ _ _ eq_refl) in Eb. cbn [vb_cur vb_size vb_num vb_target] in Ea, Eb.
        destruct (run step (IVB (add c (vb_size s)) t (vb_size s) (vb_num s)) l) as [[s1 r1]|k|] eqn:F1; [|discriminate Ea..]. destruct (run step (IVB (add c (vb_size s)) t' (vb_size s) (vb_num s)) l) as [[s2 r2]|k|] eqn:F2; [|discriminate Eb..].
        cbn [bind] in Ea, Eb. injection Ea as <- <-. injection Eb as <- <-. f_equal. exact (IH _ _ _ (Forall_inv_tail H) _ _ _ _ F1 F2). }
      exact (X _ _ _ _ G1 _ _ _ _ E1' E1). }
    eapply run_app_ok; [exact Ea|]. rewrite (run_step (VSet x) _ (IVB c1 (vb_target s) (vb_size s) (vb_num s)) s3 None eq_refl), E4. reflexivity.
  - cbn [app]. rewrite <- app_assoc. reflexivity.
Qed.

Theorem next_at_once s gaps : Forall configures (concat gaps) -> nth 2 gaps [] = [] ->
  one_moment (run step) s VNext gaps (iexec step (main VNext) s gaps).
Proof using.
  intros HG H2. rewrite next_exec, H2. pose proof (gap_conf gaps 0 HG) as G0. pose proof (gap_conf gaps 1 HG) as G1. pose proof (gap_conf gaps 3 HG) as G3. pose proof (rest_of gaps 4 HG) as G4.
  destruct (conf_run _ s G0) as (s0 & q0 & E0 & L0 & C0). rewrite E0. cbn [bind]. destruct (conf_run _ s0 G1) as (s1 & q1 & E1 & L1 & C1). rewrite E1. cbn [bind run].
  set (s2 := IVB (add (vb_cur s0) (vb_size s1)) (vb_target s1) (vb_size s1) (vb_num s1)). destruct (conf_run _ s2 G3) as (s3 & q3 & E3 & L3 & C3). rewrite E3. cbn [bind]. destruct (conf_run _ s3 G4) as (s4 & q4 & E4 & L4 & C4). rewrite E4. cbn [bind].
  exists (nth 0 gaps [] ++ nth 1 gaps []), (nth 3 gaps [] ++ concat (skipn 4 gaps)), s4, (Some (vb_cur s3)), (q0 ++ q1), (q3 ++ q4). split; [rewrite (gaps4 gaps), H2, <- app_assoc; reflexivity|]. split; [rewrite !app_length; lia|]. split.
  - eapply run_app_ok; [eapply run_app_ok; eassumption|]. rewrite (run_step VNext _ s1 s2 (Some (vb_cur s3))).
    + rewrite (run_app_ok _ _ _ _ _ _ _ E3 E4). reflexivity.
    + cbn [vb_step vb_next]. rewrite C3. unfold s2. cbn [vb_cur]. rewrite C1. reflexivity.
  - cbn [app]. rewrite <- app_assoc. reflexivity.
Qed.

(* what the interrupted set leaves *)
Lemma iter_add f k j (x : A) : Nat.iter k f (Nat.iter j f x) = Nat.iter (k + j) f x.
Proof using. induction k as [|k IH]; [reflexivity|]. change (Nat.iter (S k) f (Nat.iter j f x)) with (f (Nat.iter k f (Nat.iter j f x))). rewrite IH. reflexivity. Qed.
Lemma set_leaves s x gaps : Forall advances (concat gaps) ->
  let move st k c := Nat.iter k (fun y => add y st) c in
  let c1 := move (vb_size s) (calls_before 0 2 gaps) (vb_cur s) in
  let st := div (sub x c1) (of_int (vb_num s)) in
  exists q, iexec step (main (VSet x)) s gaps = Ok (IVB (move st (length (concat (skipn 4 gaps))) (move (vb_size s) (calls_before 2 4 gaps) c1)) x st (vb_num s), None, q).
Proof using.
  intros HG. cbn zeta. rewrite set_exec. pose proof (gap_adv gaps 0 HG) as G0. pose proof (gap_adv gaps 1 HG) as G1. pose proof (gap_adv gaps 2 HG) as G2. pose proof (gap_adv gaps 3 HG) as G3. pose proof (rest_of gaps 4 HG) as G4.
  destruct (nexts_run _ s G0) as (q0 & E0 & _). rewrite E0. cbn [bind vb_cur vb_size vb_num vb_target].
  destruct (nexts_run _ (IVB (Nat.iter (length (nth 0 gaps [])) (fun c => add c (vb_size s)) (vb_cur s)) x (vb_size s) (vb_num s)) G1) as (q1 & E1 & _). rewrite E1. cbn [bind run vb_cur vb_size vb_num vb_target]. rewrite iter_add.
  match goal with |- context [run step ?z (nth 2 gaps [])] => destruct (nexts_run _ z G2) as (q2 & E2 & _); rewrite E2 end. cbn [bind run vb_cur vb_size vb_num vb_target].
  match goal with |- context [run step ?z (nth 3 gaps [])] => destruct (nexts_run _ z G3) as (q3 & E3 & _); rewrite E3 end. cbn [bind run vb_cur vb_size vb_num vb_target]. rewrite (iter_add _ (length (nth 3 gaps [])) (length (nth 2 gaps []))).
  match goal with |- context [run step ?z (concat _)] => destruct (nexts_run _ z G4) as (q4 & E4 & _); rewrite E4 end. cbn [bind run vb_cur vb_size vb_num vb_target].
  assert (N1 : (length (nth 1 gaps []) + length (nth 0 gaps []) = calls_before 0 2 gaps)%nat).
  { unfold calls_before. destruct gaps as [|a [|b g]]; cbn [nth Nat.sub firstn skipn concat length]; rewrite ?app_length, ?app_nil_r; cbn [length]; lia. }
  assert (N2 : (length (nth 3 gaps []) + length (nth 2 gaps []) = calls_before 2 4 gaps)%nat).
  { unfold calls_before. destruct gaps as [|a [|b [|c [|d g]]]]; cbn [nth Nat.sub firstn skipn concat length]; rewrite ?app_length, ?app_nil_r; cbn [length]; lia. }
  rewrite N1, N2. eexists. reflexivity.
Qed.
End G.

Notation qstep := (vb_at_once Qplus Qminus Qdiv inject_Z).
Notation qmain := (vb_main Qplus Qminus Qdiv inject_Z).
Lemma num_nz n : 0 < n -> ~ (inject_Z n == 0)%Q.
Proof. intros Hn H. rewrite Zlt_Qlt in Hn. rewrite H in Hn. apply Qlt_irrefl in Hn. exact Hn. Qed.
(* where the ramp goes *)
Theorem set_leads s (x : Q) gaps h2 : 0 < vb_num s -> Forall advances (concat gaps) -> Forall advances h2 ->
  exists s' q s'' q', iexec qstep (qmain (VSet x)) s gaps = Ok (s', None, q) /\ run qstep s' h2 = Ok (s'', q') /\ vb_target s' = x /\ vb_num s' = vb_num s /\
    let k := Z.of_nat (length (concat (skipn 4 gaps)) + length h2) in
    let j := Z.of_nat (calls_before 2 4 gaps) in
    let c := (vb_cur s + inject_Z (Z.of_nat (calls_before 0 2 gaps)) * vb_size s)%Q in
    (vb_cur s'' == c + (inject_Z k / inject_Z (vb_num s)) * (x - c) + inject_Z j * vb_size s)%Q.
Proof.
  intros Hn HG Hh. destruct (set_leaves Qplus Qminus Qdiv inject_Z s x gaps HG) as (q & E). cbn zeta in E.
  match type of E with _ = Ok (?z, _, _) => set (s' := z) in E; destruct (nexts_run Qplus Qminus Qdiv inject_Z h2 s' Hh) as (q' & E') end.
  exists s', q. do 2 eexists. split; [exact E|]. split; [apply E'|]. split; [reflexivity|]. split; [reflexivity|]. cbn zeta. unfold s'. cbn [vb_cur vb_size].
  set (st0 := vb_size s). rewrite !Qiter_add, Nat2Z.inj_add, inject_Z_plus. field. apply num_nz, Hn.
Qed.
Theorem set_ends s (x : Q) gaps h2 : 0 < vb_num s -> Forall advances (concat gaps) -> Forall advances h2 -> Z.of_nat (length (concat (skipn 4 gaps)) + length h2) = vb_num s ->
  exists s' q s'' q', iexec qstep (qmain (VSet x)) s gaps = Ok (s', None, q) /\ run qstep s' h2 = Ok (s'', q') /\ (vb_cur s'' == x + inject_Z (Z.of_nat (calls_before 2 4 gaps)) * vb_size s)%Q.
Proof.
  intros Hn HG Hh Hk. destruct (set_leads s x gaps h2 Hn HG Hh) as (s' & q & s'' & q' & E & E' & _ & _ & F). exists s', q, s'', q'. split; [exact E|]. split; [exact E'|]. cbn zeta in F. rewrite F, Hk. field. apply num_nz, Hn.
Qed.
(* next interrupted by set_new_value between its last load and its store *)
Theorem next_window s (x : Q) h2 : 0 < vb_num s -> Forall advances h2 -> Z.of_nat (length h2) = vb_num s ->
  exists s' q s'' q', iexec qstep (qmain VNext) s [[]; []; [VSet x]] = Ok (s', Some (vb_cur s + vb_size s)%Q, q) /\ run qstep s' h2 = Ok (s'', q') /\ (vb_cur s'' == x + vb_size s)%Q.
Proof.
  intros Hn Hh Hk. rewrite next_exec. cbn [nth run bind app]. unfold vb_at_once at 1, total. cbn [vb_step bind vb_set vb_cur vb_size vb_target vb_num concat skipn run app].
  match goal with |- context [Ok (?z, Some _, _) = _] => set (s' := z) end. destruct (nexts_run Qplus Qminus Qdiv inject_Z h2 s' Hh) as (q' & E' & _). exists s'. do 3 eexists. split; [reflexivity|]. split; [exact E'|].
  unfold s'. cbn [vb_cur vb_size]. rewrite Qiter_add, Hk. field. apply num_nz, Hn.
Qed.
Section H.
Context {A : Type} (add sub div : A -> A -> A) (of_int : Z -> A).
Notation step := (vb_at_once add sub div of_int).
Notation main := (vb_main add sub div of_int).
Theorem jump_lost s y : exists s' q, iexec step (main VNext) s [[]; [VJump y]] = Ok (s', Some (add (vb_cur s) (vb_size s)), q) /\ vb_cur s' = add (vb_cur s) (vb_size s).
Proof using. do 2 eexists. split; reflexivity. Qed.
Theorem next_lost s : exists s', iexec step (main VNext) s [[]; [VNext]] = Ok (s', Some (add (vb_cur s) (vb_size s)), [Some (add (vb_cur s) (vb_size s))]) /\ vb_cur s' = add (vb_cur s) (vb_size s).
Proof using. eexists. split; reflexivity. Qed.
End H.
Theorem set_misses s (x : Q) : 0 < vb_num s -> ~ (vb_size s == 0)%Q ->
  exists gaps h2 s' q s'' q', concat gaps = [VNext] /\ Forall advances h2 /\ Z.of_nat (length h2) = vb_num s /\
    iexec qstep (qmain (VSet x)) s gaps = Ok (s', None, q) /\ run qstep s' h2 = Ok (s'', q') /\ (vb_cur s'' == x + vb_size s)%Q /\ ~ (vb_cur s'' == x)%Q.
Proof.
  intros Hn Hs. assert (L : length (repeat (@VNext Q) (Z.to_nat (vb_num s))) = Z.to_nat (vb_num s)) by apply repeat_length.
  assert (F : Forall advances (repeat (@VNext Q) (Z.to_nat (vb_num s)))) by (apply Forall_forall; intros c Hc; apply repeat_spec in Hc; exact Hc).
  destruct (set_ends s x [[]; []; [VNext]] (repeat VNext (Z.to_nat (vb_num s))) Hn) as (s' & q & s'' & q' & E1 & E2 & E3); [constructor; [reflexivity|constructor]|exact F|cbn [skipn concat length plus]; lia|].
  exists [[]; []; [VNext]], (repeat VNext (Z.to_nat (vb_num s))), s', q, s'', q'. split; [reflexivity|]. split; [exact F|]. split; [lia|]. split; [exact E1|]. split; [exact E2|].
  assert (E4 : (vb_cur s'' == x + vb_size s)%Q) by (rewrite E3; cbn; ring). split; [exact E4|]. rewrite E4. intros H. apply Hs. rewrite <- (Qplus_inj_l _ _ x). rewrite H. ring.
Qed.

Lemma uninterrupted_vb {A} (add sub div : A -> A -> A) of_int s c :
  irun (vb_at_once add sub div of_int) (vb_main add sub div of_int) s [Call c []] =
    Ok (fst (vb_step add sub div of_int s c), [snd (vb_step add sub div of_int s c)], []).
Proof. destruct s, c; reflexivity. Qed.
