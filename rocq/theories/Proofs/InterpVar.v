(* InterpParamVariable: histories. *)
From Coq Require Import QArith Reals Lia Floats.SpecFloat.
From Flocq Require Import Core.
From Verif.Common Require Import Base F32 F32Order F32Real.
From Verif.Spec Require Import InterpVarSpec.
From Verif.Model Require Import InterpVar.
From Verif.Proofs Require Import Interp InterpFloat.
Open Scope Z_scope.

Lemma srun_app_fst {S O R} (step : S -> O -> S * R) h1 h2 s :
  fst (srun step s (h1 ++ h2)) = fst (srun step (fst (srun step s h1)) h2).
Proof.
  revert s. induction h1 as [|o h1 IH]; intros s; [reflexivity|]. cbn [app srun]. destruct (step s o) as [s1 r]. specialize (IH s1).
  destruct (srun step s1 (h1 ++ h2)) as [a b], (srun step s1 h1) as [c d]. exact IH.
Qed.
Lemma srun_cons_fst {S O R} (step : S -> O -> S * R) o h s : fst (srun step s (o :: h)) = fst (srun step (fst (step s o)) h).
Proof. cbn [srun]. destruct (step s o) as [s1 r]. cbn [fst]. destruct (srun step s1 h). reflexivity. Qed.
Lemma srun_snoc_snd {S O R} (step : S -> O -> S * R) h o s :
  snd (srun step s (h ++ [o])) = snd (srun step s h) ++ [snd (step (fst (srun step s h)) o)].
Proof.
  revert s. induction h as [|p h IH]; intros s; cbn [app srun]. { cbn [fst snd app]. destruct (step s o). reflexivity. }
  destruct (step s p) as [s1 r]. specialize (IH s1). destruct (srun step s1 (h ++ [o])) as [a b], (srun step s1 h) as [c d]. cbn [fst snd] in *. rewrite IH. reflexivity.
Qed.

Section Generic.
Context {A : Type} (add sub div : A -> A -> A) (of_int : Z -> A).
Notation step := (vb_step add sub div of_int).
Notation after := (vb_after add sub div of_int).

Lemma num_run h s : vb_num (fst (srun step s h)) = updates_in_force (vb_num s) h.
Proof.
  revert s. induction h as [|c h IH]; intros s; [reflexivity|]. rewrite srun_cons_fst, IH. destruct c; reflexivity.
Qed.
Lemma num_after n0 h : vb_num (after n0 h) = updates_in_force n0 h.
Proof. apply num_run. Qed.
Lemma undisturbed_run h s : undisturbed h ->
  let s' := fst (srun step s h) in
  vb_cur s' = Nat.iter (nexts h) (fun c => add c (vb_size s)) (vb_cur s) /\ vb_target s' = vb_target s /\ vb_size s' = vb_size s.
Proof.
  cbn zeta. revert s. induction h as [|c h IH]; intros s U; [auto|]. rewrite srun_cons_fst. pose proof (Forall_inv U) as Hc. destruct (IH (fst (step s c)) (Forall_inv_tail U)) as (P & Q & R). rewrite P, Q, R.
  destruct c; try contradiction; cbn [vb_step fst vb_set_num vb_next vb_cur vb_target vb_size nexts]; [auto|]. split; [|auto].
  generalize (nexts h). intros k. induction k as [|k IHk]; [reflexivity|]. change (Nat.iter (S k) ?f ?x) with (f (Nat.iter k f x)). cbn beta. rewrite IHk. reflexivity.
Qed.
Lemma ramp n0 h1 x h2 : undisturbed h2 ->
  let c := vb_cur (after n0 h1) in
  let s := after n0 (h1 ++ VSet x :: h2) in
  vb_cur s = Nat.iter (nexts h2) (fun y => add y (div (sub x c) (of_int (updates_in_force n0 h1)))) c /\ vb_target s = x.
Proof.
  intros U c s. unfold s, vb_after. rewrite srun_app_fst, srun_cons_fst. destruct (undisturbed_run h2 (fst (step (fst (srun step (vb0 of_int n0) h1)) (VSet x))) U) as (P & Q & _). rewrite P, Q.
  cbn [vb_step fst vb_set vb_cur vb_target vb_size]. split; [|reflexivity]. rewrite num_run. reflexivity.
Qed.
Lemma next_returns n0 h : snd (srun step (vb0 of_int n0) (h ++ [VNext])) = snd (srun step (vb0 of_int n0) h) ++ [Some (vb_cur (after n0 (h ++ [VNext])))].
Proof. rewrite srun_snoc_snd. unfold vb_after. rewrite srun_app_fst, srun_cons_fst. reflexivity. Qed.
Lemma keeps_value n0 h c : (match c with VSet _ | VNum _ => True | _ => False end) -> vb_cur (after n0 (h ++ [c])) = vb_cur (after n0 h).
Proof. intros Hc. unfold vb_after. rewrite srun_app_fst, srun_cons_fst. destruct c; try contradiction; reflexivity. Qed.
End Generic.

Lemma exact_ramp n0 h1 (x : Q) h2 : 0 < updates_in_force n0 h1 -> undisturbed h2 ->
  let c := vb_cur (vb_after Qplus Qminus Qdiv inject_Z n0 h1) in
  (vb_cur (vb_after Qplus Qminus Qdiv inject_Z n0 (h1 ++ VSet x :: h2)) ==
   c + (inject_Z (Z.of_nat (nexts h2)) / inject_Z (updates_in_force n0 h1)) * (x - c))%Q.
Proof.
  intros Hn U c. destruct (ramp Qplus Qminus Qdiv inject_Z n0 h1 x h2 U) as [P _]. fold c in P. rewrite P, Qiter_add. field.
  intros H. rewrite Zlt_Qlt in Hn. rewrite H in Hn. apply Qlt_irrefl in Hn. exact Hn.
Qed.
Lemma exact_arrives n0 h1 (x : Q) h2 : 0 < updates_in_force n0 h1 -> undisturbed h2 -> Z.of_nat (nexts h2) = updates_in_force n0 h1 ->
  (vb_cur (vb_after Qplus Qminus Qdiv inject_Z n0 (h1 ++ VSet x :: h2)) == x)%Q.
Proof.
  intros Hn U Hk. rewrite (exact_ramp n0 h1 x h2 Hn U). rewrite Hk. field. intros H. rewrite Zlt_Qlt in Hn. rewrite H in Hn. apply Qlt_irrefl in Hn. exact Hn.
Qed.
Lemma exact_overshoots n0 h1 (x : Q) h2 j : 0 < updates_in_force n0 h1 -> undisturbed h2 -> Z.of_nat (nexts h2) = updates_in_force n0 h1 + j ->
  let c := vb_cur (vb_after Qplus Qminus Qdiv inject_Z n0 h1) in
  (vb_cur (vb_after Qplus Qminus Qdiv inject_Z n0 (h1 ++ VSet x :: h2)) == x + (inject_Z j / inject_Z (updates_in_force n0 h1)) * (x - c))%Q.
Proof.
  intros Hn U Hk c. rewrite (exact_ramp n0 h1 x h2 Hn U). fold c. rewrite Hk, inject_Z_plus. field. intros H. rewrite Zlt_Qlt in Hn. rewrite H in Hn. apply Qlt_irrefl in Hn. exact Hn.
Qed.

(* single precision *)
Lemma fadd_lost a b : ffinite a = false -> ffinite (fadd a b) = false.
Proof. destruct a as [s|s| |s m e]; try discriminate; intros _; destruct b as [t|t| |t m e]; try reflexivity; destruct s, t; reflexivity. Qed.
Lemma fadd_lost_r a b : ffinite b = false -> ffinite (fadd a b) = false.
Proof. destruct b as [s|s| |s m e]; try discriminate; intros _; destruct a as [t|t| |t m e]; try reflexivity; destruct s, t; reflexivity. Qed.
Lemma fdiv_zero_lost d : ffinite (fdiv d (f32_of_int 0)) = false.
Proof. destruct d as [s|s| |s m e]; reflexivity. Qed.
Lemma lost_run h s : no_jump h -> ffinite (vb_cur s) = false ->
  ffinite (vb_cur (fst (srun (vb_step fadd fsub fdiv f32_of_int) s h))) = false.
Proof.
  revert s. induction h as [|c h IH]; intros s N F; [exact F|]. rewrite srun_cons_fst. apply IH; [exact (Forall_inv_tail N)|]. pose proof (Forall_inv N) as Hc.
  destruct c; try contradiction; try exact F. cbn [vb_step fst vb_next vb_cur]. apply fadd_lost, F.
Qed.
Lemma zero_updates_lost n0 h1 x h2 : updates_in_force n0 h1 = 0 -> no_jump h2 ->
  ffinite (vb_cur (vb_after fadd fsub fdiv f32_of_int n0 (h1 ++ VSet x :: VNext :: h2))) = false.
Proof.
  intros H0 N. unfold vb_after. rewrite srun_app_fst, !srun_cons_fst. apply lost_run; [exact N|]. cbn [vb_step fst vb_next vb_set vb_cur vb_size]. rewrite num_run. cbn [vb_num vb0]. rewrite H0. apply fadd_lost_r, fdiv_zero_lost.
Qed.
Lemma float_ramp e n0 h1 x h2 : let after := vb_after fadd fsub fdiv f32_of_int n0 in
  let c := vb_cur (after h1) in let n := updates_in_force n0 h1 in let k := nexts h2 in let r := vb_cur (after (h1 ++ VSet x :: h2)) in
  -60 <= e <= 120 -> 1 <= n <= 2 ^ 22 -> finite_f32 c -> finite_f32 x ->
  (Rabs (fval c) <= bpow radix2 e)%R -> (Rabs (fval x) <= bpow radix2 e)%R -> undisturbed h2 -> Z.of_nat k <= n ->
  finite_f32 r /\ (Rabs (fval r - (fval c + INR k * ((fval x - fval c) / IZR n))) <= (INR k + 4) * bpow radix2 (e - 24))%R.
Proof.
  intros after c n k r He Hn Fc Fx Bc Bx U Hk. destruct (ramp fadd fsub fdiv f32_of_int n0 h1 x h2 U) as [P _].
  unfold r, after. rewrite P. exact (ramp_bound e n c x He Hn Fc Fx Bc Bx k Hk).
Qed.

Lemma rest_start {A : Type} (add sub div : A -> A -> A) of_int n0 : add (of_int 0) (of_int 0) = of_int 0 -> forall h, undisturbed h ->
  vb_cur (vb_after add sub div of_int n0 h) = of_int 0 /\ vb_target (vb_after add sub div of_int n0 h) = of_int 0 /\
  vb_size (vb_after add sub div of_int n0 h) = of_int 0.
Proof.
  intros H0 h. induction h as [|c h IH] using rev_ind; intros U; [repeat split|].
  apply Forall_app in U as [U1 U2]. apply Forall_cons_iff in U2 as [U2 _].
  unfold vb_after in *. rewrite srun_app_fst. destruct (IH U1) as (A1 & A2 & A3).
  destruct (fst (srun (vb_step add sub div of_int) (vb0 of_int n0) h)) as [cu ta si nu]. cbn [vb_cur vb_target vb_size] in *. subst.
  destruct c; cbn in *; try (destruct U2; fail); repeat split; assumption.
Qed.
