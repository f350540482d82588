(* More lemmas on Z-indexed lists, and histories of relational specifications. *)
From Verif.Common Require Import Base Lemmas.

Lemma znth_firstn_if {A} (l : list A) n i :
  znth (firstn (Z.to_nat n) l) i = if i <? n then znth l i else None.
Proof.
  destruct (Z.ltb_spec i n); [apply znth_firstn; assumption|].
  apply znth_none. unfold zlen. rewrite firstn_length. lia.
Qed.

Lemma znth_skipn_if {A} (l : list A) n i : 0 <= n ->
  znth (skipn (Z.to_nat n) l) i = if i <? 0 then None else znth l (n + i).
Proof.
  intros Hn. destruct (Z.ltb_spec i 0); [apply znth_none; lia|apply znth_skipn; lia].
Qed.

Lemma zlen_firstn_min {A} (l : list A) n : 0 <= n -> zlen (firstn (Z.to_nat n) l) = Z.min n (zlen l).
Proof. intros; unfold zlen; rewrite firstn_length; lia. Qed.

Lemma zlen_skipn_max {A} (l : list A) n : 0 <= n -> zlen (skipn (Z.to_nat n) l) = Z.max 0 (zlen l - n).
Proof. intros; unfold zlen; rewrite skipn_length; lia. Qed.

Lemma znth_zrepeat_if {A} (x : A) n i : znth (zrepeat x n) i = if (0 <=? i) && (i <? n) then Some x else None.
Proof.
  destruct (Z.leb_spec 0 i); destruct (Z.ltb_spec i n); cbn [andb].
  - apply znth_zrepeat; lia.
  - apply znth_none. rewrite zlen_zrepeat_max; lia.
  - apply znth_none; lia.
  - apply znth_none; lia.
Qed.

Lemma znth_opt_ext {A} (l1 l2 : list A) : (forall i, 0 <= i -> znth l1 i = znth l2 i) -> l1 = l2.
Proof.
  intros H. apply znth_ext; [|intros i Hi; apply H; lia].
  pose proof (zlen_nonneg l1). pose proof (zlen_nonneg l2).
  destruct (Z.lt_trichotomy (zlen l1) (zlen l2)) as [L|[L|L]]; [|assumption|].
  - destruct (znth_some l2 (zlen l1)) as [x Hx]; [lia|].
    rewrite <- H in Hx by lia. apply znth_some_range in Hx; lia.
  - destruct (znth_some l1 (zlen l2)) as [x Hx]; [lia|].
    rewrite H in Hx by lia. apply znth_some_range in Hx; lia.
Qed.

Lemma znth_rev {A} (l : list A) i : 0 <= i < zlen l -> znth (rev l) i = znth l (zlen l - 1 - i).
Proof.
  intros Hi. unfold znth, zlen in *.
  destruct (Z.ltb_spec i 0); [lia|]. destruct (Z.ltb_spec (Z.of_nat (length l) - 1 - i) 0); [lia|].
  assert (H1 : (Z.to_nat i < length l)%nat) by lia.
  destruct l as [|d l0] eqn:E; [cbn in *; lia|]. rewrite <- E in *.
  rewrite !(nth_error_nth' _ d) by (rewrite ?rev_length; lia).
  rewrite rev_nth by lia. do 2 f_equal. lia.
Qed.

(** Close goals about [znth] of firstn/skipn/app/zrepeat/cons by case analysis. *)
Ltac znorm :=
  repeat first
    [ rewrite znth_app | rewrite znth_firstn_if | rewrite znth_skipn_if by lia
    | rewrite znth_zrepeat_if | rewrite znth_cons | rewrite znth_nil
    | rewrite zlen_app | rewrite zlen_cons | rewrite zlen_firstn_min by lia
    | rewrite zlen_skipn_max by lia | rewrite zlen_zrepeat_max
    | match goal with |- context [@zlen ?A nil] => change (@zlen A nil) with 0 end ].
Ltac zcase1 :=
  match goal with
  | |- context [if ?b then _ else _] =>
      lazymatch b with context [if _ then _ else _] => fail | _ => idtac end;
      let E := fresh "E" in destruct b eqn:E
  end.
Ltac zfin := solve [ reflexivity | exfalso; lia | f_equal; lia
                   | rewrite znth_none by lia; reflexivity
                   | symmetry; rewrite znth_none by lia; reflexivity
                   | rewrite !znth_none by lia; reflexivity ].
Ltac zsolve := znorm; repeat (zcase1; try (exfalso; lia)); try zfin.
Ltac zeq := apply znth_opt_ext; let i := fresh "i" in let Hi := fresh "Hi" in intros i Hi; zsolve.

(** Histories of a relational specification. *)
Fixpoint rel_run {Q O R : Type} (spec : Q -> O -> R -> Q -> Prop) (q : Q) (ops : list O) (rs : list R) (q' : Q) : Prop :=
  match ops, rs with
  | [], [] => q' = q
  | o :: ops', r :: rs' => exists q1, spec q o r q1 /\ rel_run spec q1 ops' rs' q'
  | _, _ => False
  end.

Lemma run_refines_rel {S Q O R : Type} (step : S -> O -> outcome (S * R)) (spec : Q -> O -> R -> Q -> Prop)
      (guard : Q -> O -> Prop) (Rel : S -> Q -> Prop) :
  (forall s q o, Rel s q -> guard q o -> exists s' r q', step s o = Ok (s', r) /\ spec q o r q' /\ Rel s' q') ->
  forall ops s q, Rel s q ->
  (forall o, In o ops -> forall q, guard q o) ->
  exists s' rs q', run step s ops = Ok (s', rs) /\ rel_run spec q ops rs q' /\ Rel s' q'.
Proof.
  intros Hstep; induction ops as [|o ops IH]; intros s q HR HG; cbn [run].
  - exists s, [], q; cbn; auto.
  - destruct (Hstep s q o HR (HG o (or_introl eq_refl) q)) as (s1 & r & q1 & E1 & S1 & R1).
    rewrite E1; cbn [bind].
    destruct (IH s1 q1 R1) as (s2 & rs & q2 & E2 & S2 & R2).
    { intros o' Ho'. apply HG. right; assumption. }
    rewrite E2; cbn [bind]. exists s2, (r :: rs), q2. splits; [reflexivity|exists q1; auto|assumption].
Qed.
