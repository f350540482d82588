From Coq Require Import Permutation Sorted.
From Verif.Common Require Import Base Lemmas Lists.
From Verif.Spec Require Import RangeSpec.
From Verif.Model Require Import Range.
From Verif.Proofs Require Import Filter.

Section Zip.
Context {A S : Type} (body : S -> Z * list A -> S * list A).
Hypothesis Hbody : forall s i vs, length (snd (body s (i, vs))) = length vs.
Definition its_at (i : Z) (cs : list (list A)) : list Z := map (fun _ => i) cs.
Lemma any_match_at i (cs : list (list A)) : any_match (its_at i cs) (map zlen cs) = existsb (fun c => i =? zlen c) cs.
Proof.
  clear Hbody. unfold any_match, its_at. induction cs as [|c cs IH]; cbn; [reflexivity|]. rewrite <- IH. reflexivity.
Qed.
Lemma rd_all_at i (cs : list (list A)) : 0 <= i -> (forall c, In c cs -> i < zlen c) ->
  rd_all cs (its_at i cs) = Ok (column cs i) /\ length (column cs i) = length cs.
Proof.
  clear Hbody. intros Hi HL. induction cs as [|c cs IH]; [split; reflexivity|]. destruct IH as [E1 E2]; [intros c' Hc'; apply HL; right; exact Hc'|].
  destruct (znth_some c i) as [x Hx]; [split; [lia|apply HL; left; reflexivity]|].
  unfold column in *. cbn [rd_all its_at map flat_map]. fold (its_at i cs). rewrite (rd_ok _ _ _ Hx). cbn [bind]. rewrite E1. cbn [bind]. rewrite Hx. cbn [app length]. auto.
Qed.
Lemma wr_all_at i (cs : list (list A)) : forall vs, 0 <= i -> (forall c, In c cs -> i < zlen c) -> length vs = length cs ->
  exists cs', wr_all cs (its_at i cs) vs = Ok cs' /\ length cs' = length cs /\
    forall k c v, znth cs k = Some c -> znth vs k = Some v -> znth cs' k = Some (zupd c i v).
Proof.
  clear Hbody. intros vs Hi. revert vs. induction cs as [|c cs IH]; intros vs HL HV; destruct vs as [|v vs]; try discriminate.
  - exists []. splits; auto. intros k c v H. rewrite znth_nil in H. discriminate.
  - destruct (IH vs) as (cs' & E & L & H); [intros c' Hc'; apply HL; right; exact Hc'|cbn in HV; lia|].
    exists (zupd c i v :: cs'). cbn [wr_all its_at map]. fold (its_at i cs). rewrite wr_ok by (split; [lia|apply HL; left; reflexivity]). cbn [bind]. rewrite E. cbn [bind length].
    splits; auto. intros k c0 v0 H1 H2. rewrite znth_cons in H1. rewrite znth_cons in H2. rewrite znth_cons. destruct (Z.eqb_spec k 0); [congruence|]. destruct (k <? 0); [discriminate|]. eauto.
Qed.
Lemma column_ext (cs cs' : list (list A)) j : length cs = length cs' ->
  (forall k c c', znth cs k = Some c -> znth cs' k = Some c' -> znth c j = znth c' j) -> column cs j = column cs' j.
Proof.
  clear Hbody. revert cs'. induction cs as [|c cs IH]; intros [|c' cs'] HL H; try discriminate; [reflexivity|]. unfold column in *. cbn [flat_map].
  rewrite (H 0 c c' (znth_cons_0 _ _) (znth_cons_0 _ _)). f_equal. apply IH; [cbn in HL; lia|]. intros k a b Ha Hb.
  apply (H (k + 1)); rewrite znth_cons_pos by (apply znth_some_range in Ha; lia); replace (k + 1 - 1) with k by lia; assumption.
Qed.
Lemma znth_of_In {B} (l : list B) x : In x l -> exists k, znth l k = Some x.
Proof.
  clear. intros H. apply In_nth_error in H as [n Hn]. exists (Z.of_nat n). unfold znth. destruct (Z.ltb_spec (Z.of_nat n) 0); [lia|]. rewrite Nat2Z.id. exact Hn.
Qed.
Lemma In_of_znth {B} (l : list B) x k : znth l k = Some x -> In x l.
Proof. clear. intros H. unfold znth in H. destruct (k <? 0); [discriminate|]. eapply nth_error_In; eauto. Qed.

Definition indexed (cs : list (list A)) (i : Z) (d : nat) : list (Z * list A) :=
  map (fun j => (i + Z.of_nat j, column cs (i + Z.of_nat j))) (seq 0 d).
Lemma indexed_S cs i d : indexed cs i (Datatypes.S d) = (i, column cs i) :: indexed cs (i + 1) d.
Proof.
  clear Hbody. unfold indexed. cbn [seq map]. rewrite Z.add_0_r. f_equal. rewrite <- seq_shift, map_map. apply map_ext. intros j. replace (i + Z.of_nat (Datatypes.S j)) with (i + 1 + Z.of_nat j) by lia. reflexivity.
Qed.
Lemma indexed_ext cs cs' i d : (forall j, i <= j -> column cs j = column cs' j) -> indexed cs i d = indexed cs' i d.
Proof. clear Hbody. intros H. unfold indexed. apply map_ext. intros j. rewrite (H (i + Z.of_nat j)) by lia. reflexivity. Qed.
Lemma zip_loop_eq : forall d fuel i s cs, 0 <= i -> cs <> [] -> (forall c, In c cs -> i + Z.of_nat d <= zlen c) ->
  (exists c, In c cs /\ zlen c = i + Z.of_nat d) -> (d <= fuel)%nat -> i + Z.of_nat d < 2 ^ 64 ->
  exists cs', zip_loop fuel body s cs i (its_at i cs) = Ok (fst (srun body s (indexed cs i d)), cs') /\
    zlen cs' = zlen cs /\
    forall k c, znth cs k = Some c -> exists c', znth cs' k = Some c' /\ zlen c' = zlen c /\
      forall j, znth c' j = if (i <=? j) && (j <? i + Z.of_nat d) then cell (snd (srun body s (indexed cs i d))) (j - i) k else znth c j.
Proof using Hbody.
  induction d as [|d IH]; intros fuel i s cs Hi Hne HL (c0 & Hc0 & Hlen) HF HW.
  - exists cs. assert (E : any_match (its_at i cs) (map zlen cs) = true).
    { rewrite any_match_at. apply existsb_exists. exists c0. split; [exact Hc0|]. apply Z.eqb_eq. lia. }
    split; [destruct fuel; cbn [zip_loop]; rewrite E; reflexivity|]. split; [reflexivity|]. intros k c Hk. exists c. splits; auto.
    intros j. destruct (Z.leb_spec i j), (Z.ltb_spec j (i + Z.of_nat 0)); cbn [andb]; try lia; reflexivity.
  - destruct fuel as [|fuel]; [lia|]. cbn [zip_loop]. rewrite any_match_at.
    assert (E : existsb (fun c => i =? zlen c) cs = false).
    { apply not_true_iff_false. intros H. apply existsb_exists in H as (c & Hc & E). apply Z.eqb_eq in E. specialize (HL c Hc). lia. }
    rewrite E. clear E. destruct (rd_all_at i cs Hi) as [E1 L1]; [intros c Hc; specialize (HL c Hc); lia|]. rewrite E1. cbn [bind].
    rewrite indexed_S. cbn [srun]. pose proof (Hbody s i (column cs i)) as HB. destruct (body s (i, column cs i)) as [s1 vs'] eqn:EB. cbn [snd] in HB.
    destruct (wr_all_at i cs vs' Hi) as (cs1 & E2 & L2 & H2); [intros c Hc; specialize (HL c Hc); lia|congruence|]. rewrite E2. cbn [bind].
    rewrite word_small by lia.
    assert (HK : forall k c1, znth cs1 k = Some c1 -> exists c v, znth cs k = Some c /\ znth vs' k = Some v /\ c1 = zupd c i v).
    { intros k c1 Hk. pose proof (znth_some_range _ _ _ Hk) as HR. destruct (znth_some cs k) as [c Hc]; [unfold zlen in *; lia|].
      destruct (znth_some vs' k) as [v Hv]; [unfold zlen in *; lia|]. exists c, v. specialize (H2 k c v Hc Hv). splits; auto; congruence. }
    assert (EI : map (fun i0 => i0 + 1) (its_at i cs) = its_at (i + 1) cs1).
    { unfold its_at. rewrite map_map. clear - L2. revert cs1 L2. induction cs as [|c cs IHc]; intros [|c1 cs1] L2; cbn in *; try discriminate; [reflexivity|]. f_equal. apply IHc. lia. }
    rewrite EI. assert (HC : forall j, i + 1 <= j -> column cs1 j = column cs j).
    { intros j Hj. apply column_ext; [exact L2|]. intros k a b Ha Hb. destruct (HK k a Ha) as (c & v & Hc & Hv & ->).
      assert (c = b) by congruence. subst b. apply znth_zupd_ne. lia. }
    destruct (IH fuel (i + 1) s1 cs1) as (cs2 & E3 & L3 & H3).
    + lia.
    + destruct cs1; [destruct cs; [congruence|discriminate]|discriminate].
    + intros c1 Hc1. apply znth_of_In in Hc1 as [k Hk]. destruct (HK k c1 Hk) as (c & v & Hc & Hv & ->). rewrite zlen_zupd. specialize (HL c (In_of_znth _ _ _ Hc)). lia.
    + apply znth_of_In in Hc0 as [k Hk]. destruct (znth_some vs' k) as [v Hv]; [apply znth_some_range in Hk; unfold zlen in *; lia|].
      exists (zupd c0 i v). split; [eapply In_of_znth, H2; eauto|]. rewrite zlen_zupd. lia.
    + lia.
    + lia.
    + rewrite (indexed_ext cs1 cs (i + 1) d HC) in E3, H3. destruct (srun body s1 (indexed cs (i + 1) d)) as [s2 outs]. cbn [fst snd] in *.
      exists cs2. split; [exact E3|]. split; [unfold zlen in *; lia|]. intros k c Hk.
      destruct (znth_some vs' k) as [v Hv]; [apply znth_some_range in Hk; unfold zlen in *; lia|].
      destruct (H3 k (zupd c i v) (H2 k c v Hk Hv)) as (c' & Hc' & Lc' & Hz). exists c'. split; [exact Hc'|]. split; [rewrite zlen_zupd in Lc'; exact Lc'|].
      intros j. rewrite Hz. specialize (HL c (In_of_znth _ _ _ Hk)). destruct (Z.eq_dec j i) as [->|Hj].
      * destruct (Z.leb_spec (i + 1) i); [lia|]. destruct (Z.leb_spec i i); [|lia]. destruct (Z.ltb_spec i (i + Z.of_nat (Datatypes.S d))); [|lia]. cbn [andb].
        rewrite znth_zupd_eq by lia. unfold cell. rewrite Z.sub_diag, znth_cons_0. symmetry. exact Hv.
      * rewrite znth_zupd_ne by lia. destruct (Z.leb_spec (i + 1) j), (Z.leb_spec i j), (Z.ltb_spec j (i + 1 + Z.of_nat d)), (Z.ltb_spec j (i + Z.of_nat (Datatypes.S d))); cbn [andb]; try lia; try reflexivity.
        unfold cell. rewrite znth_cons_pos by lia. replace (j - i - 1) with (j - (i + 1)) by lia. reflexivity.
Qed.
Lemma zip_correct fuel s cs n : cs <> [] -> shortest cs n -> n <= Z.of_nat fuel -> n < 2 ^ 64 ->
  let visits := ztab n (fun i => (i, column cs i)) in
  exists cs', zip_for fuel body s cs = Ok (fst (srun body s visits), cs') /\ zlen cs' = zlen cs /\
    forall k c, znth cs k = Some c -> exists c', znth cs' k = Some c' /\ zlen c' = zlen c /\
      forall j, znth c' j = if (0 <=? j) && (j <? n) then cell (snd (srun body s visits)) j k else znth c j.
Proof using Hbody.
  intros Hne (H1 & c0 & H2 & H3) HF HW visits. assert (H0 : 0 <= n) by (rewrite <- H3; apply zlen_nonneg).
  assert (EV : visits = indexed cs 0 (Z.to_nat n)) by reflexivity. rewrite EV.
  destruct (zip_loop_eq (Z.to_nat n) fuel 0 s cs) as (cs' & E & L & H); [lia|exact Hne|intros c Hc; specialize (H1 c Hc); lia|exists c0; split; [exact H2|lia]|lia|lia|].
  exists cs'. split; [exact E|]. split; [exact L|]. intros k c Hk. destruct (H k c Hk) as (c' & A1 & A2 & A3). exists c'. splits; auto.
  intros j. rewrite A3. rewrite Z.add_0_l, Z2Nat.id, Z.sub_0_r by lia. reflexivity.
Qed.
End Zip.

(** partition *)
Lemma with_ids_eq MaxE vals : 0 <= MaxE ->
  with_ids MaxE vals = map (fun i => (value_at vals (Z.of_nat i), Z.of_nat i)) (seq 0 (Z.to_nat (Z.min (zlen vals) MaxE))).
Proof.
  intros HM. unfold with_ids. induction vals as [|v vals IH] using rev_ind; [cbn; rewrite Z.min_l by (change (@zlen Z []) with 0; lia); reflexivity|].
  rewrite fold_left_app. cbn [fold_left]. rewrite IH. clear IH. unfold push. rewrite zlen_map. rewrite zlen_app. change (zlen [v]) with 1.
  pose proof (zlen_nonneg vals) as H0. assert (EL : zlen (seq 0 (Z.to_nat (Z.min (zlen vals) MaxE))) = Z.min (zlen vals) MaxE) by (unfold zlen at 1; rewrite seq_length; lia).
  rewrite EL. assert (EM : map (fun i => (value_at (vals ++ [v]) (Z.of_nat i), Z.of_nat i)) (seq 0 (Z.to_nat (Z.min (zlen vals) MaxE))) = map (fun i => (value_at vals (Z.of_nat i), Z.of_nat i)) (seq 0 (Z.to_nat (Z.min (zlen vals) MaxE)))).
  { apply map_ext_in. intros i Hi. apply in_seq in Hi. unfold value_at. rewrite znth_app_l by lia. reflexivity. }
  destruct (Z.ltb_spec (Z.min (zlen vals) MaxE) MaxE) as [L|L].
  - replace (Z.to_nat (Z.min (zlen vals + 1) MaxE)) with (S (Z.to_nat (Z.min (zlen vals) MaxE))) by lia. rewrite seq_S, map_app, EM. cbn [map Nat.add].
    f_equal. f_equal. f_equal; [|lia]. unfold value_at. rewrite znth_app_r by lia. replace (Z.of_nat (Z.to_nat (Z.min (zlen vals) MaxE)) - zlen vals) with 0 by lia. reflexivity.
  - replace (Z.min (zlen vals + 1) MaxE) with (Z.min (zlen vals) MaxE) by lia. symmetry. exact EM.
Qed.
Lemma min_index_spec l : forall best besti i, 0 <= besti < i ->
  let r := min_index best besti i l in
  (r = besti \/ i <= r < i + zlen l) /\
  (r = besti -> Forall (fun x => best <= x) l) /\
  (r <> besti -> exists x, znth l (r - i) = Some x /\ x <= best /\ Forall (fun y => x <= y) l).
Proof.
  induction l as [|x l IH]; intros best besti i Hb r; [unfold r; cbn; splits; auto; congruence|]. unfold r. cbn [min_index]. rewrite zlen_cons. pose proof (zlen_nonneg l).
  destruct (Z.ltb_spec x best).
  - destruct (IH x i (i + 1) ltac:(lia)) as (H1 & H2 & H3). set (q := min_index x i (i + 1) l) in *. split; [lia|]. split; [lia|]. intros _.
    destruct (Z.eq_dec q i) as [E|E].
    + exists x. rewrite E, Z.sub_diag, znth_cons_0. split; [auto|]; split; [lia|constructor; [lia|auto]].
    + destruct (H3 E) as (y & A1 & A2 & A3). exists y. rewrite znth_cons_pos by lia. replace (q - i - 1) with (q - (i + 1)) by lia. split; [auto|]; split; [lia|constructor; [lia|auto]].
  - destruct (IH best besti (i + 1) ltac:(lia)) as (H1 & H2 & H3). set (q := min_index best besti (i + 1) l) in *. split; [lia|]. split.
    + intros E. constructor; [lia|auto].
    + intros E. destruct (H3 E) as (y & A1 & A2 & A3). exists y. rewrite znth_cons_pos by lia. replace (q - i - 1) with (q - (i + 1)) by lia. split; [auto|]; split; [auto|constructor; [lia|auto]].
Qed.
Lemma argmin_spec l : l <> [] -> exists m, znth l (argmin l) = Some m /\ 0 <= argmin l < zlen l /\ Forall (fun y => m <= y) l.
Proof.
  destruct l as [|x l]; [congruence|]. intros _. cbn [argmin]. rewrite zlen_cons. pose proof (zlen_nonneg l).
  destruct (min_index_spec l x 0 1 ltac:(lia)) as (H1 & H2 & H3). set (q := min_index x 0 1 l) in *. destruct (Z.eq_dec q 0) as [E|E].
  - exists x. rewrite E, znth_cons_0. split; [auto|]; split; [lia|constructor; [lia|auto]].
  - destruct (H3 E) as (y & A1 & A2 & A3). exists y. rewrite znth_cons_pos by lia. split; [auto|]; split; [lia|constructor; [lia|auto]].
Qed.
Lemma set_init_ok init : forall sums i, 0 <= i -> i + zlen init <= zlen sums ->
  exists s', set_init sums i init = Ok s' /\ zlen s' = zlen sums /\ forall k, znth s' k = if (i <=? k) && (k <? i + zlen init) then znth init (k - i) else znth sums k.
Proof.
  induction init as [|v init IH]; intros sums i Hi HL; cbn [set_init].
  - exists sums. splits; auto. intros k. change (@zlen Z []) with 0. destruct (Z.leb_spec i k), (Z.ltb_spec k (i + 0)); cbn [andb]; try lia; reflexivity.
  - rewrite zlen_cons in *. pose proof (zlen_nonneg init). rewrite wr_ok by lia. cbn [bind]. destruct (IH (zupd sums i v) (i + 1)) as (s' & E & L & H'); [lia|rewrite zlen_zupd; lia|].
    exists s'. rewrite zlen_zupd in L. splits; auto. intros k. rewrite H', znth_cons, znth_zupd.
    destruct (Z.eqb_spec (k - i) 0).
    + replace k with i by lia. destruct (Z.leb_spec (i + 1) i); [lia|]. destruct (Z.leb_spec i i); [|lia]. destruct (Z.ltb_spec i (i + (zlen init + 1))); [|lia]. cbn [andb].
      destruct (Z.eqb_spec i i); [|lia]. cbn [andb]. destruct (Z.leb_spec 0 i), (Z.ltb_spec i (zlen sums)); cbn [andb]; try lia; reflexivity.
    + destruct (Z.leb_spec (i + 1) k), (Z.leb_spec i k), (Z.ltb_spec k (i + 1 + zlen init)), (Z.ltb_spec k (i + (zlen init + 1))); cbn [andb]; try lia;
        try (destruct (Z.eqb_spec i k); [lia|]); cbn [andb]; try reflexivity.
      destruct (Z.ltb_spec (k - i) 0); [lia|]. f_equal. lia.
Qed.
Lemma set_init_long init : forall sums i, 0 <= i -> i <= zlen sums -> zlen sums < i + zlen init -> set_init sums i init = UB OutOfBounds.
Proof.
  induction init as [|v init IH]; intros sums i Hi HL HB; [change (@zlen Z []) with 0 in HB; lia|]. rewrite zlen_cons in HB. cbn [set_init].
  destruct (Z.eq_dec i (zlen sums)) as [E|E]; [rewrite wr_oob by lia; reflexivity|]. rewrite wr_ok by lia. cbn [bind]. apply IH; rewrite ?zlen_zupd; lia.
Qed.
Lemma znth_split {A} (l : list A) i x : znth l i = Some x -> exists l1 l2, l = l1 ++ x :: l2 /\ zlen l1 = i.
Proof.
  intros H. pose proof (znth_some_range _ _ _ H) as HR. unfold znth in H. destruct (Z.ltb_spec i 0); [lia|].
  apply nth_error_split in H as (l1 & l2 & E & HL). exists l1, l2. split; [exact E|]. unfold zlen. lia.
Qed.
Section Place.
Variables (NumP MaxE : Z) (V : Z -> Z) (base : Z -> Z).
Record pinv (sums : list Z) (parts : list (list Z)) (don : list Z) : Prop := {
  pi_len : zlen sums = NumP /\ zlen parts = NumP;
  pi_nonneg : Forall (fun s => 0 <= s) sums;
  pi_sum : forall k s l, znth sums k = Some s -> znth parts k = Some l -> s = base k + zsum (map V l);
  pi_perm : Permutation (concat parts) don;
  pi_last : forall k s l x, znth sums k = Some s -> znth parts k = Some (l ++ [x]) ->
              Forall (fun q => s - V x <= q) sums /\ Forall (fun y => V x <= V y) l }.
Lemma place_ok ordered : forall sums parts don, 0 < NumP -> pinv sums parts don ->
  StronglySorted (fun a b : Z * Z => fst b <= fst a) ordered -> Forall (fun p => fst p = V (snd p) /\ 0 <= fst p) ordered ->
  Forall (fun y => Forall (fun p => fst p <= V y) ordered) don -> zsum sums + zsum (map fst ordered) < 2 ^ 32 ->
  zlen don + zlen ordered <= MaxE ->
  exists sums' parts', place MaxE sums parts ordered = Ok parts' /\ pinv sums' parts' (don ++ map snd ordered).
Proof.
  induction ordered as [|[v i] ordered IH]; intros sums parts don HN HI HS HV HD HB HM.
  - exists sums, parts. split; [reflexivity|]. rewrite app_nil_r. exact HI.
  - destruct HI as [[L1 L2] H0 H1 H2 H3]. inversion HS as [|? ? HS' HSv]; subst. inversion HV as [|? ? [EV Hv0] HV']; subst. cbn [fst snd] in *.
    cbn [place map]. destruct (argmin_spec sums) as (m & Em & Hr & Hmin); [intros ->; change (@zlen Z []) with 0 in *; lia|].
    set (idx := argmin sums) in *. rewrite (rd_ok _ _ _ Em). cbn [bind]. destruct (znth_some parts idx) as [p Ep]; [lia|].
    assert (Hm0 : 0 <= m) by (eapply (proj1 (Forall_forall _ _) H0), In_of_znth; eauto).
    destruct (znth_split _ _ _ Em) as (s1 & s2 & Es & Ls1). destruct (znth_split _ _ _ Ep) as (p1 & p2 & Eps & Lp1).
    cbn [map fst] in HB. rewrite zsum_cons in HB. rewrite zlen_cons in HM.
    assert (HZ : Forall (fun p => 0 <= fst p) ordered) by (eapply Forall_impl; [|exact HV']; cbn; tauto).
    assert (HZ0 : 0 <= zsum (map fst ordered)). { clear - HZ. induction HZ as [|a l Ha Hl IHl]; [cbn; lia|]. cbn [map]. rewrite zsum_cons. lia. }
    assert (HMS : m <= zsum sums).
    { rewrite Es, zsum_app, zsum_cons. rewrite Es in H0. apply Forall_app in H0 as [A1 A2]. inversion A2; subst.
      assert (HP : forall l, Forall (fun s => 0 <= s) l -> 0 <= zsum l) by (induction 1; [cbn; lia|]; rewrite zsum_cons; lia). pose proof (HP _ A1). pose proof (HP _ H5). lia. }
    rewrite wr_ok by lia. rewrite word_small by lia. cbn [bind]. rewrite (rd_ok _ _ _ Ep). cbn [bind]. rewrite wr_ok by lia. cbn [bind].
    assert (HPL : zlen p < MaxE).
    { assert (zlen p <= zlen don); [|pose proof (zlen_nonneg ordered); lia]. unfold zlen. rewrite <- (Permutation_length H2). rewrite Eps, concat_app. cbn [concat]. rewrite !app_length. lia. }
    unfold push. destruct (Z.ltb_spec (zlen p) MaxE); [|lia].
    assert (EV' : V i = v) by congruence.
    destruct (IH (zupd sums idx (m + v)) (zupd parts idx (p ++ [i])) (don ++ [i]) HN) as (sums' & parts' & E & HI').
    + split.
      * rewrite !zlen_zupd. auto.
      * rewrite Es, zupd_mid by exact Ls1. rewrite Es in H0. apply Forall_app in H0 as [A1 A2]. inversion A2; subst. apply Forall_app. split; [exact A1|]. constructor; [lia|assumption].
      * intros k s l Hs Hl. rewrite znth_zupd in Hs. rewrite znth_zupd in Hl. destruct (Z.eqb_spec idx k) as [->|Hk]; cbn [andb] in *.
        -- destruct (Z.leb_spec 0 k), (Z.ltb_spec k (zlen sums)), (Z.ltb_spec k (zlen parts)); cbn [andb] in *; try lia. injection Hs as <-. injection Hl as <-.
           rewrite map_app, zsum_app. cbn [map]. rewrite zsum_cons. change (zsum []) with 0. rewrite (H1 k m p Em Ep). lia.
        -- eauto.
      * rewrite Eps, zupd_mid by exact Lp1. rewrite concat_app. cbn [concat]. rewrite Eps, concat_app in H2. cbn [concat] in H2.
        transitivity ((concat p1 ++ p ++ concat p2) ++ [i]); [|apply Permutation_app_tail; exact H2].
        rewrite <- !app_assoc. do 2 apply Permutation_app_head. apply Permutation_app_comm.
      * assert (HG : forall b, Forall (fun q => b <= q) sums -> b <= m + v -> Forall (fun q => b <= q) (zupd sums idx (m + v))).
        { intros b Hb Hbm. rewrite Es, zupd_mid by exact Ls1. rewrite Es in Hb. apply Forall_app in Hb as [A1 A2]. inversion A2; subst. apply Forall_app. split; [exact A1|]. constructor; assumption. }
        intros k s l x Hs Hl. rewrite znth_zupd in Hs. rewrite znth_zupd in Hl. destruct (Z.eqb_spec idx k) as [->|Hk]; cbn [andb] in *.
        -- destruct (Z.leb_spec 0 k), (Z.ltb_spec k (zlen sums)), (Z.ltb_spec k (zlen parts)); cbn [andb] in *; try lia. injection Hs as <-. injection Hl as Hl.
           apply app_inj_tail in Hl as [-> ->]. split; [apply HG; [|lia]; replace (m + v - V x) with m by lia; exact Hmin|].
           apply Forall_forall. intros y Hy. assert (HY : In y don). { eapply Permutation_in; [exact H2|]. rewrite Eps, concat_app. apply in_or_app. right. cbn [concat]. apply in_or_app. left. exact Hy. }
           pose proof (proj1 (Forall_forall _ _) HD y HY) as HF. inversion HF; subst. cbn [fst] in *. lia.
        -- destruct (H3 k s l x Hs Hl) as [A1 A2]. split; [|exact A2]. apply HG; [exact A1|].
           pose proof (proj1 (Forall_forall _ _) A1 m (In_of_znth _ _ _ Em)) as HX. cbn beta in HX. lia.
    + exact HS'.
    + exact HV'.
    + apply Forall_app. split.
      * eapply Forall_impl; [|exact HD]. intros y Hy. inversion Hy; assumption.
      * repeat constructor. eapply Forall_impl; [|exact HSv]. cbn. intros a Ha. lia.
    + rewrite Es, zupd_mid by exact Ls1. rewrite Es in HB. rewrite zsum_app, zsum_cons in HB |- *. lia.
    + rewrite zlen_app. change (zlen [i]) with 1. lia.
    + exists sums', parts'. split; [exact E|]. rewrite <- app_assoc in HI'. exact HI'.
Qed.
End Place.
Lemma concat_repeat_nil {A} n : concat (repeat (@nil A) n) = [].
Proof. induction n; [reflexivity|exact IHn]. Qed.
Lemma partition_ok NumP MaxE sort vals init : 0 < NumP -> 0 <= MaxE -> sorts_descending sort ->
  Forall (fun v => 0 <= v) vals -> Forall (fun v => 0 <= v) init -> zlen init <= NumP -> zsum init + zsum vals < 2 ^ 32 ->
  exists parts, calc_partitions NumP MaxE sort vals init = Ok parts /\ zlen parts = NumP /\
    Permutation (concat parts) (ztab (Z.min (zlen vals) MaxE) (fun i => i)) /\
    forall p l x, znth parts p = Some (l ++ [x]) ->
      (forall q, 0 <= q < NumP -> part_sum vals init parts p - value_at vals x <= part_sum vals init parts q) /\
      Forall (fun y => value_at vals x <= value_at vals y) l.
Proof.
  intros HN HM HSort HV HIn HL HB. unfold calc_partitions.
  destruct (set_init_ok init (zrepeat 0 NumP) 0 ltac:(lia)) as (sums & E & L & HZ); [rewrite zlen_zrepeat by lia; lia|]. rewrite E. cbn [bind]. rewrite zlen_zrepeat in L by lia.
  destruct (HSort (with_ids MaxE vals)) as [HP HS]. set (ordered := sort (with_ids MaxE vals)) in *.
  assert (HVal : Forall (fun p => fst p = value_at vals (snd p) /\ 0 <= fst p) ordered).
  { apply Forall_forall. intros p Hp. apply (Permutation_in _ (Permutation_sym HP)) in Hp. rewrite with_ids_eq in Hp by lia. apply in_map_iff in Hp as (i & <- & Hi). cbn [fst snd]. split; [reflexivity|].
    unfold value_at. destruct (znth vals (Z.of_nat i)) eqn:EZ; [|lia]. eapply (proj1 (Forall_forall _ _) HV), In_of_znth; eauto. }
  assert (HSums : forall k s, znth sums k = Some s -> s = value_at init k).
  { intros k s Hk. rewrite HZ in Hk. unfold value_at. pose proof (zlen_nonneg init). destruct (Z.leb_spec 0 k), (Z.ltb_spec k (0 + zlen init)); cbn [andb] in Hk.
    - rewrite Z.sub_0_r in Hk. rewrite Hk. reflexivity.
    - rewrite znth_zrepeat_if in Hk. destruct ((0 <=? k) && (k <? NumP)); [|discriminate]. injection Hk as <-. rewrite znth_none by lia. reflexivity.
    - rewrite znth_zrepeat_if in Hk. destruct (Z.leb_spec 0 k); [lia|discriminate].
    - rewrite znth_zrepeat_if in Hk. destruct (Z.leb_spec 0 k); [lia|discriminate]. }
  assert (EZS : zsum sums = zsum init).
  { assert (ES : sums = init ++ zrepeat 0 (NumP - zlen init)).
    { apply znth_opt_ext. intros k Hk. rewrite HZ, znth_app, !znth_zrepeat_if. destruct (Z.ltb_spec k (zlen init)).
      - destruct (Z.leb_spec 0 k), (Z.ltb_spec k (0 + zlen init)); cbn [andb]; try lia. f_equal. lia.
      - destruct (Z.leb_spec 0 k), (Z.ltb_spec k (0 + zlen init)), (Z.ltb_spec k NumP), (Z.leb_spec 0 (k - zlen init)), (Z.ltb_spec (k - zlen init) (NumP - zlen init)); cbn [andb]; try lia; reflexivity. }
    rewrite ES, zsum_app, zsum_zrepeat. lia. }
  assert (HSub : zsum (map fst ordered) <= zsum vals).
  { assert (EP : forall l l', Permutation l l' -> zsum l = zsum l').
    { clear. induction 1; rewrite ?zsum_cons in *; try lia; reflexivity. }
    rewrite <- (EP _ _ (Permutation_map fst HP)), with_ids_eq, map_map by lia. cbn [fst].
    set (n := Z.to_nat (Z.min (zlen vals) MaxE)). assert (Hn : (n <= length vals)%nat) by (unfold n, zlen; lia). clearbody n. clear - HV Hn.
    assert (EF : map (fun x => value_at vals (Z.of_nat x)) (seq 0 n) = firstn n vals).
    { revert n Hn. induction vals as [|v vals IH] using rev_ind; intros n Hn; [destruct n; [reflexivity|cbn in Hn; lia]|].
      rewrite app_length in Hn. cbn in Hn. apply Forall_app in HV as [HV1 HV2]. destruct (Nat.eq_dec n (length vals + 1)) as [->|Hne].
      - rewrite firstn_all2 by (rewrite app_length; cbn; lia). replace (length vals + 1)%nat with (S (length vals)) by lia. rewrite seq_S, map_app. cbn [map Nat.add].
        f_equal; [|f_equal; unfold value_at; rewrite znth_app_r by (unfold zlen; lia); replace (Z.of_nat (length vals) - zlen vals) with 0 by (unfold zlen; lia); reflexivity].
        transitivity (firstn (length vals) vals); [|apply firstn_all]. rewrite <- IH by (auto; lia). apply map_ext_in. intros x Hx. apply in_seq in Hx. unfold value_at. rewrite znth_app_l by (unfold zlen; lia). reflexivity.
      - rewrite firstn_app. replace (n - length vals)%nat with O by lia. cbn [firstn]. rewrite app_nil_r, <- IH by (auto; lia). apply map_ext_in. intros x Hx. apply in_seq in Hx. unfold value_at. rewrite znth_app_l by (unfold zlen; lia). reflexivity. }
    rewrite EF. rewrite <- (firstn_skipn n vals) at 2. rewrite zsum_app. rewrite <- (firstn_skipn n vals) in HV. apply Forall_app in HV as [_ HV].
    assert (0 <= zsum (skipn n vals)) by (induction HV; [cbn; lia|rewrite zsum_cons; lia]). lia. }
  assert (HI : pinv NumP (value_at vals) (value_at init) sums (zrepeat [] NumP) []).
  { split.
    - rewrite zlen_zrepeat by lia. auto.
    - apply Forall_forall. intros s Hs. apply znth_of_In in Hs as [k Hk]. rewrite (HSums k s Hk). unfold value_at. destruct (znth init k) eqn:EI; [|lia]. eapply (proj1 (Forall_forall _ _) HIn), In_of_znth; eauto.
    - intros k s l Hs Hl. rewrite (HSums k s Hs). rewrite znth_zrepeat_if in Hl. destruct ((0 <=? k) && (k <? NumP)); [|discriminate]. injection Hl as <-. cbn. lia.
    - unfold zrepeat. rewrite concat_repeat_nil. constructor.
    - intros k s l x Hs Hl. rewrite znth_zrepeat_if in Hl. destruct ((0 <=? k) && (k <? NumP)); [|discriminate]. injection Hl as Hl. destruct l; discriminate. }
  assert (HLen : zlen ordered = Z.min (zlen vals) MaxE).
  { unfold zlen at 1. rewrite <- (Permutation_length HP), with_ids_eq, map_length, seq_length by lia. pose proof (zlen_nonneg vals). lia. }
  destruct (place_ok NumP MaxE (value_at vals) (value_at init) ordered sums (zrepeat [] NumP) [] HN HI HS HVal) as (sums' & parts & EP & [[L1 L2] HI0 HI1 HI2 HI3]);
    [constructor|lia|change (@zlen Z []) with 0; lia|].
  exists parts. split; [exact EP|]. split; [exact L2|]. split.
  - rewrite HI2. cbn [app]. transitivity (map snd (with_ids MaxE vals)); [apply Permutation_map, Permutation_sym, HP|]. rewrite with_ids_eq, map_map by lia. cbn [snd]. unfold ztab. reflexivity.
  - intros p l x Hp. pose proof (znth_some_range _ _ _ Hp) as HR. destruct (znth_some sums' p) as [s Hs]; [lia|]. destruct (HI3 p s l x Hs Hp) as [A1 A2]. split; [|exact A2].
    intros q Hq. destruct (znth_some sums' q) as [t Ht]; [lia|]. destruct (znth_some parts q) as [m Hm]; [lia|]. unfold part_sum. rewrite Hp, Hm.
    rewrite <- (HI1 p s _ Hs Hp), <- (HI1 q t m Ht Hm). exact (proj1 (Forall_forall _ _) A1 t (In_of_znth _ _ _ Ht)).
Qed.
Lemma partition_balanced NumP MaxE sort vals parts big : 0 < NumP -> 0 <= MaxE -> sorts_descending sort ->
  Forall (fun v => 0 <= v <= big) vals -> zsum vals < 2 ^ 32 -> 0 <= big -> calc_partitions NumP MaxE sort vals [] = Ok parts ->
  forall p q, 0 <= p < NumP -> 0 <= q < NumP -> Z.abs (part_sum vals [] parts p - part_sum vals [] parts q) <= big.
Proof.
  intros HN HM HS HV HB Hbig HE. assert (HV0 : Forall (fun v => 0 <= v) vals) by (eapply Forall_impl; [|exact HV]; cbn; lia).
  destruct (partition_ok NumP MaxE sort vals [] HN HM HS HV0 (Forall_nil _)) as (parts' & E & L & _ & H); [change (@zlen Z []) with 0; lia|cbn; lia|].
  rewrite HE in E. injection E as <-.
  assert (HVB : forall x, 0 <= value_at vals x <= big).
  { intros x. unfold value_at. destruct (znth vals x) eqn:EZ; [|lia]. exact (proj1 (Forall_forall _ _) HV z (In_of_znth _ _ _ EZ)). }
  assert (HX : forall p q, 0 <= p < NumP -> 0 <= q < NumP -> part_sum vals [] parts p - part_sum vals [] parts q <= big).
  { intros p q Hp Hq. destruct (znth_some parts p) as [l Hl]; [lia|]. destruct l as [|a l'] using rev_ind.
    - assert (0 <= part_sum vals [] parts q).
      { unfold part_sum at 1. unfold value_at at 1. rewrite znth_nil. destruct (znth parts q) as [m|]; [|lia]. assert (0 <= zsum (map (value_at vals) m)); [|lia].
        clear - HVB. induction m; [cbn; lia|]. cbn [map]. rewrite zsum_cons. specialize (HVB a). lia. }
      assert (part_sum vals [] parts p = 0) by (unfold part_sum; rewrite Hl; unfold value_at at 1; rewrite znth_nil; reflexivity). lia.
    - destruct (H p l' a Hl) as [A _]. specialize (A q Hq). specialize (HVB a). lia. }
  intros p q Hp Hq. pose proof (HX p q Hp Hq). pose proof (HX q p Hq Hp). lia.
Qed.
Lemma partition_long NumP MaxE sort vals init : 0 <= NumP -> NumP < zlen init -> calc_partitions NumP MaxE sort vals init = UB OutOfBounds.
Proof.
  intros HN HL. unfold calc_partitions. rewrite set_init_long; [reflexivity|lia|rewrite zlen_zrepeat by lia; lia|rewrite zlen_zrepeat by lia; lia].
Qed.
(** a sort meeting the assumption *)
Fixpoint ins (x : Z * Z) (l : list (Z * Z)) : list (Z * Z) :=
  match l with [] => [x] | y :: r => if fst y <=? fst x then x :: l else y :: ins x r end.
Definition isort (l : list (Z * Z)) : list (Z * Z) := fold_right ins [] l.
Lemma ins_perm x l : Permutation (x :: l) (ins x l).
Proof.
  induction l as [|y r IH]; cbn; [reflexivity|]. destruct (fst y <=? fst x); [reflexivity|].
  transitivity (y :: x :: r); [apply perm_swap|apply perm_skip; exact IH].
Qed.
Lemma isort_sorts : sorts_descending isort.
Proof.
  intros l. induction l as [|x l [IHP IHS]]; [split; constructor|]. cbn [isort fold_right]. fold (isort l). split.
  - rewrite <- ins_perm. apply perm_skip. exact IHP.
  - revert IHS. generalize (isort l) as s. clear. induction s as [|y r IH]; intros HS; cbn [ins]; [repeat constructor|].
    inversion HS as [|? ? HS' HF]; subst. destruct (Z.leb_spec (fst y) (fst x)).
    + constructor; [exact HS|]. constructor; [assumption|]. eapply Forall_impl; [|exact HF]. cbn. intros. lia.
    + constructor; [apply IH; exact HS'|]. eapply Permutation_Forall; [apply ins_perm|]. constructor; [lia|exact HF].
Qed.

Lemma zip_none {A S : Type} (body : S -> Z * list A -> S * list A) fuel : forall s cnt, zip_loop fuel body s [] cnt [] = OutOfFuel.
Proof.
  induction fuel as [|f IH]; intros s cnt; [reflexivity|]. cbn. destruct (body s (cnt, [])) as [s' vs']. cbn [bind]. apply IH.
Qed.
Lemma any_between x1 x2 (xs : list Z) y1 y2 ys :
  exists m, length m = length (x1 :: x2 :: xs) /\ any_match (x1 :: x2 :: xs) m = true /\ any_match m (y1 :: y2 :: ys) = true.
Proof.
  exists (x1 :: y2 :: xs). unfold any_match. cbn [length combine existsb fst snd]. rewrite !Z.eqb_refl, ?orb_true_r. auto.
Qed.
