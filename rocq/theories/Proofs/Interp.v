From Coq Require Import QArith Lqa.
From Verif.Common Require Import Base Lemmas Lists.
From Verif.Spec Require Import InterpSpec.
From Verif.Model Require Import Interp.
Open Scope Z_scope.

Section Fia.
Context {A : Type} (add sub div : A -> A -> A) (of_int : Z -> A).
Context {F : Type} (fstep : F -> A -> F * A).
Notation step := (fi_step add sub div of_int fstep).

Lemma readings_znth lanes : forall i0 read_fn num i p f, znth lanes i = Some (p, f) ->
  znth (fi_readings sub div of_int fstep i0 lanes read_fn num) i =
  Some (iv_set sub div of_int p (snd (fstep f (read_fn (i0 + i)))) num, fst (fstep f (read_fn (i0 + i)))).
Proof.
  induction lanes as [|[q g] lanes IH]; intros i0 read_fn num i p f H; [rewrite znth_nil in H; discriminate|].
  pose proof (znth_some_range _ _ _ H) as HR. cbn [fi_readings]. destruct (fstep g (read_fn i0)) as [g' v] eqn:E.
  rewrite znth_cons in H |- *. destruct (Z.eqb_spec i 0) as [->|Hi].
  - injection H as -> ->. rewrite Z.add_0_r, E. reflexivity.
  - destruct (Z.ltb_spec i 0); [discriminate|]. rewrite (IH (i0 + 1) read_fn num (i - 1) p f H). replace (i0 + 1 + (i - 1)) with (i0 + i) by lia. reflexivity.
Qed.
Lemma readings_len lanes : forall i0 read_fn num, zlen (fi_readings sub div of_int fstep i0 lanes read_fn num) = zlen lanes.
Proof.
  induction lanes as [|[q g] lanes IH]; intros; [reflexivity|]. cbn [fi_readings]. destruct (fstep g (read_fn i0)). rewrite !zlen_cons, IH. reflexivity.
Qed.

(** k reads after an effective add_new_readings *)
Fixpoint gets (k : nat) (s : fia) : fia := match k with O => s | S k' => fst (step (gets k' s) IGet) end.
Lemma gets_state s n : fi_count s = 0 -> fi_num s = n -> 0 <= n -> forall k, Z.of_nat k < 2 ^ 32 ->
  let s' := gets k s in
  fi_count s' = Z.of_nat k /\ fi_num s' = n /\
  forall i p f, znth (fi_lanes s) i = Some (p, f) ->
    exists p', znth (fi_lanes s') i = Some (p', f) /\ iv_target p' = iv_target p /\ iv_step p' = iv_step p /\
      iv_cur p' = if (0 <? Z.of_nat k) && (n <=? Z.of_nat k) then iv_target p else Nat.iter k (fun x => add x (iv_step p)) (iv_cur p).
Proof.
  intros H0 Hn Hn0 k. induction k as [|k IH]; intros HB s'.
  - cbn in s'. subst s'. rewrite H0, Hn. split; [reflexivity|]. split; [reflexivity|]. intros i p f Hi. exists p. cbn. auto.
  - destruct (IH ltac:(lia)) as (E1 & E2 & E3). subst s'. cbn [gets fi_step fst fi_count fi_num fi_lanes]. rewrite E1, E2, word_small by lia.
    split; [lia|]. split; [reflexivity|]. intros i p f Hi. destruct (E3 i p f Hi) as (p' & Hp & A1 & A2 & A3).
    destruct (Z.geb_spec (Z.of_nat k + 1) n) as [HG|HG].
    + rewrite map_map, znth_map, Hp. cbn [option_map fst snd iv_snap]. eexists. split; [reflexivity|]. cbn [iv_target iv_step iv_cur].
      split; [exact A1|]. split; [exact A2|]. rewrite A1. destruct (Z.ltb_spec 0 (Z.of_nat (S k))), (Z.leb_spec n (Z.of_nat (S k))); cbn [andb]; try lia. reflexivity.
    + rewrite map_map, znth_map, Hp. cbn [option_map fst snd iv_next]. eexists. split; [reflexivity|]. cbn [iv_target iv_step iv_cur].
      split; [exact A1|]. split; [exact A2|]. rewrite A3, A2. destruct (Z.leb_spec n (Z.of_nat (S k))); [lia|]. destruct (Z.leb_spec n (Z.of_nat k)); [lia|].
      rewrite !andb_false_r. reflexivity.
Qed.
Lemma get_output s : forall i p f, znth (fi_lanes (fst (step s IGet))) i = Some (p, f) -> znth (snd (step s IGet)) i = Some (iv_cur p).
Proof.
  intros i p f. cbn [fi_step fst snd fi_lanes]. destruct (_ >=? _); rewrite !map_map, !znth_map; destruct (znth (fi_lanes s) i) as [[q g]|]; cbn; intros H; try discriminate; injection H as <- <-; reflexivity.
Qed.
Lemma fia_reads s read_fn i p f k : fi_ready s = true -> 0 <= fi_num s -> 0 <= fi_count s -> znth (fi_lanes s) i = Some (p, f) ->
  0 < Z.of_nat k < 2 ^ 32 ->
  let n := if fi_count s >? 0 then fi_count s else fi_num s in
  let target := snd (fstep f (read_fn i)) in
  let stp := if n >? 0 then div (sub target (iv_cur p)) (of_int n) else iv_step p in
  znth (snd (step (gets (Nat.pred k) (fst (step s (IAdd read_fn)))) IGet)) i =
  Some (if n <=? Z.of_nat k then target else Nat.iter k (fun x => add x stp) (iv_cur p)).
Proof.
  intros HR HN HC Hi Hk n target stp.
  assert (E : fst (step s (IAdd read_fn)) = FIA (fi_readings sub div of_int fstep 0 (fi_lanes s) read_fn n) false 0 n) by (cbn [fi_step]; rewrite HR; reflexivity).
  rewrite E. set (s1 := FIA _ _ _ _). assert (Hn : 0 <= n) by (unfold n; destruct (fi_count s >? 0); lia).
  pose proof (readings_znth (fi_lanes s) 0 read_fn n i p f Hi) as H1. rewrite Z.add_0_l in H1.
  destruct (gets_state s1 n eq_refl eq_refl Hn k ltac:(lia)) as (_ & _ & H). destruct (H i _ _ H1) as (p' & Hp & A1 & A2 & A3).
  assert (EG : gets k s1 = fst (step (gets (Nat.pred k) s1) IGet)) by (destruct k; [lia|reflexivity]).
  rewrite EG in Hp. rewrite (get_output _ _ _ _ Hp), A3. cbn [iv_set iv_target iv_cur iv_step]. fold target.
  destruct (Z.ltb_spec 0 (Z.of_nat k)); [|lia]. cbn [andb]. reflexivity.
Qed.
Lemma fia_wrap s read_fn i p f k : fi_ready s = true -> 0 <= fi_num s < 2 ^ 32 -> 0 <= fi_count s < 2 ^ 32 -> znth (fi_lanes s) i = Some (p, f) ->
  Z.of_nat k = 2 ^ 32 ->
  let n := if fi_count s >? 0 then fi_count s else fi_num s in
  let target := snd (fstep f (read_fn i)) in
  0 < n ->
  znth (snd (step (gets (Nat.pred k) (fst (step s (IAdd read_fn)))) IGet)) i =
  Some (add target (div (sub target (iv_cur p)) (of_int n))).
Proof.
  intros HR HN HC Hi Hk n target Hn0.
  assert (E : fst (step s (IAdd read_fn)) = FIA (fi_readings sub div of_int fstep 0 (fi_lanes s) read_fn n) false 0 n) by (cbn [fi_step]; rewrite HR; reflexivity).
  rewrite E. set (s1 := FIA _ _ _ _). assert (Hn : n < 2 ^ 32) by (unfold n; destruct (fi_count s >? 0); lia).
  pose proof (readings_znth (fi_lanes s) 0 read_fn n i p f Hi) as H1. rewrite Z.add_0_l in H1.
  destruct (gets_state s1 n eq_refl eq_refl ltac:(lia) (Nat.pred k) ltac:(lia)) as (B1 & B2 & H). destruct (H i _ _ H1) as (p' & Hp & A1 & A2 & A3).
  cbn [fi_step fst snd]. rewrite B1, B2. replace (Z.of_nat (Nat.pred k) + 1) with (2 ^ 32) by lia. change (word 32 (2 ^ 32)) with 0.
  destruct (Z.geb_spec 0 n); [lia|]. rewrite !map_map, znth_map, Hp. cbn [option_map fst snd iv_next]. f_equal. rewrite A3, A2. cbn [iv_set iv_target iv_cur iv_step].
  destruct (Z.gtb_spec n 0); [|lia]. destruct (Z.ltb_spec 0 (Z.of_nat (Nat.pred k))), (Z.leb_spec n (Z.of_nat (Nat.pred k))); cbn [andb]; try lia. reflexivity.
Qed.
(** what the other calls do *)
Lemma fia_reachable N f0 ops : 0 <= N -> Forall (fun o => match o with ISetNum n => 0 <= n < 2 ^ 32 | _ => True end) ops ->
  let s := fst (srun step (fia0 of_int N f0) ops) in
  zlen (fi_lanes s) = N /\ 0 <= fi_num s < 2 ^ 32 /\ 0 <= fi_count s < 2 ^ 32.
Proof.
  intros HN HF. cbn zeta. assert (HI : forall ops s, Forall (fun o => match o with ISetNum n => 0 <= n < 2 ^ 32 | _ => True end) ops ->
    zlen (fi_lanes s) = N /\ 0 <= fi_num s < 2 ^ 32 /\ 0 <= fi_count s < 2 ^ 32 ->
    let s' := fst (srun step s ops) in zlen (fi_lanes s') = N /\ 0 <= fi_num s' < 2 ^ 32 /\ 0 <= fi_count s' < 2 ^ 32).
  { clear ops HF. induction ops as [|o ops IH]; intros s HF HS; [exact HS|]. inversion HF; subst. cbn [srun].
    assert (HS' : zlen (fi_lanes (fst (step s o))) = zlen (fi_lanes s) /\ 0 <= fi_num (fst (step s o)) < 2 ^ 32 /\ 0 <= fi_count (fst (step s o)) < 2 ^ 32).
    { destruct HS as (L & H0 & H3). destruct o as [|rf| |n]; cbn [fi_step fst fi_lanes fi_num fi_count].
      - split; [reflexivity|lia].
      - destruct (fi_ready s); cbn [fst fi_lanes fi_num fi_count]; [|split; [reflexivity|lia]]. rewrite readings_len. split; [reflexivity|]. destruct (fi_count s >? 0); lia.
      - split; [destruct (_ >=? _); rewrite !zlen_map; reflexivity|]. split; [lia|]. apply word_range. lia.
      - split; [reflexivity|lia]. }
    destruct (step s o) as [s1 r] eqn:E. cbn [fst] in HS'. specialize (IH s1 H2). destruct (srun step s1 ops) as [s2 rs]. cbn [fst] in IH |- *. apply IH. intuition lia. }
  apply HI; [exact HF|]. cbn. rewrite zlen_zrepeat by lia. lia.
Qed.
Lemma fia_not_ready s read_fn : fi_ready s = false -> step s (IAdd read_fn) = (s, []).
Proof. intros H. cbn [fi_step]. rewrite H. reflexivity. Qed.
End Fia.

(** exact arithmetic *)
Lemma Qiter_add k (x st : Q) : (Nat.iter k (fun y => (y + st)%Q) x == x + inject_Z (Z.of_nat k) * st)%Q.
Proof.
  induction k as [|k IH]; [cbn; ring|]. cbn [Nat.iter nat_rect]. change (nat_rect (fun _ => Q) x (fun _ y => (y + st)%Q) k) with (Nat.iter k (fun y => (y + st)%Q) x).
  rewrite IH, Nat2Z.inj_succ. unfold Z.succ. rewrite inject_Z_plus. change (inject_Z 1) with 1%Q. ring.
Qed.
Lemma ip_iter {A} (add : A -> A -> A) k p : Nat.iter k (fun q => fst (ip_next add q)) p = IP (Nat.iter k (fun x => add x (ip_step p)) (ip_cur p)) (ip_step p).
Proof.
  induction k as [|k IH]; [destruct p; reflexivity|]. change (Nat.iter (S k) (fun q => fst (ip_next add q)) p) with (fst (ip_next add (Nat.iter k (fun q => fst (ip_next add q)) p))). rewrite IH. reflexivity.
Qed.
Lemma ip_exact n p v k : 0 < n ->
  (ip_cur (Nat.iter k (fun q => fst (ip_next Qplus q)) (ip_set Qminus Qdiv inject_Z n p v)) ==
   ip_cur p + (inject_Z (Z.of_nat k) / inject_Z n) * (v - ip_cur p))%Q.
Proof.
  intros Hn. rewrite ip_iter. cbn [ip_cur ip_set ip_step]. rewrite Qiter_add. field. intros H. rewrite Zlt_Qlt in Hn. rewrite H in Hn. apply Qlt_irrefl in Hn. exact Hn.
Qed.
Lemma ip_arrives n p v : 0 < n ->
  (ip_cur (Nat.iter (Z.to_nat n) (fun q => fst (ip_next Qplus q)) (ip_set Qminus Qdiv inject_Z n p v)) == v)%Q.
Proof.
  intros Hn. rewrite ip_exact by exact Hn. rewrite Z2Nat.id by lia. field. intros H. rewrite Zlt_Qlt in Hn. rewrite H in Hn. apply Qlt_irrefl in Hn. exact Hn.
Qed.

(** integers *)
Lemma Ziter_add k x st : Nat.iter k (fun y => y + st) x = x + Z.of_nat k * st.
Proof.
  induction k as [|k IH]; [cbn; lia|]. change (Nat.iter (S k) (fun y => y + st) x) with (Nat.iter k (fun y => y + st) x + st). rewrite IH. lia.
Qed.
Lemma int_misses n p v : 0 < n ->
  ip_cur (Nat.iter (Z.to_nat n) (fun q => fst (int_next q)) (int_set n p v)) = v - Z.rem (v - ip_cur p) n.
Proof.
  intros Hn. unfold int_next. rewrite ip_iter. cbn [ip_cur ip_step int_set ip_set]. rewrite Ziter_add, Z2Nat.id by lia.
  pose proof (Z.quot_rem' (v - ip_cur p) n). lia.
Qed.
Lemma Zwiter_add k x st : 0 <= x < 2 ^ 32 -> Nat.iter k (fun y => word 32 (y + st)) x = word 32 (x + Z.of_nat k * st).
Proof.
  intros Hx. induction k as [|k IH]; [cbn [Nat.iter nat_rect]; rewrite Z.add_0_r, word_small by lia; reflexivity|].
  change (Nat.iter (S k) (fun y => word 32 (y + st)) x) with (word 32 (Nat.iter k (fun y => word 32 (y + st)) x + st)). rewrite IH, word_add_l. f_equal. lia.
Qed.
Lemma uint_down n p v : 2 <= n <= 2 ^ 31 -> 0 <= v < ip_cur p -> ip_cur p < 2 ^ 31 ->
  snd (uint_next (uint_set n p v)) = ip_cur p + (2 ^ 32 - (ip_cur p - v)) / n /\
  ip_cur p < snd (uint_next (uint_set n p v)).
Proof.
  intros Hn Hv Hc. cbn [uint_next ip_next uint_set ip_set ip_cur ip_step snd].
  assert (E : word 32 (v - ip_cur p) = 2 ^ 32 - (ip_cur p - v)) by (unfold word; symmetry; apply Z.mod_unique with (-1); lia). rewrite E.
  set (D := 2 ^ 32 - (ip_cur p - v)) in *. assert (HD : 2 ^ 31 < D < 2 ^ 32) by lia.
  assert (H1 : 1 <= D / n) by (apply Z.div_le_lower_bound; lia). assert (H2 : D / n < 2 ^ 31) by (apply Z.div_lt_upper_bound; lia).
  rewrite word_small by lia. lia.
Qed.

(** the handshake *)
Definition pending (s : hand) (i : Z) : Prop :=
  hs_flag s = true \/ hs_pc s = CClear \/ exists j, hs_pc s = CReading j /\ j <= i.
Record hinv (N : Z) (s : hand) : Prop := {
  h_len : zlen (hs_read s) = N;
  h_pc : match hs_pc s with CReading i => 0 <= i < N | _ => True end;
  h_ver : hs_marked s <= hs_data s;
  h_read : forall i r, znth (hs_read s) i = Some r -> r <= hs_data s /\ (r < hs_marked s -> pending s i) }.
Lemma hand_step_inv N s a : hinv N s -> exists s', hand_step N s a = Ok s' /\ hinv N s'.
Proof.
  intros [H1 H2 H3 H4]. destruct a; cbn [hand_step].
  - eexists. split; [reflexivity|]. destruct (hs_writing s); split; cbn; auto; try lia.
    + intros i r Hr. destruct (H4 i r Hr). split; [lia|]. intros _. left. reflexivity.
    + intros i r Hr. destruct (H4 i r Hr). split; [lia|]. exact H0.
  - destruct (hs_pc s) as [| |i] eqn:EP.
    + eexists. split; [reflexivity|]. split; cbn; auto.
      * destruct (hs_flag s); exact I.
      * intros j r Hr. destruct (H4 j r Hr) as [A1 A2]. split; [exact A1|]. intros A3. destruct (A2 A3) as [E|[E|(k & E & _)]]; [|congruence|congruence].
        left. exact E.
    + eexists. split; [reflexivity|]. split; cbn; auto.
      * destruct (Z.ltb_spec 0 N); [lia|exact I].
      * intros j r Hr. destruct (H4 j r Hr) as [A1 A2]. split; [exact A1|]. intros A3. pose proof (znth_some_range _ _ _ Hr).
        right. right. destruct (Z.ltb_spec 0 N); [|lia]. exists 0. cbn. split; [reflexivity|lia].
    + rewrite wr_ok by lia. cbn [bind]. eexists. split; [reflexivity|]. split; cbn; auto.
      * rewrite zlen_zupd. exact H1.
      * destruct (Z.ltb_spec (i + 1) N); [lia|exact I].
      * intros j r Hr. rewrite znth_zupd in Hr. destruct (Z.eqb_spec i j) as [->|Hij]; cbn [andb] in Hr.
        -- destruct (Z.leb_spec 0 j), (Z.ltb_spec j (zlen (hs_read s))); cbn [andb] in Hr; try lia. injection Hr as <-. split; [lia|]. intros. lia.
        -- destruct (H4 j r Hr) as [A1 A2]. split; [exact A1|]. intros A3. pose proof (znth_some_range _ _ _ Hr). destruct (A2 A3) as [E|[E|(k & E & Hk)]]; [left; exact E|congruence|].
           rewrite EP in E; injection E as <-. right. right. destruct (Z.ltb_spec (i + 1) N); [|lia]. exists (i + 1). cbn. split; [reflexivity|lia].
Qed.
Lemma hand_run_inv N l : forall s, hinv N s -> exists s', hand_run N s l = Ok s' /\ hinv N s'.
Proof.
  induction l as [|a l IH]; intros s HI; [exists s; split; [reflexivity|exact HI]|]. cbn [hand_run].
  destruct (hand_step_inv N s a HI) as (s1 & E & HI1). rewrite E. cbn [bind]. apply IH. exact HI1.
Qed.
Lemma hand_no_loss N l : 0 <= N -> exists s, hand_run N (hand0 N) l = Ok s /\
  (hs_pc s = CIdle -> hs_flag s = false -> forall i, 0 <= i < N -> exists r, znth (hs_read s) i = Some r /\ hs_marked s <= r <= hs_data s).
Proof.
  intros HN. assert (HI : hinv N (hand0 N)).
  { split; cbn; try lia; auto; [apply zlen_zrepeat; lia|]. intros i r Hr. rewrite znth_zrepeat_if in Hr. destruct ((0 <=? i) && (i <? N)); [|discriminate]. injection Hr as <-. lia. }
  destruct (hand_run_inv N l _ HI) as (s & E & [H1 H2 H3 H4]). exists s. split; [exact E|]. intros HP HF i Hi. destruct (znth_some (hs_read s) i) as [r Hr]; [lia|].
  exists r. split; [exact Hr|]. destruct (H4 i r Hr) as [A1 A2]. split; [|exact A1]. destruct (Z_lt_le_dec r (hs_marked s)) as [HL|HL]; [|exact HL].
  destruct (A2 HL) as [E'|[E'|(j & E' & _)]]; congruence.
Qed.

Lemma hand_versions N l : forall s s' p, 0 <= p -> hs_data s = (p + 1) / 2 -> hs_marked s = p / 2 -> hs_writing s = Z.odd p ->
  hand_run N s l = Ok s' ->
  hs_data s' = (p + producer_steps l + 1) / 2 /\ hs_marked s' = (p + producer_steps l) / 2.
Proof.
  induction l as [|a l IH]; intros s s' p Hp Hd Hm Hw E; cbn [hand_run] in E.
  - injection E as <-. cbn [producer_steps]. rewrite !Z.add_0_r. auto.
  - destruct a; cbn [producer_steps].
    + cbn [hand_step bind] in E. replace (p + (1 + producer_steps l)) with (p + 1 + producer_steps l) by lia.
      assert (HO : p = 2 * (p / 2) + (if Z.odd p then 1 else 0)).
      { pose proof (Z.div_mod p 2). rewrite Zmod_odd in H. lia. }
      eapply (IH _ s' (p + 1)); [lia| | | |exact E]; rewrite Hw; rewrite ?Z.odd_add; destruct (Z.odd p) eqn:Eo;
        cbn [hs_data hs_marked hs_writing]; rewrite ?Hd, ?Hm; try reflexivity.
      * Z.div_mod_to_equations; lia.
      * Z.div_mod_to_equations; lia.
      * Z.div_mod_to_equations; lia.
    + cbn [hand_step] in E. destruct (hs_pc s) as [| |i]; cbn [bind] in E.
      * eapply (IH _ s' p); [lia| | | |exact E]; cbn [hs_data hs_marked hs_writing]; assumption.
      * eapply (IH _ s' p); [lia| | | |exact E]; cbn [hs_data hs_marked hs_writing]; assumption.
      * destruct (wr _ _ _) in E; cbn [bind] in E; try discriminate.
        eapply (IH _ s' p); [lia| | | |exact E]; cbn [hs_data hs_marked hs_writing]; assumption.
Qed.

Lemma hand_fresh N l s : hand_run N (hand0 N) l = Ok s ->
  hs_data s = (producer_steps l + 1) / 2 /\ hs_marked s = producer_steps l / 2.
Proof. intros E. exact (hand_versions N l (hand0 N) s 0 (Z.le_refl 0) eq_refl eq_refl eq_refl E). Qed.

Definition hwork (N : Z) (s : hand) : Z :=
  match hs_pc s with CIdle => if hs_flag s then N + 2 else 0 | CClear => N + 1 | CReading i => N - i + (if hs_flag s then N + 2 else 0) end.
Lemma hand_alone N k : forall s, 0 <= N -> hinv N s -> hwork N s <= Z.of_nat k -> exists s', hand_run N s (repeat Consumer k) = Ok s' /\ hs_pc s' = CIdle /\ hs_flag s' = false.
Proof.
  induction k as [|k IH]; intros s HN HI HW.
  - exists s. split; [reflexivity|]. unfold hwork in HW. destruct HI as [_ HP _ _]. destruct (hs_pc s); destruct (hs_flag s); auto; lia.
  - cbn [repeat hand_run]. destruct (hand_step_inv N s Consumer HI) as (s1 & E & HI1). rewrite E. cbn [bind]. apply IH; auto. pose proof HI as [H1 HP H3 H4]. revert E. unfold hwork in *. cbn [hand_step]. destruct (hs_pc s) as [| |i] eqn:EP.
    + intros [= <-]. cbn. destruct (hs_flag s); lia.
    + intros [= <-]. cbn. destruct (Z.ltb_spec 0 N); lia.
    + rewrite wr_ok by lia. cbn [bind]. intros [= <-]. cbn. destruct (Z.ltb_spec (i + 1) N), (hs_flag s); lia.
Qed.
Lemma hand_app N l1 l2 : forall s, hand_run N s (l1 ++ l2) = bind (hand_run N s l1) (fun s' => hand_run N s' l2).
Proof. induction l1 as [|a l1 IH]; intros s; [reflexivity|]. cbn [app hand_run]. destruct (hand_step N s a); cbn [bind]; auto. Qed.
Lemma hand_init N : 0 <= N -> hinv N (hand0 N).
Proof.
  intros HN. split; cbn; try lia; auto; [apply zlen_zrepeat; lia|]. intros i r Hr. rewrite znth_zrepeat_if in Hr. destruct ((0 <=? i) && (i <? N)); [|discriminate]. injection Hr as <-. lia.
Qed.
Lemma hand_settles N l k : 0 <= N -> 2 * N + 2 <= Z.of_nat k -> exists s, hand_run N (hand0 N) (l ++ repeat Consumer k) = Ok s /\
  hs_pc s = CIdle /\ hs_flag s = false /\ forall i, 0 <= i < N -> exists r, znth (hs_read s) i = Some r /\ hs_marked s <= r <= hs_data s.
Proof.
  intros HN HK. rewrite hand_app. destruct (hand_run_inv N l _ (hand_init N HN)) as (s & E & HI). destruct (hand_alone N k s HN HI) as (s' & E' & HP & HF).
  { unfold hwork. pose proof HI as [_ HP _ _]. destruct (hs_pc s); destruct (hs_flag s); lia. }
  exists s'. rewrite E. cbn [bind]. repeat split; auto. destruct (hand_no_loss N (l ++ repeat Consumer k) HN) as (s2 & E2 & HL). rewrite hand_app, E in E2. cbn [bind] in E2. rewrite E' in E2. injection E2 as <-. apply HL; auto.
Qed.

Lemma hand_unmarked N l : producer_steps l <= 1 -> exists s, hand_run N (hand0 N) l = Ok s /\ hs_pc s = CIdle /\ hs_read s = zrepeat 0 N.
Proof.
  assert (HP : forall l, 0 <= producer_steps l) by (induction l0 as [|[|] l0 IH]; cbn [producer_steps]; lia).
  assert (H : forall l s, hs_flag s = false -> hs_pc s = CIdle -> producer_steps l + (if hs_writing s then 1 else 0) <= 1 ->
    exists s', hand_run N s l = Ok s' /\ hs_pc s' = CIdle /\ hs_read s' = hs_read s).
  { induction l0 as [|a l0 IH]; intros s HF HC Hs; [exists s; auto|]. cbn [hand_run]. destruct a; cbn [producer_steps] in Hs; cbn [hand_step].
    - pose proof (HP l0). destruct (hs_writing s) eqn:EW; [lia|]. cbn [bind]. destruct (IH (HS (hs_data s + 1) (hs_marked s) (hs_flag s) (hs_pc s) (hs_read s) true)) as (s' & E); [exact HF|exact HC|cbn; lia|exists s'; exact E].
    - rewrite HC. cbn [bind]. rewrite HF. destruct (IH (HS (hs_data s) (hs_marked s) false CIdle (hs_read s) (hs_writing s))) as (s' & E); [reflexivity|reflexivity|exact Hs|exists s'; exact E]. }
  intros HL. apply (H l (hand0 N)); cbn; auto; lia.
Qed.

(** reads in a row *)
Section Reads.
Context {A : Type} (add sub div : A -> A -> A) (of_int : Z -> A).
Context {F : Type} (fstep : F -> A -> F * A).
Notation step := (fi_step add sub div of_int fstep).
Notation gets := (gets add sub div of_int fstep).
Lemma gets_comm k s : gets k (fst (step s IGet)) = gets (S k) s.
Proof. induction k as [|k IH]; [reflexivity|]. cbn [Interp.gets] in IH |- *. rewrite IH. reflexivity. Qed.
Lemma srun_reads K : forall s k, 0 <= k < Z.of_nat K -> znth (snd (srun step s (repeat IGet K))) k = Some (snd (step (gets (Z.to_nat k) s) IGet)).
Proof.
  induction K as [|K IH]; intros s k Hk; [lia|]. cbn [repeat srun]. destruct (step s IGet) as [s1 r] eqn:E. specialize (IH s1). destruct (srun step s1 (repeat IGet K)) as [s2 rs] eqn:E2. cbn [snd] in *.
  rewrite znth_cons. destruct (Z.eqb_spec k 0) as [->|Hk0]; [cbn [Z.to_nat Interp.gets]; rewrite E; reflexivity|]. destruct (Z.ltb_spec k 0); [lia|]. rewrite IH by lia.
  replace s1 with (fst (step s IGet)) by (rewrite E; reflexivity). rewrite gets_comm. replace (S (Z.to_nat (k - 1))) with (Z.to_nat k) by lia. reflexivity.
Qed.
Lemma reads_after N f0 ops read_fn i p f K k : 0 <= N -> Forall (fun o => match o with ISetNum n => 0 <= n < 2 ^ 32 | _ => True end) ops ->
  let s := fst (srun step (fia0 of_int N f0) (ops ++ [IMark])) in
  znth (fi_lanes s) i = Some (p, f) -> 1 <= k <= Z.of_nat K -> k < 2 ^ 32 ->
  let n := if fi_count s >? 0 then fi_count s else fi_num s in
  let target := snd (fstep f (read_fn i)) in
  let stp := if n >? 0 then div (sub target (iv_cur p)) (of_int n) else iv_step p in
  exists out, znth (snd (srun step s (IAdd read_fn :: repeat IGet K))) k = Some out /\
    znth out i = Some (if n <=? k then target else Nat.iter (Z.to_nat k) (fun x => add x stp) (iv_cur p)).
Proof.
  intros HN HF s Hi Hk Hk2 n target stp.
  assert (HR : fi_ready s = true).
  { subst s. assert (E : forall l s0, fst (srun step s0 (l ++ [IMark])) = fst (step (fst (srun step s0 l)) IMark)).
    { clear. induction l as [|o l IH]; intros s0; [reflexivity|]. cbn [app srun]. destruct (step s0 o) as [s1 r]. specialize (IH s1). destruct (srun step s1 (l ++ [IMark])), (srun step s1 l). exact IH. }
    rewrite E. reflexivity. }
  assert (HF' : Forall (fun o : iop A => match o with ISetNum n => 0 <= n < 2 ^ 32 | _ => True end) (ops ++ [IMark])) by (apply Forall_app; split; [exact HF|repeat constructor]).
  destruct (fia_reachable add sub div of_int fstep N f0 _ HN HF') as (_ & H1 & H2). fold s in H1, H2.
  pose proof (fia_reads add sub div of_int fstep s read_fn i p f (Z.to_nat k) HR ltac:(lia) ltac:(lia) Hi ltac:(lia)) as HX. cbn zeta in HX. rewrite Z2Nat.id in HX by lia. fold n target stp in HX.
  exists (snd (step (gets (Nat.pred (Z.to_nat k)) (fst (step s (IAdd read_fn)))) IGet)). split; [|exact HX].
  cbn [srun]. destruct (step s (IAdd read_fn)) as [s1 r] eqn:E1. cbn [fst] in *. pose proof (srun_reads K s1 (k - 1) ltac:(lia)) as HS. destruct (srun step s1 (repeat IGet K)) as [s2 rs]. cbn [snd] in *.
  rewrite znth_cons. destruct (Z.eqb_spec k 0); [lia|]. destruct (Z.ltb_spec k 0); [lia|]. rewrite HS. replace (Nat.pred (Z.to_nat k)) with (Z.to_nat (k - 1)) by lia. reflexivity.
Qed.
Lemma reads_wrap N f0 ops read_fn i p f K : 0 <= N -> Forall (fun o => match o with ISetNum n => 0 <= n < 2 ^ 32 | _ => True end) ops ->
  let s := fst (srun step (fia0 of_int N f0) (ops ++ [IMark])) in
  znth (fi_lanes s) i = Some (p, f) -> 2 ^ 32 <= Z.of_nat K ->
  let n := if fi_count s >? 0 then fi_count s else fi_num s in
  let target := snd (fstep f (read_fn i)) in
  0 < n ->
  exists out, znth (snd (srun step s (IAdd read_fn :: repeat IGet K))) (2 ^ 32) = Some out /\
    znth out i = Some (add target (div (sub target (iv_cur p)) (of_int n))).
Proof.
  intros HN HF s Hi HK n target Hn.
  assert (HR : fi_ready s = true).
  { subst s. assert (E : forall l s0, fst (srun step s0 (l ++ [IMark])) = fst (step (fst (srun step s0 l)) IMark)).
    { clear. induction l as [|o l IH]; intros s0; [reflexivity|]. cbn [app srun]. destruct (step s0 o) as [s1 r]. specialize (IH s1). destruct (srun step s1 (l ++ [IMark])), (srun step s1 l). exact IH. }
    rewrite E. reflexivity. }
  assert (HF' : Forall (fun o : iop A => match o with ISetNum n => 0 <= n < 2 ^ 32 | _ => True end) (ops ++ [IMark])) by (apply Forall_app; split; [exact HF|repeat constructor]).
  destruct (fia_reachable add sub div of_int fstep N f0 _ HN HF') as (_ & H1 & H2). fold s in H1, H2.
  set (k := 2 ^ 32) in *. assert (Hk : 0 < k) by reflexivity.
  pose proof (fia_wrap add sub div of_int fstep s read_fn i p f (Z.to_nat k) HR H1 H2 Hi (Z2Nat.id k ltac:(lia)) Hn) as HX. cbn zeta in HX. fold n target in HX.
  exists (snd (step (gets (Nat.pred (Z.to_nat k)) (fst (step s (IAdd read_fn)))) IGet)). split; [|exact HX].
  cbn [srun]. destruct (step s (IAdd read_fn)) as [s1 r] eqn:E1. cbn [fst] in *. pose proof (srun_reads K s1 (k - 1) ltac:(lia)) as HS. destruct (srun step s1 (repeat IGet K)) as [s2 rs]. cbn [snd] in *.
  rewrite znth_cons. destruct (Z.eqb_spec k 0); [lia|]. destruct (Z.ltb_spec k 0); [lia|]. rewrite HS. replace (Nat.pred (Z.to_nat k)) with (Z.to_nat (k - 1)) by lia. reflexivity.
Qed.
Lemma cur_is_last_output s o i p f : znth (fi_lanes s) i = Some (p, f) ->
  exists p' f', znth (fi_lanes (fst (step s o))) i = Some (p', f') /\
    match o with IGet => znth (snd (step s o)) i = Some (iv_cur p') | _ => iv_cur p' = iv_cur p end.
Proof.
  intros Hi. destruct o as [|rf| |n]; cbn [fi_step fst snd fi_lanes].
  - exists p, f. auto.
  - destruct (fi_ready s); cbn [fst fi_lanes].
    + pose proof (readings_znth add sub div of_int fstep (fi_lanes s) 0 rf (if fi_count s >? 0 then fi_count s else fi_num s) i p f Hi) as H1. do 2 eexists. split; [exact H1|]. reflexivity.
    + exists p, f. auto.
  - destruct (_ >=? _); rewrite !map_map, !znth_map, Hi; cbn [option_map fst snd iv_snap iv_next iv_cur]; do 2 eexists; split; reflexivity.
  - exists p, f. auto.
Qed.
Lemma cur_starts N f0 i : 0 <= i < N -> znth (fi_lanes (fia0 of_int (F:=F) N f0)) i = Some (iv0 of_int, f0).
Proof. intros Hi. cbn [fia0 fi_lanes]. rewrite znth_zrepeat_if. destruct (Z.leb_spec 0 i), (Z.ltb_spec i N); try lia. reflexivity. Qed.
End Reads.
Lemma not_ready_nothing {A F} (add sub div : A -> A -> A) of_int (fstep : F -> A -> F * A) s read_fn : fi_ready s = false -> fi_step add sub div of_int fstep s (IAdd read_fn) = (s, []).
Proof. apply fia_not_ready. Qed.
Lemma int_zero_updates cur v : ivariable_set 0 cur v = UB DivByZero.
Proof. reflexivity. Qed.
Section Unmarked.
Context {A F : Type} (add sub div : A -> A -> A) (of_int : Z -> A) (fstep : F -> A -> F * A).
Hypothesis add00 : add (of_int 0) (of_int 0) = of_int 0.
Lemma unmarked_step s o : fi_ready s = false -> (forall l, In l (fi_lanes s) -> fst l = iv0 of_int) -> o <> IMark ->
  let r := fi_step add sub div of_int fstep s o in
  fi_ready (fst r) = false /\ (forall l, In l (fi_lanes (fst r)) -> fst l = iv0 of_int) /\ (forall x, In x (snd r) -> x = of_int 0).
Proof using add00.
  intros HR HL HO. destruct o as [|rf| |n]; cbn [fi_step]; [congruence| | |].
  - rewrite HR. cbn [fst snd]. splits; auto. intros x [].
  - cbn [fst snd fi_ready fi_lanes]. split; [exact HR|]. destruct (_ >=? _); rewrite !map_map; (split; [intros l Hl|intros x Hl]); apply in_map_iff in Hl as (m & <- & Hm);
      specialize (HL m Hm); destruct m as [v f]; cbn [fst snd] in *; subst v; cbn [iv0 iv_snap iv_next iv_cur iv_target iv_step fst snd]; rewrite ?add00; reflexivity.
  - cbn [fst snd fi_ready fi_lanes]. splits; auto. intros x [].
Qed.
Lemma unmarked_run N f0 ops : ~ In IMark ops -> forall out x,
  In out (snd (srun (fi_step add sub div of_int fstep) (fia0 of_int N f0) ops)) -> In x out -> x = of_int 0.
Proof using add00.
  assert (H : forall ops s, fi_ready s = false -> (forall l, In l (fi_lanes s) -> fst l = iv0 of_int) -> ~ In IMark ops ->
    forall out x, In out (snd (srun (fi_step add sub div of_int fstep) s ops)) -> In x out -> x = of_int 0).
  { clear ops. induction ops as [|o ops IH]; intros s HR HL HO out x; [intros []|]. cbn [srun].
    destruct (unmarked_step s o HR HL) as (A1 & A2 & A3); [intros ->; apply HO; left; reflexivity|].
    destruct (fi_step add sub div of_int fstep s o) as [s1 r]. cbn [fst snd] in *.
    specialize (IH s1 A1 A2 ltac:(intros Hi; apply HO; right; exact Hi) out x).
    destruct (srun (fi_step add sub div of_int fstep) s1 ops) as [s2 rs]. cbn [snd] in *.
    intros [<-|Ho] Hx; [exact (A3 x Hx)|exact (IH Ho Hx)]. }
  apply H; [reflexivity|]. intros l Hl. cbn [fia0 fi_lanes] in Hl. apply In_nth_error in Hl as (k & Hk).
  unfold zrepeat in Hk. apply nth_error_In, repeat_spec in Hk. subst l. reflexivity.
Qed.
End Unmarked.
Lemma variable_step n cur v : n <> 0 -> exists q, ivariable_set n cur v = Ok q /\ cur + n * q = v - Z.rem (v - cur) n.
Proof.
  intros H. unfold ivariable_set. destruct (Z.eqb_spec n 0); [lia|]. eexists. split; [reflexivity|].
  pose proof (Z.quot_rem (v - cur) n H). lia.
Qed.
