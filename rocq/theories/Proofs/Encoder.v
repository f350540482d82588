From Verif.Common Require Import Base Lemmas Lists.
From Verif.Spec Require Import History EncoderSpec.
From Verif.Model Require Import Encoder.
From Verif.Proofs Require Import History MathInt.

(* ---------------- the encoder ---------------- *)
Definition gmz (invert : bool) (prev cur : Z) : Z * direction :=
  if prev mod 4 =? cur then (prev, None_)
  else let prev := (prev * 4 + cur) mod 256 in
    (prev, if prev =? valid_cw invert then CW else if prev =? valid_ccw invert then CCW else None_).
Lemma pins_range p : 0 <= pins p < 4.
Proof. destruct p as [[] []]; cbn; lia. Qed.
Lemma get_motion_gmz inv prev p : 0 <= prev < 256 -> get_motion inv prev p = gmz inv prev (pins p).
Proof.
  intros Hp. unfold get_motion, gmz.
  assert (E : Z.lor (if fst p then 1 else 0) (Z.shiftl (if snd p then 1 else 0) 1) = pins p) by (destruct p as [[] []]; reflexivity).
  rewrite E. change 3 with (2 ^ 2 - 1). rewrite land_ones_mod by lia. change (2 ^ 2) with 4. destruct (prev mod 4 =? pins p); [reflexivity|].
  assert (E2 : word 8 (Z.lor (word 8 (Z.shiftl prev 2)) (pins p)) = (prev * 4 + pins p) mod 256).
  { assert (E3 : Z.shiftl prev 2 = prev * 4) by (rewrite Z.shiftl_mul_pow2 by lia; reflexivity). rewrite E3.
    unfold word. change (2 ^ 8) with 256. pose proof (pins_range p).
    assert (E4 : Z.lor ((prev * 4) mod 256) (pins p) = (prev * 4) mod 256 + pins p).
    { replace ((prev * 4) mod 256) with (Z.shiftl (prev mod 64) 2).
      - assert (H0 : Z.land (Z.shiftl (prev mod 64) 2) (pins p) = 0).
        { apply Z.bits_inj'. intros k Hk. rewrite Z.land_spec, Z.bits_0. destruct (Z_lt_dec k 2).
          - rewrite Z.shiftl_spec_low by lia. reflexivity.
          - rewrite <- (Z.mod_small (pins p) (2 ^ 2)) by (change (2 ^ 2) with 4; lia). rewrite Z.mod_pow2_bits_high by lia. apply andb_false_r. }
        rewrite <- Z.lxor_lor by exact H0. rewrite <- Z.add_nocarry_lxor by exact H0. reflexivity.
      - rewrite Z.shiftl_mul_pow2 by lia. change (2 ^ 2) with 4. change 256 with (64 * 4). rewrite Zmult_mod_distr_r. reflexivity. }
    rewrite E4. rewrite Zplus_mod_idemp_l. reflexivity. }
  rewrite E2. reflexivity.
Qed.
Lemma gmz_range inv prev cur : 0 <= prev < 256 -> 0 <= fst (gmz inv prev cur) < 256.
Proof. intros H. unfold gmz. destruct (_ =? _); [exact H|]. cbn. apply Z.mod_pos_bound. lia. Qed.
Lemma srun_gmz inv ps : forall prev, 0 <= prev < 256 -> srun (get_motion inv) prev ps = srun (gmz inv) prev (map pins ps).
Proof.
  induction ps as [|p ps IH]; intros prev Hp; [reflexivity|]. cbn [map srun]. rewrite get_motion_gmz by exact Hp.
  pose proof (gmz_range inv prev (pins p) Hp) as Hr. destruct (gmz inv prev (pins p)) as [s r]. cbn [fst] in Hr. rewrite IH by exact Hr. reflexivity.
Qed.
Definition digits4 (l : list Z) : Z := fold_left (fun s p => s * 4 + p) l 0.
Lemma digits4_snoc l p : digits4 (l ++ [p]) = digits4 l * 4 + p.
Proof. unfold digits4. rewrite fold_left_app. reflexivity. Qed.
Lemma last_cons {A} (q : A) r d : last (q :: r) d = last r q.
Proof. revert q d; induction r as [|x r IH]; intros q d; [reflexivity|]. change (last (q :: x :: r) d) with (last (x :: r) d). rewrite !IH. reflexivity. Qed.
Lemma last_snoc {A} (l : list A) x d : last (l ++ [x]) d = x.
Proof. induction l as [|y l IH]; [reflexivity|]. cbn [app]. destruct (l ++ [x]) eqn:E; [destruct l; discriminate|]. exact IH. Qed.
Lemma visits_last h : forall x, last (visits x h) x = last h x.
Proof.
  induction h as [|p h IH]; intros x; [reflexivity|]. rewrite last_cons. cbn [visits]. destruct (Z.eqb_spec p x) as [->|]; [apply IH|].
  rewrite last_cons. apply IH.
Qed.
Lemma visits_snoc p h : forall x, visits x (h ++ [p]) = visits x h ++ (if p =? last h x then [] else [p]).
Proof.
  induction h as [|q h IH]; intros x; [cbn; destruct (p =? x); reflexivity|]. rewrite last_cons. cbn [app visits].
  destruct (Z.eqb_spec q x) as [->|]; rewrite IH; reflexivity.
Qed.
Lemma visits_forall (P : Z -> Prop) h : Forall P h -> forall x, Forall P (visits x h).
Proof. induction 1 as [|p h Hp H IH]; intros x; [constructor|]. cbn. destruct (p =? x); [apply IH|constructor; [exact Hp|apply IH]]. Qed.
Definition dig (d : Z) : Prop := 0 <= d < 4.
Lemma gmz_state inv h : Forall dig h -> after (gmz inv) 0 h = digits4 ([0; 0; 0; 0] ++ visits 0 h) mod 256 /\ after (gmz inv) 0 h mod 4 = last h 0.
Proof.
  intros H. induction h as [|p h IH] using rev_ind; [split; reflexivity|]. apply Forall_app in H as [H1 H2]. inversion H2 as [|? ? Hp]; subst.
  specialize (IH H1) as [I1 I2]. rewrite after_snoc, visits_snoc, last_snoc. set (st := after (gmz inv) 0 h) in *. unfold gmz. rewrite I2, (Z.eqb_sym p).
  destruct (Z.eqb_spec (last h 0) p) as [E|E]; cbn [fst].
  - rewrite app_nil_r. split; [exact I1|congruence].
  - rewrite app_assoc, digits4_snoc, I1. split.
    + rewrite <- (Zplus_mod_idemp_l (_ mod 256 * 4)), Zmult_mod_idemp_l, Zplus_mod_idemp_l. reflexivity.
    + unfold dig in Hp. change 256 with (4 * 64). rewrite Z.rem_mul_r by lia. rewrite Z.add_mod, (Z.mul_comm 4 (_ mod 64)), Z.mod_mul, Z.add_0_r, !Z.mod_mod by lia.
      rewrite (Z.add_comm (_ * 4)), Z.mod_add by lia. apply Z.mod_small. lia.
Qed.
Definition code (a b c d : Z) : Z := a * 64 + b * 16 + c * 4 + d.
Lemma digits4_code l a b c d : Forall dig ([0; 0; 0; 0] ++ l) -> dig a -> dig b -> dig c -> dig d -> a <> 0 ->
  (digits4 ([0; 0; 0; 0] ++ l) mod 256 = code a b c d <-> ends_with l [a; b; c; d]).
Proof.
  intros HF Ha Hb Hc Hd Hn. unfold dig, code in *. split.
  - intros E. set (L := [0; 0; 0; 0] ++ l) in *.
    assert (exists pre x y z w, L = pre ++ [x; y; z; w]) as (pre & x & y & z & w & EL).
    { destruct (rev L) as [|w [|z [|y [|x r]]]] eqn:R; try (apply (f_equal (@length Z)) in R; rewrite rev_length in R; cbn in R; lia).
      exists (rev r), x, y, z, w. rewrite <- (rev_involutive L), R. cbn. rewrite <- !app_assoc. reflexivity. }
    rewrite EL in E, HF. apply Forall_app in HF as [_ HF]. inversion HF as [|? ? D1 HF1]; subst. inversion HF1 as [|? ? D2 HF2]; subst. inversion HF2 as [|? ? D3 HF3]; subst. inversion HF3 as [|? ? D4 _]; subst.
    change [x; y; z; w] with ([x] ++ [y] ++ [z] ++ [w]) in E. rewrite !app_assoc in E. rewrite !digits4_snoc in E.
    replace ((((digits4 pre * 4 + x) * 4 + y) * 4 + z) * 4 + w) with (x * 64 + y * 16 + z * 4 + w + digits4 pre * 256) in E by ring.
    unfold dig in *. rewrite Z.mod_add, Z.mod_small in E by lia.
    assert (x = a) by lia. assert (y = b) by lia. assert (z = c) by lia. assert (w = d) by lia. subst x y z w.
    unfold L in EL. destruct pre as [|p1 [|p2 [|p3 [|p4 pre]]]]; cbn in EL; injection EL; intros; subst; try congruence. exists pre. reflexivity.
  - intros (pre & ->). rewrite app_assoc. set (P := [0; 0; 0; 0] ++ pre).
    change [a; b; c; d] with ([a] ++ [b] ++ [c] ++ [d]). rewrite !app_assoc. rewrite !digits4_snoc.
    replace ((((digits4 P * 4 + a) * 4 + b) * 4 + c) * 4 + d) with (a * 64 + b * 16 + c * 4 + d + digits4 P * 256) by ring.
    rewrite Z.mod_add, Z.mod_small by lia. reflexivity.
Qed.
Definition pat_cw (inv : bool) : list Z := if inv then [2; 3; 1; 0] else [1; 0; 2; 3].
Definition pat_ccw (inv : bool) : list Z := if inv then [1; 3; 2; 0] else [2; 0; 1; 3].
Lemma gmz_answer inv h p : Forall dig h -> dig p ->
  (answer (gmz inv) 0 h p = CW <-> p <> last h 0 /\ ends_with (visits 0 (h ++ [p])) (pat_cw inv)) /\
  (answer (gmz inv) 0 h p = CCW <-> p <> last h 0 /\ ends_with (visits 0 (h ++ [p])) (pat_ccw inv)).
Proof.
  intros H Hp. destruct (gmz_state inv h H) as [I1 I2]. unfold answer. set (st := after (gmz inv) 0 h) in *. unfold gmz. rewrite I2.
  destruct (Z.eqb_spec (last h 0) p) as [E|E]; cbn [snd]; [split; split; [discriminate|intros [D _]; congruence|discriminate|intros [D _]; congruence]|].
  rewrite I1. rewrite visits_snoc, (Z.eqb_sym p). destruct (Z.eqb_spec (last h 0) p); [congruence|].
  assert (EQ : (digits4 ([0; 0; 0; 0] ++ visits 0 h) mod 256 * 4 + p) mod 256 = digits4 ([0; 0; 0; 0] ++ visits 0 h ++ [p]) mod 256).
  { rewrite app_assoc, digits4_snoc. rewrite <- (Zplus_mod_idemp_l (_ mod 256 * 4)), Zmult_mod_idemp_l, Zplus_mod_idemp_l. reflexivity. }
  rewrite EQ. clear EQ. set (l := visits 0 h ++ [p]).
  assert (HF : Forall dig ([0; 0; 0; 0] ++ l)).
  { apply Forall_app. split; [apply Forall_forall; intros z0 Hz; cbn in Hz; unfold dig; lia|]. apply Forall_app. split; [apply visits_forall; exact H|constructor; [exact Hp|constructor]]. }
  assert (HC : forall a b c d v, code a b c d = v -> dig a -> dig b -> dig c -> dig d -> a <> 0 -> (digits4 ([0; 0; 0; 0] ++ l) mod 256 = v <-> ends_with l [a; b; c; d])).
  { intros a b c d v <-. intros. apply digits4_code; assumption. }
  assert (H1 : digits4 ([0; 0; 0; 0] ++ l) mod 256 = valid_cw inv <-> ends_with l (pat_cw inv)).
  { destruct inv; apply HC; try reflexivity; unfold dig; lia. }
  assert (H2 : digits4 ([0; 0; 0; 0] ++ l) mod 256 = valid_ccw inv <-> ends_with l (pat_ccw inv)).
  { destruct inv; apply HC; try reflexivity; unfold dig; lia. }
  assert (valid_cw inv <> valid_ccw inv) by (destruct inv; discriminate).
  rewrite <- H1, <- H2. destruct (Z.eqb_spec (digits4 ([0; 0; 0; 0] ++ l) mod 256) (valid_cw inv)) as [A|A];
    [|destruct (Z.eqb_spec (digits4 ([0; 0; 0; 0] ++ l) mod 256) (valid_ccw inv)) as [B|B]]; split; split; intros X; try discriminate; try destruct X; splits; congruence.
Qed.
Lemma pins_dig h : Forall dig (map pins h).
Proof. apply Forall_forall. intros x Hx. apply in_map_iff in Hx as (p & <- & _). apply pins_range. Qed.
Lemma get_motion_answer inv h p : answer (get_motion inv) 0 h p = answer (gmz inv) 0 (map pins h) (pins p).
Proof.
  unfold answer, after. rewrite srun_gmz by lia. rewrite get_motion_gmz; [reflexivity|].
  destruct (gmz_state inv (map pins h) (pins_dig h)) as [E _]. unfold after in E. rewrite E. apply Z.mod_pos_bound. lia.
Qed.
Lemma encoder_spec h p :
  (answer (get_motion false) 0 h p = CW <-> pins p <> last (map pins h) 0 /\ ends_with (visits 0 (map pins (h ++ [p]))) clockwise) /\
  (answer (get_motion false) 0 h p = CCW <-> pins p <> last (map pins h) 0 /\ ends_with (visits 0 (map pins (h ++ [p]))) counter_clockwise).
Proof. rewrite get_motion_answer, map_app. apply (gmz_answer false (map pins h) (pins p)); [apply pins_dig|apply pins_range]. Qed.

(* inversion *)
Lemma pins_inverted p : pins (inverted p) = 3 - pins p.
Proof. destruct p as [[] []]; reflexivity. Qed.
Lemma visits_flip h : forall x, visits (3 - x) (map (fun p => 3 - p) h) = map (fun p => 3 - p) (visits x h).
Proof.
  induction h as [|p h IH]; intros x; [reflexivity|]. cbn [map visits]. destruct (Z.eqb_spec p x) as [->|N].
  - rewrite Z.eqb_refl. apply IH.
  - destruct (Z.eqb_spec (3 - p) (3 - x)); [lia|]. cbn [map]. rewrite IH. reflexivity.
Qed.
Lemma ends_flip l t : ends_with (map (fun p => 3 - p) l) (map (fun p => 3 - p) t) <-> ends_with l t.
Proof.
  assert (HM : forall k, map (fun p => 3 - p) (map (fun p => 3 - p) k) = k).
  { intros k. rewrite map_map. rewrite (map_ext _ id) by (intros; unfold id; lia). apply map_id. }
  split; intros (pre & E).
  - exists (map (fun p => 3 - p) pre). rewrite <- (HM l), E, map_app, HM. reflexivity.
  - exists (map (fun p => 3 - p) pre). rewrite E, map_app. reflexivity.
Qed.
Lemma ends_cons {A} (x a : A) l t : x <> a -> (ends_with (x :: l) (a :: t) <-> ends_with l (a :: t)).
Proof.
  intros N. split; intros (pre & E).
  - destruct pre as [|y pre]; cbn in E; [congruence|]. injection E as -> ->. exists pre. reflexivity.
  - exists (x :: pre). rewrite E. reflexivity.
Qed.
Lemma visits_start h a t : a <> 0 -> a <> 3 -> (ends_with (visits 0 h) (a :: t) <-> ends_with (visits 3 h) (a :: t)).
Proof.
  intros H0 H3. destruct h as [|p h]; [reflexivity|]. cbn [visits].
  destruct (Z.eqb_spec p 0) as [->|N0]; [|destruct (Z.eqb_spec p 3) as [->|N3]].
  - cbn [Z.eqb]. symmetry. apply ends_cons. congruence.
  - apply ends_cons. congruence.
  - reflexivity.
Qed.
Lemma last_default {A} (l : list A) d e : l <> [] -> last l d = last l e.
Proof. destruct l as [|x l]; [congruence|]. intros _. rewrite !last_cons. reflexivity. Qed.
Lemma last_map {A B} (f : A -> B) l d : last (map f l) (f d) = f (last l d).
Proof. revert d; induction l as [|x l IH]; intros d; [reflexivity|]. cbn [map]. rewrite !last_cons. apply IH. Qed.
Lemma encoder_inverted h p : answer (get_motion true) 0 (map inverted h) (inverted p) = answer (get_motion false) 0 h p.
Proof.
  rewrite !get_motion_answer. rewrite map_map. rewrite (map_ext _ (fun q => 3 - pins q)) by (intros; apply pins_inverted). rewrite pins_inverted.
  rewrite <- (map_map pins (fun q => 3 - q)).
  pose proof (gmz_answer false (map pins h) (pins p) (pins_dig h) (pins_range p)) as [A1 A2].
  assert (HF : Forall dig (map (fun q => 3 - q) (map pins h))).
  { apply Forall_forall. intros x Hx. apply in_map_iff in Hx as (y & <- & Hy). pose proof (proj1 (Forall_forall _ _) (pins_dig h) y Hy) as D. unfold dig in *. lia. }
  pose proof (gmz_answer true (map (fun q => 3 - q) (map pins h)) (3 - pins p) HF ltac:(unfold dig; pose proof (pins_range p); lia)) as [B1 B2].
  assert (EV : visits 0 (map (fun q => 3 - q) (map pins h) ++ [3 - pins p]) = map (fun q => 3 - q) (visits 3 (map pins h ++ [pins p]))).
  { rewrite <- visits_flip. rewrite map_app. reflexivity. }
  rewrite EV in B1, B2. change (pat_cw true) with (map (fun q => 3 - q) (pat_cw false)) in B1. change (pat_ccw true) with (map (fun q => 3 - q) (pat_ccw false)) in B2.
  rewrite ends_flip in B1, B2. unfold pat_cw in B1, A1. unfold pat_ccw in B2, A2.
  rewrite <- visits_start in B1 by lia. rewrite <- visits_start in B2 by lia.
  assert (EL : map pins h <> [] -> (3 - pins p <> last (map (fun q => 3 - q) (map pins h)) 0 <-> pins p <> last (map pins h) 0)).
  { intros N. rewrite (last_default _ 0 (3 - 3)) by (destruct (map pins h); [congruence|discriminate]). rewrite (last_map (fun q => 3 - q)).
    rewrite (last_default (map pins h) 0 3) by exact N. lia. }
  assert (EE : forall t a b c, map pins h = [] -> ~ ends_with (visits 0 (map pins h ++ [pins p])) (t :: a :: b :: c)).
  { intros t a b c -> (pre & E). cbn in E. destruct (pins p =? 0); destruct pre as [|? [|]]; discriminate. }
  assert (C1 : answer (gmz true) 0 (map (fun q => 3 - q) (map pins h)) (3 - pins p) = CW <-> answer (gmz false) 0 (map pins h) (pins p) = CW).
  { rewrite A1, B1. destruct (list_eq_dec Z.eq_dec (map pins h) []) as [Z0|N]; [|rewrite EL by exact N; reflexivity]. split; intros [_ X]; exfalso; revert X; apply EE; exact Z0. }
  assert (C2 : answer (gmz true) 0 (map (fun q => 3 - q) (map pins h)) (3 - pins p) = CCW <-> answer (gmz false) 0 (map pins h) (pins p) = CCW).
  { rewrite A2, B2. destruct (list_eq_dec Z.eq_dec (map pins h) []) as [Z0|N]; [|rewrite EL by exact N; reflexivity]. split; intros [_ X]; exfalso; revert X; apply EE; exact Z0. }
  destruct (answer (gmz true) _ _ _), (answer (gmz false) _ _ _); try reflexivity; try (destruct C1 as [C1a C1b]; discriminate (C1a eq_refl) || discriminate (C1b eq_refl)); destruct C2 as [C2a C2b]; discriminate (C2a eq_refl) || discriminate (C2b eq_refl).
Qed.

(* turns *)
Lemma stutter inv h : forall prev, 0 <= prev < 256 -> Forall dig h -> moves (snd (srun (gmz inv) prev h)) = moves (snd (srun (gmz inv) prev (visits (prev mod 4) h))).
Proof.
  induction h as [|p h IH]; intros prev Hp HF; [reflexivity|]. inversion HF as [|? ? Dp HF']; subst. cbn [visits].
  destruct (Z.eqb_spec p (prev mod 4)) as [E|N].
  - rewrite <- IH by assumption. cbn [srun]. unfold gmz at 1. rewrite E, Z.eqb_refl. destruct (srun (gmz inv) prev h). reflexivity.
  - cbn [srun]. unfold gmz at 1 3. destruct (Z.eqb_spec (prev mod 4) p); [congruence|].
    set (q := (prev * 4 + p) mod 256). assert (Hq : 0 <= q < 256) by (apply Z.mod_pos_bound; lia).
    assert (Eq : q mod 4 = p).
    { unfold q, dig in *. change 256 with (4 * 64). rewrite Z.rem_mul_r by lia. rewrite Z.add_mod, (Z.mul_comm 4 (_ mod 64)), Z.mod_mul, Z.add_0_r, !Z.mod_mod by lia.
      rewrite (Z.add_comm (_ * 4)), Z.mod_add by lia. apply Z.mod_small. lia. }
    specialize (IH q Hq HF'). rewrite Eq in IH. destruct (srun (gmz inv) q h), (srun (gmz inv) q (visits p h)). cbn [snd] in *. unfold moves in *. cbn [filter]. rewrite IH. reflexivity.
Qed.
Definition turn_ok (pat : list Z) (d : direction) (endcode : Z) (prev : Z) : bool :=
  negb (prev mod 4 =? 3) || match srun (gmz false) prev pat with
  | (e, [None_; None_; None_; CW]) => (e =? endcode) && match d with CW => true | _ => false end
  | (e, [None_; None_; None_; CCW]) => (e =? endcode) && match d with CCW => true | _ => false end
  | _ => false
  end.
Lemma turn_all pat d ec : forallb (turn_ok pat d ec) (map Z.of_nat (seq 0 256)) = true -> forall prev, 0 <= prev < 256 -> prev mod 4 = 3 ->
  srun (gmz false) prev pat = (ec, [None_; None_; None_; d]).
Proof.
  intros H prev Hp H3. rewrite forallb_forall in H. specialize (H prev). unfold turn_ok in H. rewrite H3 in H. cbn [Z.eqb negb orb] in H.
  assert (In prev (map Z.of_nat (seq 0 256))) as HI by (apply in_map_iff; exists (Z.to_nat prev); split; [lia|apply in_seq; lia]). specialize (H HI). clear HI.
  destruct (srun (gmz false) prev pat) as [e rs]. destruct rs as [|[] [|[] [|[] [|[] [|]]]]]; try discriminate; destruct d; rewrite ?andb_true_r, ?andb_false_r in H; try discriminate; apply Z.eqb_eq in H; subst; reflexivity.
Qed.
Lemma turns pat d ec : ec mod 4 = 3 -> 0 <= ec < 256 -> d <> None_ -> forallb (turn_ok pat d ec) (map Z.of_nat (seq 0 256)) = true ->
  forall k prev, 0 <= prev < 256 -> prev mod 4 = 3 -> moves (snd (srun (gmz false) prev (concat (repeat pat k)))) = repeat d k.
Proof.
  intros E3 Er Hd HA. induction k as [|k IH]; intros prev Hp H3; [reflexivity|]. cbn [repeat concat].
  assert (EA : forall a b s, snd (srun (gmz false) s (a ++ b)) = snd (srun (gmz false) s a) ++ snd (srun (gmz false) (fst (srun (gmz false) s a)) b)).
  { clear. induction a as [|x a IHa]; intros b s; [reflexivity|]. cbn [app srun]. destruct (gmz false s x) as [s1 r]. specialize (IHa b s1).
    destruct (srun (gmz false) s1 (a ++ b)), (srun (gmz false) s1 a). cbn [fst snd] in *. rewrite IHa. reflexivity. }
  rewrite EA. rewrite (turn_all pat d ec HA prev Hp H3). cbn [fst snd]. unfold moves in *. rewrite filter_app. rewrite IH by assumption.
  cbn [filter app]. destruct d; [congruence|reflexivity|reflexivity].
Qed.
Lemma encoder_turns pre stream k : last (map pins pre) 0 = 3 ->
  let outs := snd (srun (get_motion false) (after (get_motion false) 0 pre) stream) in
  (visits 3 (map pins stream) = concat (repeat clockwise k) -> moves outs = repeat CW k) /\
  (visits 3 (map pins stream) = concat (repeat counter_clockwise k) -> moves outs = repeat CCW k).
Proof.
  intros HL outs. assert (EO : outs = snd (srun (gmz false) (after (gmz false) 0 (map pins pre)) (map pins stream))).
  { unfold outs, after. rewrite (srun_gmz false pre) by lia. rewrite srun_gmz; [reflexivity|].
    destruct (gmz_state false (map pins pre) (pins_dig pre)) as [E _]. unfold after in E. rewrite E. apply Z.mod_pos_bound. lia. }
  rewrite EO. destruct (gmz_state false (map pins pre) (pins_dig pre)) as [E1 E2]. rewrite HL in E2.
  set (prev := after (gmz false) 0 (map pins pre)) in *. assert (Hp : 0 <= prev < 256) by (rewrite E1; apply Z.mod_pos_bound; lia).
  rewrite stutter by (exact Hp || apply pins_dig). rewrite E2. split; intros ->.
  - apply (turns _ CW 75); try reflexivity; try lia; try discriminate; assumption.
  - apply (turns _ CCW 135); try reflexivity; try lia; try discriminate; assumption.
Qed.

(* ---------------- motion ---------------- *)
Lemma zsum_app a b : zsum (a ++ b) = zsum a + zsum b.
Proof. induction a as [|x a IH]; [reflexivity|]. unfold zsum in *. cbn [app fold_right]. lia. Qed.
Lemma add_motion_inv r d r' : add_motion r d = Ok r' -> motion r' = motion r + d /\ abs_pos r' = abs_pos r + d.
Proof.
  unfold add_motion. intros H. apply bind_inv in H as (m & Hm & H). apply bind_inv in H as (a & Ha & H). injection H as <-.
  apply schk_inv in Hm, Ha. cbn. intuition.
Qed.
Lemma rot_conserve h : forall r0 s0 r outs, run rot_step r0 h = Ok (r, outs) ->
  motion r + zsum outs = motion r0 + (fold_left (fun s o => match o with RAdd d | RTransfer d => s + d | RUse => s end) h s0 - s0) /\
  abs_pos r = abs_pos r0 + (fold_left (fun s o => match o with RAdd d | RTransfer d => s + d | RUse => s end) h s0 - s0).
Proof.
  induction h as [|o h IH]; intros r0 s0 r outs H; cbn [run] in H.
  - injection H as <- <-. cbn. lia.
  - apply bind_inv in H as ([r1 x] & H1 & H). apply bind_inv in H as ([r2 xs] & H2 & H). injection H as <- <-. cbn [fold_left].
    assert (HS : match o with RAdd d | RTransfer d => motion r1 = motion r0 + d /\ abs_pos r1 = abs_pos r0 + d /\ x = 0 | RUse => motion r1 = 0 /\ abs_pos r1 = abs_pos r0 /\ x = motion r0 end).
    { destruct o as [d|d|]; cbn [rot_step] in H1.
      - apply bind_inv in H1 as (r' & E & H1). injection H1 as <- <-. apply add_motion_inv in E. intuition.
      - apply bind_inv in H1 as (r' & E & H1). injection H1 as <- <-. apply add_motion_inv in E. intuition.
      - injection H1 as <- <-. cbn. auto. }
    specialize (IH r1 (match o with RAdd d | RTransfer d => s0 + d | RUse => s0 end) r2 xs H2). cbn [zsum fold_right]. change (fold_right Z.add 0 xs) with (zsum xs).
    destruct o; lia.
Qed.
Lemma rot_total h : forall r, Z.abs (motion r) + Z.abs (abs_pos r) + 2 * zsum (map (fun o => match o with RAdd d | RTransfer d => Z.abs d | RUse => 0 end) h) < 2 ^ 31 ->
  exists r' outs, run rot_step r h = Ok (r', outs).
Proof.
  assert (P : forall l : list rop, 0 <= zsum (map (fun o => match o with RAdd d | RTransfer d => Z.abs d | RUse => 0 end) l)).
  { induction l as [|o l IHl]; unfold zsum in *; cbn [map fold_right]; [lia|]. destruct o; lia. }
  induction h as [|o h IH]; intros r H; [cbn; eauto|]. cbn [map] in H. cbn [zsum fold_right] in H. change (fold_right Z.add 0) with zsum in H. pose proof (P h). cbn [run].
  assert (exists r1 x, rot_step r o = Ok (r1, x) /\ Z.abs (motion r1) + Z.abs (abs_pos r1) <= Z.abs (motion r) + Z.abs (abs_pos r) + 2 * match o with RAdd d | RTransfer d => Z.abs d | RUse => 0 end) as (r1 & x & E & L).
  { change (2 ^ 31) with (2 ^ (32 - 1)) in H. destruct o as [d|d|]; cbv beta iota in H |- *; cbn [rot_step].
    - unfold add_motion. rewrite schk_ok by lia. cbn [bind]. rewrite schk_ok by lia. cbn [bind]. do 2 eexists. split; [reflexivity|]. cbn [motion abs_pos]. lia.
    - unfold add_motion. rewrite schk_ok by lia. cbn [bind]. rewrite schk_ok by lia. cbn [bind]. do 2 eexists. split; [reflexivity|]. cbn [motion abs_pos]. lia.
    - do 2 eexists. split; [reflexivity|]. cbn [motion abs_pos]. lia. }
  rewrite E. cbn [bind]. destruct (IH r1) as (r' & outs & E'); [lia|]. rewrite E'. cbn [bind]. eauto.
Qed.
Definition total_motion (rs : list rotary) : Z := zsum (map motion rs).
Lemma total_zupd rs i r x : znth rs i = Some r -> total_motion (zupd rs i x) = total_motion rs - motion r + motion x.
Proof.
  intros H. pose proof (znth_some_range _ _ _ H) as HR. unfold total_motion, zupd, znth in *. destruct (Z.ltb_spec i 0); [lia|]. destruct (Z.leb_spec 0 i); [|lia].
  revert H. generalize (Z.to_nat i) as n. clear HR. induction rs as [|y rs IH]; intros n H; [destruct n; discriminate|]. destruct n as [|n]; cbn in H |- *.
  - injection H as ->. cbn. lia.
  - specialize (IH n H). unfold zsum in IH. lia.
Qed.
Lemma rots_conserve h : forall rs0 rs outs, Forall (fun o => match o with MTransfer i j => i <> j | _ => True end) h ->
  run rots_step rs0 h = Ok (rs, outs) ->
  total_motion rs + zsum outs = total_motion rs0 + zsum (map (fun o => match o with MRecv _ d => d | _ => 0 end) h).
Proof.
  induction h as [|o h IH]; intros rs0 rs outs HF H; cbn [run] in H.
  - injection H as <- <-. cbn. lia.
  - inversion HF as [|? ? Ho HF']; subst. apply bind_inv in H as ([r1 x] & H1 & H). apply bind_inv in H as ([r2 xs] & H2 & H). injection H as <- <-.
    specialize (IH r1 r2 xs HF' H2). cbn [map zsum fold_right]. change (fold_right Z.add 0) with zsum. 
    assert (HS : total_motion r1 + x = total_motion rs0 + match o with MRecv _ d => d | _ => 0 end).
    { destruct o as [i d|i j|i]; cbn [rots_step] in H1.
      - apply bind_inv in H1 as (r & Hr & H1). apply bind_inv in H1 as (r' & Hr' & H1). apply bind_inv in H1 as (rs' & Hw & H1). injection H1 as <- <-.
        apply rd_inv in Hr. apply wr_inv in Hw as [_ ->]. apply add_motion_inv in Hr' as [M _]. rewrite (total_zupd _ _ _ _ Hr). lia.
      - apply bind_inv in H1 as (r & Hr & H1). apply bind_inv in H1 as (t & Ht & H1). apply bind_inv in H1 as ([r' t'] & Hp & H1). apply bind_inv in H1 as (rs1 & Hw1 & H1). apply bind_inv in H1 as (rs2 & Hw2 & H1). injection H1 as <- <-.
        apply rd_inv in Hr, Ht. apply wr_inv in Hw1 as [_ ->]. apply wr_inv in Hw2 as [_ ->]. unfold transfer_motion in Hp. cbn [use_motion] in Hp.
        apply bind_inv in Hp as (r'' & Ha & Hp). injection Hp as <- <-. apply add_motion_inv in Ha as [M _]. cbn [fst snd].
        rewrite (total_zupd _ i r) by (rewrite znth_zupd_ne by congruence; exact Hr). rewrite (total_zupd _ _ _ _ Ht). cbn. lia.
      - apply bind_inv in H1 as (r & Hr & H1). apply bind_inv in H1 as (rs' & Hw & H1). injection H1 as <- <-.
        apply rd_inv in Hr. apply wr_inv in Hw as [_ ->]. rewrite (total_zupd _ _ _ _ Hr). cbn. lia. }
    lia.
Qed.
Lemma zsum_zrepeat0 n : total_motion (zrepeat rot0 n) = 0.
Proof. unfold total_motion, zrepeat. induction (Z.to_nat n) as [|m IH]; [reflexivity|]. cbn in *. exact IH. Qed.
Lemma rot_conserved h r outs : run rot_step rot0 h = Ok (r, outs) -> zsum outs + motion r = received h /\ abs_pos r = received h.
Proof. intros H. destruct (rot_conserve h rot0 0 r outs H) as [A B]. unfold received. cbn [rot0 motion abs_pos] in *. lia. Qed.
Lemma rots_conserved n h rs outs : Forall (fun o => match o with MTransfer i j => i <> j | _ => True end) h ->
  run rots_step (zrepeat rot0 n) h = Ok (rs, outs) -> zsum outs + zsum (map motion rs) = zsum (map arrived h).
Proof.
  intros HF H. pose proof (rots_conserve h _ rs outs HF H) as E. rewrite zsum_zrepeat0 in E. unfold total_motion in E. unfold arrived. lia.
Qed.
Lemma transfer_spec r that r' that' : transfer_motion r that = Ok (r', that') ->
    motion that' = 0 /\ abs_pos that' = abs_pos that /\ motion r' = motion r + motion that /\ abs_pos r' = abs_pos r + motion that.
Proof.
  unfold transfer_motion. cbn [use_motion]. intros H. apply bind_inv in H as (x & Ha & H). injection H as <- <-. apply add_motion_inv in Ha as [A B]. cbn. auto.
Qed.
