(* Calls that are not interrupted: the access-by-access programs compute what the functions do. *)
From Verif.Common Require Import Base Lemmas Lists.
From Verif.Spec Require Import IrqSpec PoolSpec StaticStringSpec VectorSpec MapSpec.
From Verif.Model Require Import Irq Pool PoolIrq StaticString StringIrq FixedVector VectorIrq Maps MapIrq CircularExt AccessIrq.

From Verif.Proofs Require StaticString.

Fixpoint alone {S R} (p : prog S R) (s : S) : outcome (S * R) :=
  match p with
  | Ret r => Ok (s, r)
  | Irq.Acc f => match f s with Ok (s', p') => alone p' s' | UB k => UB k | OutOfFuel => OutOfFuel end
  end.
Lemma iexec_alone {S O R} (step : S -> O -> outcome (S * R)) : forall p s, iexec step p s [] = let* (s', r) := alone p s in Ok (s', r, []).
Proof.
  fix IH 1. intros [r|f] s; cbn; [reflexivity|]. destruct (f s) as [[s' p']| |]; cbn; try reflexivity.
  rewrite IH. destruct (alone p' s') as [[? ?]| |]; reflexivity.
Qed.
Lemma irun_alone {S O R} (step : S -> O -> outcome (S * R)) main s o : alone (main o) s = step s o ->
  irun step main s [Call o []] = let* (s', r) := step s o in Ok (s', [r], []).
Proof. intros E. cbn [irun]. rewrite iexec_alone, E. destruct (step s o) as [[? ?]| |]; reflexivity. Qed.

(** Pool *)
Section P.
Context {T : Type} (dflt : T).
Lemma rd_mid {A} (a : list A) x r : rd (a ++ x :: r) (zlen a) = Ok x.
Proof. apply rd_ok. rewrite znth_app_r by lia. rewrite Z.sub_diag. apply znth_cons_0. Qed.
Lemma wr_mid {A} (a : list A) x r y : wr (a ++ x :: r) (zlen a) y = Ok (a ++ y :: r).
Proof.
  pose proof (zlen_nonneg r). rewrite wr_ok by (rewrite zlen_app, zlen_cons; pose proof (zlen_nonneg a); lia). f_equal. apply znth_opt_ext. intros i Hi.
  destruct (Z.lt_total i (zlen a)) as [L|[->|L]].
  - rewrite znth_zupd_ne by lia. rewrite !znth_app_l by lia. reflexivity.
  - rewrite znth_zupd_eq by (rewrite zlen_app, zlen_cons; pose proof (zlen_nonneg a); lia). rewrite znth_app_r by lia. rewrite Z.sub_diag. symmetry. apply znth_cons_0.
  - rewrite znth_zupd_ne by lia. rewrite !znth_app_r by lia. rewrite !znth_cons_pos by lia. reflexivity.
Qed.
Lemma snoc_mid {A} (a : list A) x r : a ++ x :: r = (a ++ [x]) ++ r.
Proof. rewrite <- app_assoc. reflexivity. Qed.
Lemma zlen_snoc {A} (a : list A) x : zlen (a ++ [x]) = zlen a + 1.
Proof. rewrite zlen_app. reflexivity. Qed.

Lemma create_alone (ow : bool) r : forall a,
  alone (create_from dflt ow (length r) (zlen a)) (a ++ r) =
  let (r', res) := claim (fun x => if ow then x else dflt) (zlen a) r in Ok (a ++ r', PoPtr res).
Proof.
  induction r as [|e r IH]; intros a; [reflexivity|]. cbn [length create_from]. unfold load_used at 1. cbn [alone]. rewrite rd_mid. cbn [bind claim].
  destruct e as [d u]. cbn [e_used e_data]. destruct u; cbn [negb].
  - rewrite snoc_mid. rewrite <- zlen_snoc with (x := Entry d true). rewrite IH. rewrite zlen_snoc.
    destruct (claim _ (zlen a + 1) r) as [r' res]. rewrite <- app_assoc. reflexivity.
  - unfold store_used. cbn [alone]. rewrite rd_mid. cbn [bind]. rewrite wr_mid. cbn [bind e_data].
    destruct ow; [reflexivity|]. unfold store_data. cbn [alone]. rewrite rd_mid. cbn [bind]. rewrite wr_mid. reflexivity.
Qed.
Lemma destroy_alone p r : forall a,
  alone (R := pout T) (destroy_from p (length r) (zlen a)) (a ++ r) = let (r', b) := release p (zlen a) r in Ok (a ++ r', PoBool b).
Proof.
  induction r as [|e r IH]; intros a; [reflexivity|]. cbn [length destroy_from]. unfold load_used at 1. cbn [alone]. rewrite rd_mid. cbn [bind release].
  destruct (e_used e && _).
  - unfold store_used. cbn [alone]. rewrite rd_mid. cbn [bind]. rewrite wr_mid. reflexivity.
  - rewrite snoc_mid. rewrite <- zlen_snoc with (x := e). rewrite IH. rewrite zlen_snoc.
    destruct (release p (zlen a + 1) r) as [r' b]. rewrite <- app_assoc. reflexivity.
Qed.
Lemma uninterrupted_pool N s o : zlen s = N ->
  irun (p_step dflt) (p_main dflt N) s [Call o []] = let* (s', r) := p_step dflt s o in Ok (s', [r], []).
Proof.
  intros HN. apply irun_alone. assert (EN : Z.to_nat N = length s) by (unfold zlen in HN; lia).
  destruct o; unfold p_main, p_step at 1; rewrite ?EN.
  - exact (create_alone false s []).
  - exact (create_alone true s []).
  - exact (destroy_alone p s []).
  - cbn [alone]. cbn [p_step]. destruct (p_write s i x); reflexivity.
  - cbn [alone]. cbn [p_step]. destruct (p_read s i); reflexivity.
Qed.
End P.

(** StaticString *)
Section S.
Variable cap : Z.
Lemma copy_c_alone src : forall i d, alone (copy_c_prog cap i src) d = let* d' := copy_c cap i src d in Ok (d', SoUnit).
Proof.
  induction src as [|c r IH]; intros i d; [reflexivity|]. cbn [copy_c_prog copy_c]. destruct (negb (c =? 0) && (i <? cap)).
  - unfold store_c. cbn [alone]. destruct (wr d i c); cbn [bind]; try reflexivity. apply IH.
  - unfold store_c. cbn [alone]. destruct (wr d i 0); reflexivity.
Qed.
Lemma copy_sv_alone l : forall i d, alone (copy_sv_prog cap i l) d = let* d' := copy_sv cap i l d in Ok (d', SoUnit).
Proof.
  induction l as [|c r IH]; intros i d; cbn [copy_sv_prog copy_sv]; unfold store_c; cbn [alone].
  - destruct (wr d i 0); reflexivity.
  - destruct (wr d i c) as [d1| |]; cbn [bind]; try reflexivity. destruct (i + 1 >=? cap); [|apply IH]. cbn [alone]. destruct (wr d1 (i + 1) 0); reflexivity.
Qed.
Lemma copy_self_alone f : forall i off d, alone (copy_self_prog cap f i off) d = let* d' := copy_self cap f i off d in Ok (d', SoUnit).
Proof.
  induction f as [|f IH]; intros i off d; [reflexivity|]. cbn [copy_self_prog copy_self]. unfold load_c at 1. cbn [alone].
  destruct (rd d (off + i)) as [c| |] eqn:E; cbn [bind]; try reflexivity. destruct (negb (c =? 0) && (i <? cap)).
  - unfold load_c. cbn [alone]. rewrite E. cbn [bind]. unfold store_c. cbn [alone]. destruct (wr d i c); cbn [bind]; try reflexivity. apply IH.
  - unfold store_c. cbn [alone]. destruct (wr d i 0); reflexivity.
Qed.
Lemma scan_alone k r : forall f a seen, (length r < f)%nat ->
  alone (scan_prog f (zlen a) seen k) (a ++ r) = match cstring r with Some t => alone (k (rev seen ++ t)) (a ++ r) | None => UB OutOfBounds end.
Proof.
  induction r as [|c r IH]; intros f a seen Hf; (destruct f as [|f]; [cbn in Hf; lia|]); cbn [scan_prog]; unfold load_c; cbn [alone].
  - rewrite app_nil_r. destruct (rd a (zlen a)) eqn:E; cbn [bind cstring].
    + exfalso. unfold rd in E. destruct (znth a (zlen a)) eqn:E2; [|discriminate]. apply znth_some_range in E2. lia.
    + unfold rd in E. destruct (znth a (zlen a)); [discriminate|]. congruence.
    + unfold rd in E. destruct (znth a (zlen a)); discriminate.
  - rewrite rd_mid. cbn [bind cstring]. destruct (Z.eqb_spec c 0).
    + rewrite app_nil_r. reflexivity.
    + rewrite snoc_mid. rewrite <- zlen_snoc with (x := c). rewrite IH by (cbn in Hf; lia).
      destruct (cstring r); cbn [option_map]; [|reflexivity]. cbn [rev]. rewrite <- app_assoc. reflexivity.
Qed.
Lemma equal_alone t : forall u a r, zlen t = zlen u -> alone (equal_prog u (zlen a)) (a ++ t ++ r) = Ok (a ++ t ++ r, SoBool (sv_equal t u)).
Proof.
  induction t as [|x t IH]; intros [|y u] a r L; rewrite ?zlen_cons in L; [reflexivity| | |].
  - pose proof (zlen_nonneg u). cbn in L. lia.
  - pose proof (zlen_nonneg t). cbn in L. lia.
  - cbn [equal_prog app sv_equal]. unfold load_c. cbn [alone]. rewrite rd_mid. cbn [bind]. destruct (x =? y); cbn [andb]; [|reflexivity].
    rewrite snoc_mid. rewrite <- zlen_snoc with (x := x). apply IH. lia.
Qed.
Lemma sv_equal_len t : forall u, zlen t <> zlen u -> sv_equal t u = false.
Proof.
  induction t as [|x t IH]; intros [|y u] L; cbn [sv_equal]; try reflexivity; [contradiction|].
  rewrite !zlen_cons in L. rewrite IH by lia. apply andb_false_r.
Qed.
Lemma uninterrupted_string d o : 0 <= cap -> zlen d = cap + 1 ->
  irun (ss_step cap) (s_main cap) d [Call o []] = let* (d', r) := ss_step cap d o in Ok (d', [r], []).
Proof.
  intros Hc Hd. apply irun_alone.
  assert (SC : forall k, alone (all_prog cap k) d = match cstring d with Some t => alone (k t) d | None => UB OutOfBounds end).
  { intros k. refine (scan_alone k d _ [] [] _). unfold zlen in Hd. lia. }
  destruct o; cbn [s_main ss_step]; rewrite ?SC; unfold view; try (destruct (cstring d) as [t|] eqn:E; reflexivity).
  - apply copy_c_alone.
  - apply copy_sv_alone.
  - apply copy_self_alone.
  - unfold ss_clear, store_c. cbn [alone]. destruct (wr d 0 0); reflexivity.
  - destruct (cstring d) as [t|] eqn:E; [|reflexivity]. cbn [bind]. destruct (cstring mem) as [u|]; cbn [bind]; [|reflexivity].
    destruct (Z.eqb_spec (zlen t) (zlen u)).
    + destruct (StaticString.cstring_some _ _ E) as (r & Er & _). rewrite Er. apply (equal_alone t u [] (0 :: r)). assumption.
    + rewrite sv_equal_len by assumption. reflexivity.
Qed.
End S.

(** FixedVector *)
Section V.
Context {T : Type} (N : Z) (dflt : T).
Notation al := (alone (R := vout T)).
Lemma fill_alone k : forall i x rest s, al (fill_prog k i x rest) s = let* d := fill_from k i (v_data s) x in al rest (FVec d (v_n s)).
Proof.
  induction k as [|k IH]; intros i x rest [d n]; [reflexivity|]. cbn [fill_prog fill_from]. unfold store_el. cbn [alone v_data v_n].
  destruct (wr d i x); cbn [bind]; try reflexivity. apply IH.
Qed.
Lemma up_alone k : forall l dl rest s, al (shift_up k l dl rest) s = let* d := move_backward k (v_data s) l dl in al rest (FVec d (v_n s)).
Proof.
  induction k as [|k IH]; intros l dl rest [d n]; [reflexivity|]. cbn [shift_up move_backward]. unfold load_el. cbn [alone v_data v_n].
  destruct (rd d (l - 1)); cbn [bind]; try reflexivity. unfold store_el. cbn [alone v_data v_n]. destruct (wr d (dl - 1) a); cbn [bind]; try reflexivity. apply IH.
Qed.
Lemma down_alone k : forall f t rest s, al (shift_down k f t rest) s = let* d := move_forward k (v_data s) f t in al rest (FVec d (v_n s)).
Proof.
  induction k as [|k IH]; intros f t rest [d n]; [reflexivity|]. cbn [shift_down move_forward]. unfold load_el. cbn [alone v_data v_n].
  destruct (rd d f); cbn [bind]; try reflexivity. unfold store_el. cbn [alone v_data v_n]. destruct (wr d t a); cbn [bind]; try reflexivity. apply IH.
Qed.
Lemma list_alone b : forall a c n seen, al (list_prog (length b) (zlen a) seen) (FVec (a ++ b ++ c) n) = Ok (FVec (a ++ b ++ c) n, VList (rev seen ++ b)).
Proof.
  induction b as [|x b IH]; intros a c n seen; cbn [length list_prog]; [rewrite app_nil_r; reflexivity|].
  unfold load_el. cbn [alone v_data]. cbn [app]. rewrite rd_mid. cbn [bind]. rewrite snoc_mid, <- zlen_snoc with (x := x).
  rewrite IH. cbn [rev]. rewrite <- !app_assoc. reflexivity.
Qed.
Lemma uninterrupted_vector s o : 0 <= v_n s <= zlen (v_data s) ->
  irun (fv_step false N dflt) (v_main N dflt) s [Call o []] = let* (s', r) := fv_step false N dflt s o in Ok (s', [r], []).
Proof.
  intros Hn. apply irun_alone. destruct s as [d n]. cbn [v_n v_data] in Hn.
  destruct o; cbn [v_main fv_step]; unfold push_prog, load_n, store_n, load_el, store_el, addr; cbn [alone v_data v_n].
  - unfold fv_push; cbn [v_n v_data]. destruct (n >=? N); [reflexivity|]. cbn [alone v_data v_n]. destruct (wr d n x); reflexivity.
  - unfold fv_push_ow; cbn [v_n v_data]. destruct (n >=? N); reflexivity.
  - unfold fv_pop; cbn [v_n v_data]. destruct (n =? 0); [reflexivity|]. cbn [alone v_data v_n]. destruct (rd d (n - 1)); reflexivity.
  - unfold fv_back; cbn [v_n v_data]. destruct (n >? 0); [|reflexivity]. cbn [alone v_data v_n]. destruct (rd d (n - 1)); reflexivity.
  - unfold fv_insert, fv_push, addr; cbn [v_n v_data andb bind]. destruct (n >=? N) eqn:EN; [reflexivity|]. cbn [alone v_data v_n orb]. destruct (i >? n); [reflexivity|].
    cbn [alone v_data v_n]. destruct (i =? n).
    + cbn [alone v_data v_n]. rewrite EN. cbn [alone v_data v_n]. destruct (wr d n x); reflexivity.
    + cbn [alone v_data v_n]. rewrite up_alone. cbn [v_data v_n]. destruct (move_backward _ d n (n + 1)) as [d1| |]; cbn [bind]; try reflexivity.
      cbn [alone v_data v_n]. destruct (wr d1 i x); reflexivity.
  - unfold fv_erase, addr; cbn [v_n v_data andb bind]. destruct (n =? 0); [reflexivity|]. cbn [alone v_data v_n orb]. destruct (i >=? n); [reflexivity|].
    cbn [alone v_data v_n]. destruct (i =? n - 1); [reflexivity|]. cbn [alone v_data v_n]. rewrite down_alone. cbn [v_data v_n].
    destruct (move_forward _ d (i + 1) i) as [d1| |]; reflexivity.
  - unfold fv_erase_range; cbn [v_n v_data]. destruct ((first <=? n) && (last <=? n)); cbn [negb]; [|reflexivity]. cbn [alone v_data v_n].
    destruct ((n =? 0) || (last - first <=? 0)); [reflexivity|]. cbn [alone v_data v_n]. rewrite down_alone. cbn [v_data v_n].
    destruct (move_forward _ d last first) as [d1| |]; reflexivity.
  - unfold fv_resize; cbn [v_n v_data]. destruct (Z.min _ N >? n); [|reflexivity]. cbn [alone v_data v_n]. rewrite fill_alone. cbn [v_data v_n].
    destruct (fill_from _ n d x) as [d1| |]; reflexivity.
  - reflexivity.
  - reflexivity.
  - reflexivity.
  - reflexivity.
  - reflexivity.
  - unfold fv_contents; cbn [v_n v_data]. assert (L : length (firstn (Z.to_nat n) d) = Z.to_nat n) by (rewrite firstn_length; unfold zlen in Hn; lia).
    rewrite <- L at 1. rewrite <- (firstn_skipn (Z.to_nat n) d) at 2 3. exact (list_alone (firstn (Z.to_nat n) d) [] (skipn (Z.to_nat n) d) n []).
  - unfold fv_at; cbn [v_n v_data]. destruct (rd d i); reflexivity.
  - unfold fv_set; cbn [v_n v_data]. destruct (wr d i x); reflexivity.
Qed.
End V.

(** CircularBufferAccess *)
Section A.
Context {T : Type} (W : Z) (mix : T -> T -> T) (zero : T).
Notation al := (alone (R := aout T)).
Lemma read_alone (up : bool) n : forall got w k s, al (read_prog W up n got w k) s =
  let* (s', d, w') := (if up then read_loop W n s w else read_reverse_loop W n s w) in al (k (rev got ++ d) w') s'.
Proof.
  induction n as [|n IH]; intros got w k s; cbn [read_prog read_loop read_reverse_loop].
  - destruct up; cbn [bind]; rewrite app_nil_r; reflexivity.
  - unfold load_rd, store_rd, load_buf. cbn [alone a_buf a_sz a_rd a_wr]. destruct up; destruct (rd (a_buf s) (a_rd s)) as [x| |]; cbn [bind]; try reflexivity; cbn [alone a_buf a_sz a_rd a_wr]; unfold next_pos, from_end.
    + destruct (word W (a_rd s + 1) >=? a_sz s); cbn [alone a_buf a_sz a_rd a_wr]; rewrite IH; destruct (read_loop W n _ _) as [[[s' ds] w']| |]; cbn [bind]; try reflexivity; cbn [rev]; rewrite <- app_assoc; reflexivity.
    + destruct (word W (a_rd s - 1) >=? a_sz s); cbn [alone a_buf a_sz a_rd a_wr]; rewrite IH; destruct (read_reverse_loop W n _ _) as [[[s' ds] w']| |]; cbn [bind]; try reflexivity; cbn [rev]; rewrite <- app_assoc; reflexivity.
Qed.
Lemma write_alone (up : bool) d : forall w k s, al (write_prog W mix up d w k) s =
  let* (s', w') := (if up then write_loop W mix d s w else write_reverse_loop W mix d s w) in al (k w') s'.
Proof.
  induction d as [|x d IH]; intros w k s; cbn [write_prog write_loop write_reverse_loop]; [destruct up; reflexivity|].
  unfold load_wr, store_wr, load_buf, store_buf. cbn [alone a_buf a_sz a_rd a_wr].
  destruct up; destruct (rd (a_buf s) (a_wr s)) as [o| |]; cbn [bind]; try reflexivity; cbn [alone a_buf a_sz a_rd a_wr]; unfold next_pos, from_end;
    (destruct (wr (a_buf s) (a_wr s) (mix x o)) as [b| |]; cbn [bind]; try reflexivity; cbn [alone a_buf a_sz a_rd a_wr]).
  - destruct (word W (a_wr s + 1) >=? a_sz s); cbn [alone a_buf a_sz a_rd a_wr]; apply IH.
  - destruct (word W (a_wr s - 1) >=? a_sz s); cbn [alone a_buf a_sz a_rd a_wr]; apply IH.
Qed.
Lemma clear_alone n : forall i s, al (clear_prog zero n i) s = let* b := clear_loop zero n i (a_buf s) in Ok (CircularExt.Acc b (a_sz s) (a_rd s) (a_wr s), ANone).
Proof.
  induction n as [|n IH]; intros i s; cbn [clear_prog clear_loop]; [destruct s; reflexivity|]. unfold store_buf. cbn [alone].
  destruct (wr (a_buf s) i zero) as [b| |]; cbn [bind]; try reflexivity. rewrite IH. reflexivity.
Qed.
Lemma uninterrupted_access s o :
  irun (acc_step W mix zero) (a_main W mix zero) s [Call o []] = let* (s', r) := acc_step W mix zero s o in Ok (s', [r], []).
Proof.
  apply irun_alone. destruct o; cbn [a_main acc_step].
  - rewrite read_alone. unfold acc_read. destruct (read_loop _ _ _ _) as [[[? ?] ?]| |]; reflexivity.
  - rewrite read_alone. unfold acc_read_reverse. destruct (read_reverse_loop _ _ _ _) as [[[? ?] ?]| |]; reflexivity.
  - rewrite write_alone. unfold acc_write. destruct (write_loop _ _ _ _ _) as [[? ?]| |]; reflexivity.
  - rewrite write_alone. unfold acc_write_reverse. destruct (write_reverse_loop _ _ _ _ _) as [[? ?]| |]; reflexivity.
  - unfold load_rd. cbn [alone]. rewrite read_alone. unfold acc_read_check, acc_read. destruct (read_loop _ _ _ _) as [[[? ?] ?]| |]; reflexivity.
  - unfold load_rd. cbn [alone]. rewrite read_alone. unfold acc_read_reverse_check, acc_read_reverse. destruct (read_reverse_loop _ _ _ _) as [[[? ?] ?]| |]; reflexivity.
  - unfold load_wr. cbn [alone]. rewrite write_alone. unfold acc_write_check, acc_write. destruct (write_loop _ _ _ _ _) as [[? ?]| |]; reflexivity.
  - cbn [alone]. rewrite clear_alone. unfold acc_clear. destruct (clear_loop _ _ _ _); reflexivity.
  - reflexivity.
  - reflexivity.
  - reflexivity.
  - reflexivity.
Qed.
End A.

(** SeqMap and SequentialMap *)
Lemma rd_range {A} (l : list A) i x : rd l i = Ok x -> 0 <= i < zlen l.
Proof. unfold rd. destruct (znth l i) eqn:E; [|discriminate]. intros _. eapply znth_some_range. exact E. Qed.
Lemma rd_wr_ub {A} (l : list A) i x k : rd l i = UB k -> wr l i x = UB k.
Proof.
  unfold rd, wr. destruct (znth l i) eqn:E; [discriminate|]. intros [= <-]. destruct (Z.leb_spec 0 i); [|reflexivity]. destruct (Z.ltb_spec i (zlen l)); [|reflexivity].
  destruct (znth_some l i) as [y Hy]; [lia|congruence].
Qed.
Lemma zupd_zupd_own {A} (l : list A) i x y : 0 <= i < zlen l -> zupd (zupd l i x) i y = zupd l i y.
Proof.
  intros Hi. apply znth_opt_ext. intros j Hj. destruct (Z.eq_dec j i) as [->|].
  - rewrite !znth_zupd_eq by (rewrite ?zlen_zupd; exact Hi). reflexivity.
  - rewrite !znth_zupd_ne by congruence. reflexivity.
Qed.
Lemma key_index_lt {K V} (keq : K -> K -> bool) k (l : list (K * V)) : forall j i, key_index keq k j l = Some i -> j <= i < j + zlen l.
Proof.
  induction l as [|p r IH]; intros j i E; cbn [key_index] in E; [discriminate|]. rewrite zlen_cons. pose proof (zlen_nonneg r). destruct (keq (fst p) k).
  - injection E as <-. lia.
  - apply IH in E. lia.
Qed.
Section M.
Context {K V : Type} (keq : K -> K -> bool) (N : Z) (dk : K) (dv : V).
Lemma keys_alone key found missing r : forall a c vs n o,
  alone (R := mout K V) (scan_keys keq key (length r) (zlen a) found missing) (SeqMap (a ++ r ++ c) vs n o) =
  match find_key keq key (zlen a) r with Some i => alone (found i) (SeqMap (a ++ r ++ c) vs n o) | None => alone missing (SeqMap (a ++ r ++ c) vs n o) end.
Proof.
  induction r as [|k r IH]; intros a c vs n o; [reflexivity|]. cbn [length scan_keys find_key]. unfold load_key. cbn [alone q_keys app]. rewrite rd_mid. cbn [bind].
  destruct (keq k key); [reflexivity|]. rewrite snoc_mid, <- zlen_snoc with (x := k). rewrite IH. rewrite zlen_snoc. reflexivity.
Qed.
Lemma look_alone key found missing s : 0 <= q_sz s -> alone (R := mout K V) (look_for keq key found missing) s =
  let* a := active s in match find_key keq key 0 a with Some i => alone (found i) s | None => alone missing s end.
Proof.
  intros Hn. unfold look_for, load_active, active. cbn [alone]. destruct s as [ks vs n o]. cbn [q_sz q_keys] in *. destruct (Z.leb_spec n (zlen ks)); [|reflexivity].
  cbn [bind]. assert (L : length (firstn (Z.to_nat n) ks) = Z.to_nat n) by (rewrite firstn_length; unfold zlen in *; lia).
  pose proof (keys_alone key found missing (firstn (Z.to_nat n) ks) [] (skipn (Z.to_nat n) ks) vs n o) as E. cbn [app] in E. rewrite firstn_skipn, L in E. exact E.
Qed.
Lemma uninterrupted_seqmap s o : 0 <= q_sz s ->
  irun (q_step keq N dk dv) (q_main keq N dk dv) s [Call o []] = let* (s', r) := q_step keq N dk dv s o in Ok (s', [r], []).
Proof.
  intros Hn. apply irun_alone. destruct o; cbn [q_main q_step]; rewrite ?look_alone by exact Hn; unfold q_overwrite, q_get, q_exists, q_insert, q_remove, q_remove_last;
    try (destruct (active s) as [a| |]; cbn [bind]; [|reflexivity..]).
  all: try (destruct (find_key keq k 0 a) as [i|]).
  all: destruct s as [ks vs n o]; cbn [q_keys q_vals q_sz q_oldest] in *.
  all: unfold load_sz, store_sz, load_old, store_old, store_key, store_val, load_val; cbn [alone q_keys q_vals q_sz q_oldest bind].
  all: repeat (match goal with
       | |- context [if ?b then _ else _] => destruct b; cbn [alone q_keys q_vals q_sz q_oldest bind]
       | |- context [wr ?l ?i ?x] => destruct (wr l i x); cbn [alone q_keys q_vals q_sz q_oldest bind]
       | |- context [rd ?l ?i] => destruct (rd l i); cbn [alone q_keys q_vals q_sz q_oldest bind]
       end); try reflexivity.
Qed.
End M.

Section M2.
Context {K V : Type} (keq : K -> K -> bool) (N : Z).
Notation al := (alone (R := mout K V)).
Lemma range_alone key found missing r : forall a c n,
  al (scan_range keq key (length r) (zlen a) found missing) (FVec (a ++ r ++ c) n) =
  match key_index keq key (zlen a) r with Some i => al (found i) (FVec (a ++ r ++ c) n) | None => al missing (FVec (a ++ r ++ c) n) end.
Proof.
  induction r as [|k r IH]; intros a c n; [reflexivity|]. cbn [length scan_range key_index]. unfold load_fst, load_el. cbn [alone v_data app]. rewrite rd_mid. cbn [bind].
  destruct (keq (fst k) key); [reflexivity|]. rewrite snoc_mid, <- zlen_snoc with (x := k). rewrite IH. rewrite zlen_snoc. reflexivity.
Qed.
Lemma iter_alone key found missing r : forall f a c, (length r < f)%nat ->
  al (scan_iter keq key f (zlen a) found missing) (FVec (a ++ r ++ c) (zlen (a ++ r))) =
  match key_index keq key (zlen a) r with Some i => al (found i) (FVec (a ++ r ++ c) (zlen (a ++ r))) | None => al missing (FVec (a ++ r ++ c) (zlen (a ++ r))) end.
Proof.
  induction r as [|k r IH]; intros f a c Hf; (destruct f as [|f]; [cbn in Hf; lia|]); cbn [scan_iter key_index]; unfold load_n at 1; cbn [alone v_n].
  - rewrite app_nil_r, Z.ltb_irrefl. reflexivity.
  - replace (zlen a <? zlen (a ++ k :: r)) with true by (symmetry; apply Z.ltb_lt; rewrite zlen_app, zlen_cons; pose proof (zlen_nonneg r); lia).
    unfold load_fst, load_el. cbn [alone v_data app]. rewrite rd_mid. cbn [bind].
    destruct (keq (fst k) key); [reflexivity|]. pose proof (IH f (a ++ [k]) c ltac:(cbn in Hf; lia)) as E. rewrite zlen_snoc, <- !app_assoc in E. exact E.
Qed.
Lemma pairs_alone k : forall first dst rest s, first <> dst -> al (shift_pairs k first dst rest) s =
  let* d := move_forward k (v_data s) first dst in al rest (FVec d (v_n s)).
Proof.
  induction k as [|k IH]; intros f t rest [d n] Hne; [reflexivity|]. cbn [shift_pairs move_forward].
  unfold load_fst, load_snd, load_el, store_fst, store_snd, fv_at, fv_set. cbn [alone v_data v_n].
  destruct (rd d f) as [[x y]| |] eqn:Ef; cbn [bind fst snd alone v_data v_n]; try reflexivity.
  destruct (rd d t) as [[x' y']| |] eqn:Et; cbn [bind fst snd alone v_data v_n].
  - apply rd_range in Et as Et2. rewrite !wr_ok by exact Et2. cbn [bind fst snd alone v_data v_n].
    rewrite (rd_ok _ _ (x, y)) by (rewrite znth_zupd_ne by congruence; unfold rd in Ef; destruct (znth d f); congruence).
    cbn [bind fst snd alone v_data v_n]. rewrite (rd_ok _ _ (x, y')) by (apply znth_zupd_eq; exact Et2). cbn [bind fst snd alone v_data v_n].
    rewrite wr_ok by (rewrite zlen_zupd; exact Et2). cbn [bind fst snd alone v_data v_n]. rewrite zupd_zupd_own by exact Et2. apply IH. lia.
  - rewrite (rd_wr_ub d t (x, y) _ Et). reflexivity.
  - unfold rd in Et. destruct (znth d t); discriminate.
Qed.
Lemma pairs_list_alone b : forall a c n seen, al (list_pairs (length b) (zlen a) seen) (FVec (a ++ b ++ c) n) = Ok (FVec (a ++ b ++ c) n, MoList (rev seen ++ b)).
Proof.
  induction b as [|[x y] b IH]; intros a c n seen; cbn [length list_pairs]; [rewrite app_nil_r; reflexivity|].
  unfold load_fst, load_snd, load_el. cbn [alone v_data]. cbn [app]. rewrite rd_mid. cbn [bind alone v_data fst]. rewrite rd_mid. cbn [bind alone fst snd]. rewrite snoc_mid, <- zlen_snoc with (x := (x, y)).
  rewrite IH. cbn [rev]. rewrite <- !app_assoc. reflexivity.
Qed.
Section SM.
Variables (d : list (K * V)) (n : Z).
Hypothesis Hn : 0 <= n <= N.
Hypothesis Hd : zlen d = N.
Lemma split_at : d = firstn (Z.to_nat n) d ++ skipn (Z.to_nat n) d /\ length (firstn (Z.to_nat n) d) = Z.to_nat n.
Proof using All. split; [symmetry; apply firstn_skipn|]. rewrite firstn_length. unfold zlen in Hd. lia. Qed.
Lemma range_all key found missing : al (scan_range keq key (Z.to_nat n) 0 found missing) (FVec d n) =
  match sm_find_idx keq (FVec d n) key with Some i => al (found i) (FVec d n) | None => al missing (FVec d n) end.
Proof using All.
  destruct split_at as [E L]. pose proof (range_alone key found missing (firstn (Z.to_nat n) d) [] (skipn (Z.to_nat n) d) n) as H. cbn [app] in H.
  rewrite <- E, L in H. exact H.
Qed.
Lemma iter_all key found missing : al (scan_iter keq key (S (Z.to_nat N)) 0 found missing) (FVec d n) =
  match sm_find_idx keq (FVec d n) key with Some i => al (found i) (FVec d n) | None => al missing (FVec d n) end.
Proof using All.
  destruct split_at as [E L]. pose proof (iter_alone key found missing (firstn (Z.to_nat n) d) (S (Z.to_nat N)) [] (skipn (Z.to_nat n) d) ltac:(lia)) as H. cbn [app] in H.
  rewrite <- E in H. replace (zlen (firstn (Z.to_nat n) d)) with n in H by (unfold zlen; rewrite L; lia). exact H.
Qed.
Lemma ref_alone key k : al (sm_ref_prog keq N key k) (FVec d n) = let* (s', i) := sm_ref keq N (FVec d n) key in al (k i) s'.
Proof using All.
  unfold sm_ref_prog, sm_ref, load_n. cbn [alone v_n]. rewrite range_all. destruct (sm_find_idx keq (FVec d n) key); [reflexivity|].
  unfold grow, fv_push_ow, load_n, store_n, store_fst, fv_at, fv_set. cbn [alone v_n v_data].
  destruct (n >=? N); cbn [alone v_n v_data].
  - rewrite Z.eqb_refl. destruct (rd d (N - 1)) as [e| |]; cbn [bind alone]; try reflexivity. destruct (wr d (N - 1) (key, snd e)); reflexivity.
  - destruct (n =? N); [destruct (rd d (n - 1)) as [e| |]|destruct (rd d n) as [e| |]]; cbn [bind alone]; try reflexivity;
      [destruct (wr d (n - 1) (key, snd e))|destruct (wr d n (key, snd e))]; reflexivity.
Qed.
Lemma uninterrupted_sequential_map o :
  irun (sm_step keq N) (sm_main keq N) (FVec d n) [Call o []] = let* (s', r) := sm_step keq N (FVec d n) o in Ok (s', [r], []).
Proof using All.
  apply irun_alone. destruct o; cbn [sm_main sm_step].
  - rewrite ref_alone. unfold sm_assign. destruct (sm_ref _ _ _ _) as [[s' i]| |]; cbn [bind]; try reflexivity. unfold store_snd. cbn [alone].
    destruct (fv_at s' i) as [e| |]; cbn [bind]; try reflexivity. destruct (fv_set s' i (fst e, v)); reflexivity.
  - rewrite ref_alone. unfold sm_read_ref. destruct (sm_ref _ _ _ _) as [[s' i]| |]; cbn [bind]; try reflexivity. unfold load_snd, load_el, fv_at. cbn [alone].
    destruct (rd (v_data s') i); reflexivity.
  - rewrite iter_all. unfold sm_find, fv_at. destruct (sm_find_idx _ _ _) as [i|]; [|reflexivity]. unfold load_snd, load_el. cbn [alone v_data]. destruct (rd d i); reflexivity.
  - unfold load_n. cbn [alone v_n]. rewrite range_all. unfold sm_contains. destruct (sm_find_idx _ _ _) as [i|]; reflexivity.
  - rewrite iter_all. unfold sm_erase. destruct (sm_find_idx _ _ _) as [i|] eqn:E; [|reflexivity]. unfold load_n, store_n. cbn [alone v_n v_data].
    assert (Hi : 0 <= i < n).
    { destruct split_at as [_ L]. unfold sm_find_idx, fv_contents in E. cbn [v_n v_data] in E. apply key_index_lt in E. unfold zlen in E. rewrite L in E. lia. }
    destruct (Z.eqb_spec i n); [lia|]. unfold fv_erase_range. cbn [alone v_n v_data]. destruct (Z.eqb_spec n 0); [lia|]. cbn [orb].
    destruct (Z.leb_spec (i + 1 - i) 0); [lia|]. cbn [alone v_n v_data]. rewrite pairs_alone by lia. cbn [v_data v_n].
    destruct (move_forward _ _ _ _) as [d1| |]; cbn [bind]; try reflexivity. cbn [alone v_n v_data]. do 4 f_equal. lia.
  - rewrite iter_all. unfold sm_insert. cbn [fst]. destruct (sm_find_idx _ _ _) as [i|]; [reflexivity|].
    unfold grow, fv_push_ow, load_n, store_n, store_fst, fv_at, fv_set. cbn [alone v_n v_data].
    destruct (n >=? N); cbn [alone v_n v_data]; [rewrite Z.eqb_refl; reflexivity|]. destruct (n =? N); [reflexivity|].
    cbn [alone v_n v_data]. destruct (rd d n) as [e| |]; cbn [bind alone]; try reflexivity. destruct (wr d n (k, snd e)); reflexivity.
  - reflexivity.
  - reflexivity.
  - reflexivity.
  - reflexivity.
  - reflexivity.
  - unfold load_n, fv_contents. cbn [alone v_n v_data]. destruct split_at as [E L].
    pose proof (pairs_list_alone (firstn (Z.to_nat n) d) [] (skipn (Z.to_nat n) d) n []) as H. cbn [app rev] in H. rewrite <- E, L in H. exact H.
Qed.
End SM.
End M2.
