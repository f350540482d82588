From Verif.Common Require Import Base Lemmas Lists.
From Verif.Spec Require Import Digits PrintSpec.
From Verif.Model Require Import IntToStr.
From Verif.Proofs Require Import Digits.

Fixpoint places_of (b : Z) (n : nat) : list Z :=
  match n with O => [] | S m => b ^ Z.of_nat m :: places_of b m end.
Lemma places10_eq : places10 = places_of 10 10. Proof. reflexivity. Qed.
Lemma places16_eq : places16 = places_of 16 8. Proof. reflexivity. Qed.

Lemma sub_div_mod v p : 0 < p -> v - v / p * p = v mod p.
Proof. intros. pose proof (Z.div_mod v p). lia. Qed.

(* ---------------- print ---------------- *)
Lemma print_char d : (if d <? 10 then 48 + d else 65 + d - 10) = ascii_digit d.
Proof. unfold ascii_digit. destruct (d <? 10); lia. Qed.
Lemma print_digits_true b n v : 1 < b -> print_digits (places_of b n) v true = map ascii_digit (fixed b n v).
Proof.
  intros Hb. revert v; induction n as [|n IH]; intros v; cbn [places_of print_digits fixed map]; [reflexivity|].
  unfold print_digit. cbn [orb app]. rewrite sub_div_mod by (apply bpow; exact Hb). rewrite IH, print_char. reflexivity.
Qed.
Lemma print_digits_false b n v l : 1 < b -> numeral b v l -> 0 < v < b ^ Z.of_nat n ->
  print_digits (places_of b n) v false = map ascii_digit l.
Proof.
  intros Hb Hl. induction n as [|n IH]; intros Hv.
  - cbn in Hv. lia.
  - cbn [places_of print_digits]. unfold print_digit. cbn [orb].
    destruct (Z.geb_spec v (b ^ Z.of_nat n)) as [G|G].
    + pose proof (bpow b Hb n) as Hp. rewrite sub_div_mod by exact Hp. rewrite print_digits_true by exact Hb.
      rewrite print_char. cbn [app]. change (ascii_digit (v / b ^ Z.of_nat n) :: map ascii_digit (fixed b n (v mod b ^ Z.of_nat n))) with (map ascii_digit (fixed b (S n) v)). f_equal.
      apply (numeral_unique b Hb v); [|exact Hl].
      destruct (fixed_spec b Hb (S n) v ltac:(lia)) as [A B]. split; [exact A|]. split; [exact B|]. right.
      eexists _, _. split; [reflexivity|]. assert (1 <= v / b ^ Z.of_nat n) by (apply Z.div_le_lower_bound; lia). lia.
    + cbn [app]. apply IH. lia.
Qed.
Lemma print_int_spec v l : - 2 ^ 31 < v < 2 ^ 31 -> numeral 10 (Z.abs v) l -> print_int v = Ok (sign_text v ++ map ascii_digit l).
Proof.
  intros Hv Hl. unfold print_int, sign_text.
  destruct (Z.eqb_spec v 0) as [->|Hv0].
  - assert (l = [0]) as ->; [|reflexivity]. apply (numeral_unique 10 ltac:(lia) 0); [exact Hl|].
    split; [|split]; [constructor; [lia|constructor]|reflexivity|left; reflexivity].
  - rewrite places10_eq. destruct (Z.ltb_spec v 0) as [Hn|Hn].
    + unfold schk. change (32 - 1) with 31. replace ((- 2 ^ 31 <=? - v) && (- v <? 2 ^ 31)) with true by lia. cbn [bind].
      rewrite (print_digits_false 10 10 (- v) l); [reflexivity|lia| |change (10 ^ Z.of_nat 10) with 10000000000; lia].
      replace (- v) with (Z.abs v) by lia. exact Hl.
    + rewrite (print_digits_false 10 10 v l); [reflexivity|lia| |change (10 ^ Z.of_nat 10) with 10000000000; lia].
      replace v with (Z.abs v) by lia. exact Hl.
Qed.
Lemma print_int_min : print_int (- 2 ^ 31) = UB SignedOverflow.
Proof. vm_compute. reflexivity. Qed.
Lemma print_hex_spec v l : 0 <= v < 2 ^ 32 -> numeral 16 v l -> print_hex v = Ok (map ascii_digit l).
Proof.
  intros Hv Hl. unfold print_hex. destruct (Z.eqb_spec v 0) as [->|Hv0].
  - assert (l = [0]) as ->; [|reflexivity]. apply (numeral_unique 16 ltac:(lia) 0); [exact Hl|].
    split; [|split]; [constructor; [lia|constructor]|reflexivity|left; reflexivity].
  - rewrite places16_eq. rewrite (print_digits_false 16 8 v l); [reflexivity|lia|exact Hl|]. change (16 ^ Z.of_nat 8) with (2 ^ 32). lia.
Qed.

(* ---------------- C strings ---------------- *)
Lemma rd_mid {A} (pre : list A) x post : rd (pre ++ x :: post) (zlen pre) = Ok x.
Proof.
  apply rd_ok. unfold znth, zlen. destruct (Z.ltb_spec (Z.of_nat (length pre)) 0); [lia|].
  rewrite Nat2Z.id, nth_error_app2, Nat.sub_diag by lia. reflexivity.
Qed.
Lemma zlen_snoc {A} (pre : list A) x : zlen (pre ++ [x]) = zlen pre + 1.
Proof. unfold zlen. rewrite app_length. cbn. lia. Qed.
Lemma print_cstr_run s : forall fuel pre post, ~ In 0 s -> (length s < fuel)%nat ->
  print_cstr_f fuel (pre ++ s ++ 0 :: post) (zlen pre) = Ok s.
Proof.
  induction s as [|c s IH]; intros fuel pre post Hs Hf; (destruct fuel as [|fuel]; [cbn in Hf; lia|]); cbn [print_cstr_f app].
  - rewrite rd_mid. reflexivity.
  - rewrite rd_mid. cbn [bind]. destruct (Z.eqb_spec c 0) as [->|]; [exfalso; apply Hs; left; reflexivity|].
    replace (pre ++ c :: s ++ 0 :: post) with ((pre ++ [c]) ++ s ++ 0 :: post) by (rewrite <- app_assoc; reflexivity).
    rewrite <- zlen_snoc with (x := c). rewrite IH; [reflexivity| |cbn in Hf; lia]. intros H; apply Hs; right; exact H.
Qed.
Lemma print_cstr_spec pre s post : ~ In 0 s -> print_cstr (pre ++ s ++ 0 :: post) (zlen pre) = Ok s.
Proof. intros Hs. unfold print_cstr. apply print_cstr_run; [exact Hs|]. rewrite !app_length. lia. Qed.
Lemma print_cstr_runaway s : forall fuel pre, ~ In 0 s -> (length s < fuel)%nat ->
  print_cstr_f fuel (pre ++ s) (zlen pre) = UB OutOfBounds.
Proof.
  induction s as [|c s IH]; intros fuel pre Hs Hf; (destruct fuel as [|fuel]; [cbn in Hf; lia|]); cbn [print_cstr_f].
  - rewrite rd_oob; [reflexivity|]. rewrite app_nil_r. lia.
  - rewrite rd_mid. cbn [bind]. destruct (Z.eqb_spec c 0) as [->|]; [exfalso; apply Hs; left; reflexivity|].
    replace (pre ++ c :: s) with ((pre ++ [c]) ++ s) by (rewrite <- app_assoc; reflexivity).
    rewrite <- zlen_snoc with (x := c). rewrite IH; [reflexivity| |cbn in Hf; lia]. intros H; apply Hs; right; exact H.
Qed.
Lemma print_cstr_unterminated pre s : ~ In 0 s -> print_cstr (pre ++ s) (zlen pre) = UB OutOfBounds.
Proof. intros Hs. unfold print_cstr. apply print_cstr_runaway; [exact Hs|]. rewrite !app_length. lia. Qed.

(* ---------------- num_digits ---------------- *)
Lemma numeral_len v l k : numeral 10 v l -> (if Nat.eqb k 0 then 0 else 10 ^ Z.of_nat k) <= v < 10 ^ Z.of_nat (S k) -> zlen l = Z.of_nat (S k).
Proof.
  intros Hl Hv. destruct (numeral_fixed 10 ltac:(lia) v l (S k) Hl) as [Hle E]; [lia|lia|].
  destruct (Nat.eq_dec (length l) (S k)) as [Eq|Hne]; [unfold zlen; lia|]. exfalso.
  destruct k as [|k].
  - assert (length l = 0%nat) by lia. destruct l; [|discriminate]. destruct Hl as (_ & _ & [?|(d & r & ? & _)]); discriminate.
  - cbn [Nat.eqb] in Hv. destruct Hl as (Hf & Hval & _). pose proof (value_range 10 ltac:(lia) l Hf) as Hr.
    assert (10 ^ Z.of_nat (length l) <= 10 ^ Z.of_nat (S k)) by (apply Z.pow_le_mono_r; lia). lia.
Qed.
Lemma num_digits_spec v l : 0 <= v < 2 ^ 32 -> numeral 10 v l -> num_digits v = Ok (zlen l).
Proof.
  intros Hv Hl. change (2 ^ 32) with 4294967296 in Hv.
  assert (L : forall k : nat, (if Nat.eqb k 0 then 0 else 10 ^ Z.of_nat k) <= v < 10 ^ Z.of_nat (S k) -> zlen l = Z.of_nat (S k))
    by (intros k; apply numeral_len; exact Hl).
  pose proof (L 0%nat) as L0; pose proof (L 1%nat) as L1; pose proof (L 2%nat) as L2; pose proof (L 3%nat) as L3; pose proof (L 4%nat) as L4;
  pose proof (L 5%nat) as L5; pose proof (L 6%nat) as L6; pose proof (L 7%nat) as L7; pose proof (L 8%nat) as L8; pose proof (L 9%nat) as L9. clear L.
  cbn [Nat.eqb] in *.
  change (10 ^ Z.of_nat 1) with 10 in *; change (10 ^ Z.of_nat 2) with 100 in *; change (10 ^ Z.of_nat 3) with 1000 in *;
  change (10 ^ Z.of_nat 4) with 10000 in *; change (10 ^ Z.of_nat 5) with 100000 in *; change (10 ^ Z.of_nat 6) with 1000000 in *;
  change (10 ^ Z.of_nat 7) with 10000000 in *; change (10 ^ Z.of_nat 8) with 100000000 in *; change (10 ^ Z.of_nat 9) with 1000000000 in *;
  change (10 ^ Z.of_nat 10) with 10000000000 in *.
  unfold num_digits. pose proof (Z.div_mod v 100000 ltac:(lia)) as Hdm. pose proof (Z.mod_pos_bound v 100000 ltac:(lia)) as Hmb.
  cbn [num_digits_f].
  repeat match goal with |- context[?a <? ?b] => destruct (Z.ltb_spec a b) end; cbn [bind]; try (f_equal; lia); exfalso; lia.
Qed.

(* ---------------- filling the buffer ---------------- *)
Lemma wr_mid {A} (pre : list A) x c rest : wr (pre ++ x :: rest) (zlen pre) c = Ok (pre ++ c :: rest).
Proof.
  rewrite wr_ok by (unfold zlen; rewrite app_length; cbn; lia). f_equal.
  apply znth_opt_ext; intros i Hi. pose proof (zlen_nonneg pre). pose proof (zlen_nonneg rest).
  rewrite znth_zupd. znorm. repeat (zcase1; try (exfalso; lia)); reflexivity.
Qed.
Lemma app_snoc {A} (pre : list A) c rest : pre ++ c :: rest = (pre ++ [c]) ++ rest.
Proof. rewrite <- app_assoc. reflexivity. Qed.

Lemma fill_loop_spec n : forall v pre rest, 0 <= v < 10 ^ Z.of_nat n ->
  (length (non_zero (fixed 10 n v)) < length rest)%nat ->
  fill_loop (places_of 10 n) v (zlen pre) (pre ++ rest) =
  Ok (pre ++ map (Z.add 48) (non_zero (fixed 10 n v)) ++ 0 :: skipn (S (length (non_zero (fixed 10 n v)))) rest).
Proof.
  induction n as [|n IH]; intros v pre rest Hv Hr.
  - cbn [places_of fill_loop fixed non_zero filter length map app] in *. destruct rest as [|x rest]; [cbn in Hr; lia|].
    rewrite wr_mid. reflexivity.
  - pose proof (bpow 10 ltac:(lia) n) as Hp. pose proof (bpow_S 10 ltac:(lia) n) as HS. rewrite HS in Hv.
    cbn [places_of fill_loop fixed]. unfold digit2.
    destruct (Z.geb_spec v (10 ^ Z.of_nat n)) as [G|G].
    + assert (1 <= v / 10 ^ Z.of_nat n) by (apply Z.div_le_lower_bound; lia).
      destruct (Z.eqb_spec (48 + v / 10 ^ Z.of_nat n) 0); [lia|].
      cbn [fixed non_zero filter] in *. destruct (Z.eqb_spec (v / 10 ^ Z.of_nat n) 0); [lia|]. cbn [negb length] in *.
      fold (non_zero (fixed 10 n (v mod 10 ^ Z.of_nat n))) in *.
      destruct rest as [|x rest]; [cbn in Hr; lia|]. rewrite wr_mid. cbn [bind]. rewrite sub_div_mod by exact Hp.
      rewrite app_snoc, <- zlen_snoc with (x := 48 + v / 10 ^ Z.of_nat n).
      rewrite IH; [|apply Z.mod_pos_bound; exact Hp|cbn [length] in Hr; lia].
      rewrite <- app_assoc. reflexivity.
    + cbn [Z.eqb]. cbn [fixed non_zero filter] in *. rewrite Z.div_small, Z.mod_small in * by lia. cbn [Z.eqb negb] in *.
      fold (non_zero (fixed 10 n v)) in *. apply IH; [lia|exact Hr].
Qed.
Lemma map48 l : Forall (fun d => 0 <= d < 10) l -> map (Z.add 48) l = map ascii_digit l.
Proof.
  induction 1 as [|d l Hd _ IH]; [reflexivity|]. cbn [map]. rewrite IH. f_equal. unfold ascii_digit. destruct (Z.ltb_spec d 10); lia.
Qed.
Lemma non_zero_forall (P : Z -> Prop) l : Forall P l -> Forall P (non_zero l).
Proof.
  intros H. apply Forall_forall. intros x Hx. unfold non_zero in Hx. apply filter_In in Hx as [Hx _].
  rewrite Forall_forall in H. auto.
Qed.
Lemma numeral_non_zero v l n : numeral 10 v l -> v < 10 ^ Z.of_nat n -> (0 < n)%nat -> non_zero (fixed 10 n v) = non_zero l.
Proof.
  intros Hl Hv Hn. destruct (numeral_fixed 10 ltac:(lia) v l n Hl Hv Hn) as [_ ->].
  rewrite non_zero_app, non_zero_repeat. reflexivity.
Qed.
Lemma body_spec v l len pre rest : 0 < v < 2 ^ 31 -> numeral 10 v l -> len = zlen pre ->
  int_to_str_body v len (pre ++ rest) =
  Ok (if zlen l + 1 <=? zlen rest
      then (pre ++ map ascii_digit (non_zero l) ++ 0 :: skipn (S (length (non_zero l))) rest, true)
      else (pre ++ rest, false)).
Proof.
  intros Hv Hl ->. unfold int_to_str_body. destruct (Z.eqb_spec v 0); [lia|].
  rewrite (num_digits_spec v l) by (try exact Hl; lia). cbn [bind].
  rewrite Z.gtb_ltb, zlen_app.
  destruct (Z.leb_spec (zlen l + 1) (zlen rest)); destruct (Z.ltb_spec (zlen pre + zlen rest) (zlen l + zlen pre + 1)); try lia; [|reflexivity].
  rewrite places10_eq.
  assert (En : non_zero (fixed 10 10 v) = non_zero l).
  { apply numeral_non_zero; [exact Hl| |lia]. change (10 ^ Z.of_nat 10) with 10000000000. lia. }
  rewrite fill_loop_spec; [|change (10 ^ Z.of_nat 10) with 10000000000; lia|rewrite En; pose proof (non_zero_le l); unfold zlen in *; lia].
  cbn [bind]. rewrite En, map48; [reflexivity|]. apply non_zero_forall. destruct Hl as (H' & _). exact H'.
Qed.
(* what int_to_str does for every non-zero value *)
Lemma int_to_str_spec v l buf : - 2 ^ 31 < v < 2 ^ 31 -> v <> 0 -> numeral 10 (Z.abs v) l ->
  let text := sign_text v ++ map ascii_digit (non_zero l) in
  int_to_str v buf = Ok
    (if zlen (sign_text v) + zlen l + 1 <=? zlen buf then (text ++ 0 :: skipn (S (length text)) buf, true)
     else (firstn (length buf) (sign_text v) ++ skipn (length (sign_text v)) buf, false)).
Proof.
  intros Hv Hv0 Hl. unfold int_to_str, sign_text. destruct (Z.ltb_spec v 0) as [Hn|Hn].
  - destruct buf as [|x buf].
    + cbn zeta. rewrite zlen_cons, !(zlen_nil (A := Z)). pose proof (zlen_nonneg l).
      destruct (Z.leb_spec (0 + 1 + zlen l + 1) 0); [lia|]. reflexivity.
    + destruct (Z.eqb_spec (zlen (x :: buf)) 0); [rewrite zlen_cons in *; pose proof (zlen_nonneg buf); lia|].
      change (wr (x :: buf) 0 45) with (wr ([] ++ x :: buf) (@zlen Z []) 45). rewrite wr_mid. cbn [app bind].
      unfold schk. change (32 - 1) with 31. replace ((- 2 ^ 31 <=? - v) && (- v <? 2 ^ 31)) with true by lia. cbn [bind].
      change (45 :: buf) with ([45] ++ buf). rewrite (body_spec (- v) l 1 [45] buf); [|lia|replace (- v) with (Z.abs v) by lia; exact Hl|reflexivity].
      rewrite !zlen_cons, (zlen_nil (A := Z)). f_equal.
      destruct (Z.leb_spec (zlen l + 1) (zlen buf)); destruct (Z.leb_spec (0 + 1 + zlen l + 1) (zlen buf + 1)); try lia;
        try reflexivity.
      * cbn [app length skipn]. rewrite map_length. reflexivity.
      * cbn [app length skipn firstn]. rewrite firstn_nil. reflexivity.
  - cbn [app length]. rewrite (zlen_nil (A := Z)).
    change (int_to_str_body v 0 buf) with (int_to_str_body v 0 ([] ++ buf)).
    rewrite (body_spec v l 0 [] buf); [|lia|replace v with (Z.abs v) by lia; exact Hl|reflexivity].
    rewrite Z.add_0_l. cbn [app]. rewrite map_length. destruct (zlen l + 1 <=? zlen buf); [reflexivity|].
    rewrite firstn_nil. reflexivity.
Qed.
Lemma int_to_str_zero buf : int_to_str 0 buf = if 2 <=? zlen buf then Ok (48 :: 0 :: skipn 2 buf, true) else UB OutOfBounds.
Proof.
  unfold int_to_str, int_to_str_body. cbn [Z.ltb Z.compare Z.eqb].
  destruct buf as [|x [|y buf]]; try reflexivity.
  change (wr (x :: y :: buf) 0 48) with (wr ([] ++ x :: y :: buf) (@zlen Z []) 48). rewrite wr_mid. cbn [app bind].
  change (wr (48 :: y :: buf) 1 0) with (wr ([48] ++ y :: buf) (zlen [48]) 0). rewrite wr_mid. cbn [app bind skipn].
  rewrite !zlen_cons. pose proof (zlen_nonneg buf). destruct (Z.leb_spec 2 (zlen buf + 1 + 1)); [reflexivity|lia].
Qed.
Lemma int_to_str_min x buf : int_to_str (- 2 ^ 31) (x :: buf) = UB SignedOverflow.
Proof.
  unfold int_to_str. change (- 2 ^ 31 <? 0) with true. cbn iota.
  destruct (Z.eqb_spec (zlen (x :: buf)) 0); [rewrite zlen_cons in *; pose proof (zlen_nonneg buf); lia|].
  change (wr (x :: buf) 0 45) with (wr ([] ++ x :: buf) (@zlen Z []) 45). rewrite wr_mid. reflexivity.
Qed.

(* ---------------- int_to_str_chop ---------------- *)
Fixpoint greedy (n : nat) (v : Z) : list Z :=
  match n with
  | O => []
  | S m => if v >? 10 ^ Z.of_nat m then v / 10 ^ Z.of_nat m :: greedy m (v mod 10 ^ Z.of_nat m) else 0 :: greedy m v
  end.
Lemma greedy_zero n : greedy n 0 = repeat 0 n.
Proof.
  induction n as [|n IH]; [reflexivity|]. cbn [greedy repeat]. pose proof (bpow 10 ltac:(lia) n).
  destruct (Z.gtb_spec 0 (10 ^ Z.of_nat n)); [lia|]. rewrite IH. reflexivity.
Qed.
Lemma fixed_zero n : fixed 10 n 0 = repeat 0 n.
Proof. induction n as [|n IH]; [reflexivity|]. cbn [fixed repeat]. rewrite Z.div_0_l, Z.mod_0_l by (pose proof (bpow 10 ltac:(lia) n); lia). rewrite IH. reflexivity. Qed.
Lemma all_zero_repeat n : all_zero (repeat 0 n) = true.
Proof. induction n; [reflexivity|]. exact IHn. Qed.
Lemma all_zero_value l : all_zero l = true -> value 10 l = 0.
Proof.
  induction l as [|d l IH]; [reflexivity|]. cbn [all_zero forallb]. rewrite andb_true_iff, Z.eqb_eq. intros [-> H].
  rewrite value_cons by lia. unfold all_zero in IH. rewrite IH by exact H. lia.
Qed.
Lemma greedy_late n : forall v, 0 <= v < 10 ^ Z.of_nat n -> greedy n v = late_compare (fixed 10 n v).
Proof.
  induction n as [|n IH]; intros v Hv; [reflexivity|].
  pose proof (bpow 10 ltac:(lia) n) as Hp. pose proof (bpow_S 10 ltac:(lia) n) as HS. rewrite HS in Hv.
  cbn [greedy fixed late_compare]. rewrite Z.gtb_ltb. destruct (Z.ltb_spec (10 ^ Z.of_nat n) v) as [G|G].
  - assert (Hc : (v / 10 ^ Z.of_nat n =? 1) && all_zero (fixed 10 n (v mod 10 ^ Z.of_nat n)) = false).
    { destruct (Z.eqb_spec (v / 10 ^ Z.of_nat n) 1) as [E|]; [|reflexivity]. cbn [andb].
      destruct (all_zero _) eqn:Ez; [|reflexivity]. exfalso. apply all_zero_value in Ez.
      pose proof (Z.mod_pos_bound v _ Hp). destruct (fixed_spec 10 ltac:(lia) n (v mod 10 ^ Z.of_nat n)) as [_ E2]; [lia|].
      pose proof (Z.div_mod v (10 ^ Z.of_nat n)). lia. }
    rewrite Hc. rewrite IH by (apply Z.mod_pos_bound; exact Hp). reflexivity.
  - destruct (Z.eq_dec v (10 ^ Z.of_nat n)) as [->|Hne].
    + rewrite Z.div_same, Z.mod_same, fixed_zero, all_zero_repeat by lia. cbn [Z.eqb Pos.eqb andb].
      destruct n as [|n]; [reflexivity|]. cbn [repeat greedy]. rewrite (bpow_S 10 ltac:(lia) n) in *. pose proof (bpow 10 ltac:(lia) n) as Hp'.
      destruct (Z.gtb_spec (10 * 10 ^ Z.of_nat n) (10 ^ Z.of_nat n)); [|lia].
      rewrite Z.div_mul, Z.mod_mul, greedy_zero by lia. reflexivity.
    + rewrite Z.div_small, Z.mod_small by lia. cbn [Z.eqb andb]. rewrite IH by lia. reflexivity.
Qed.
Lemma greedy_length n : forall v, length (greedy n v) = n.
Proof. induction n as [|n IH]; intros v; [reflexivity|]. cbn [greedy]. destruct (v >? _); cbn [length]; rewrite IH; reflexivity. Qed.
Lemma log10_pow m : (m < 10)%nat -> log10 (10 ^ Z.of_nat m) = Z.of_nat m + 1.
Proof. intros H. do 10 (destruct m as [|m]; [reflexivity|]). lia. Qed.
Lemma last_n_all {A} m (l : list A) : (length l <= m)%nat -> last_n m l = l.
Proof. intros H. unfold last_n. replace (length l - m)%nat with 0%nat by lia. reflexivity. Qed.
Lemma last_n_cons {A} m (x : A) l : (m <= length l)%nat -> last_n m (x :: l) = last_n m l.
Proof. intros H. unfold last_n. cbn [length]. replace (S (length l) - m)%nat with (S (length l - m)) by lia. reflexivity. Qed.
Lemma last_n_le {A} m (l : list A) : (length (last_n m l) <= m)%nat.
Proof. unfold last_n. rewrite skipn_length. lia. Qed.
Lemma chop_loop_spec n : (n <= 10)%nat -> forall v pre rest, 0 <= v -> rest <> [] ->
  let out := non_zero (last_n (length rest - 1) (greedy n v)) in
  chop_loop (places_of 10 n) v (zlen pre) (pre ++ rest) = Ok (pre ++ map (Z.add 48) out ++ 0 :: skipn (S (length out)) rest).
Proof.
  induction n as [|n IH]; intros Hn v pre rest Hv Hr.
  - cbn [places_of chop_loop greedy]. unfold last_n. cbn [length Nat.sub skipn non_zero filter map app].
    destruct rest as [|x rest]; [congruence|]. rewrite wr_mid. reflexivity.
  - pose proof (bpow 10 ltac:(lia) n) as Hp. cbn [places_of chop_loop greedy]. unfold digit. rewrite Z.gtb_ltb.
    rewrite log10_pow by lia.
    destruct (Z.ltb_spec (10 ^ Z.of_nat n) v) as [G|G].
    + assert (1 <= v / 10 ^ Z.of_nat n) by (apply Z.div_le_lower_bound; lia).
      pose proof (Z.mod_pos_bound v _ Hp) as Hm. rewrite sub_div_mod by exact Hp. rewrite zlen_app.
      replace (zlen pre + zlen rest - zlen pre) with (zlen rest) by lia. rewrite Z.gtb_ltb.
      destruct (Z.ltb_spec (Z.of_nat n + 1) (zlen rest)) as [A|A]; unfold zlen in A.
      * destruct (Z.eqb_spec (48 + v / 10 ^ Z.of_nat n) 0); [lia|].
        rewrite last_n_all by (cbn [length]; rewrite greedy_length; lia).
        cbn [non_zero filter]. destruct (Z.eqb_spec (v / 10 ^ Z.of_nat n) 0); [lia|]. cbn [negb length map].
        fold (non_zero (greedy n (v mod 10 ^ Z.of_nat n))).
        destruct rest as [|x rest]; [congruence|]. rewrite wr_mid. cbn [bind].
        rewrite app_snoc, <- zlen_snoc with (x := 48 + v / 10 ^ Z.of_nat n).
        rewrite IH; [|lia|lia|destruct rest; [cbn [length] in A; lia|discriminate]].
        rewrite last_n_all by (rewrite greedy_length; cbn [length] in A; lia).
        rewrite <- app_assoc. reflexivity.
      * cbn [Z.eqb]. rewrite IH by (try lia; exact Hr).
        rewrite last_n_cons by (rewrite greedy_length; lia). reflexivity.
    + cbn [Z.eqb]. rewrite IH by (try lia; exact Hr).
      destruct (le_lt_dec (length rest - 1) n) as [L|L].
      * rewrite last_n_cons by (rewrite greedy_length; exact L). reflexivity.
      * rewrite !last_n_all by (cbn [length]; rewrite greedy_length; lia). reflexivity.
Qed.
Lemma late_compare_length l : length (late_compare l) = length l.
Proof.
  induction l as [|d l IH]; [reflexivity|]. cbn [late_compare]. destruct ((d =? 1) && all_zero l); [destruct l; reflexivity|].
  cbn [length]. rewrite IH. reflexivity.
Qed.
Lemma late_compare_pad k l : late_compare (repeat 0 k ++ l) = repeat 0 k ++ late_compare l.
Proof. induction k as [|k IH]; [reflexivity|]. cbn [repeat app late_compare]. cbn [Z.eqb andb]. rewrite IH. reflexivity. Qed.
Lemma last_n_pad {A} m k (x : A) l : exists j, last_n m (repeat x k ++ l) = repeat x j ++ last_n m l.
Proof.
  exists (k - (k + length l - m))%nat. unfold last_n. rewrite app_length, repeat_length, skipn_app, repeat_length.
  f_equal.
  - remember (k + length l - m)%nat as q. clear Heqq. revert q; induction k as [|k IH]; intros q; [rewrite skipn_nil; reflexivity|].
    destruct q; [reflexivity|]. cbn [repeat skipn Nat.sub]. apply IH.
  - f_equal. lia.
Qed.
Lemma chop_digits v l m : 0 <= v < 10 ^ 10 -> numeral 10 v l -> non_zero (last_n m (greedy 10 v)) = non_zero (last_n m (late_compare l)).
Proof.
  intros Hv Hl. rewrite greedy_late by exact Hv.
  destruct (numeral_fixed 10 ltac:(lia) v l 10 Hl) as [_ ->]; [change (10 ^ Z.of_nat 10) with (10 ^ 10); lia|lia|].
  rewrite late_compare_pad. destruct (last_n_pad m (10 - length l) 0 (late_compare l)) as (j & ->).
  rewrite non_zero_app, non_zero_repeat. reflexivity.
Qed.
Lemma chop_spec v l buf : - 2 ^ 31 < v < 2 ^ 31 -> v <> 0 -> numeral 10 (Z.abs v) l -> 2 <= zlen buf ->
  let room := (length buf - length (sign_text v) - 1)%nat in
  let text := sign_text v ++ map (Z.add 48) (non_zero (last_n room (late_compare l))) in
  int_to_str_chop v buf = Ok (text ++ 0 :: skipn (S (length text)) buf).
Proof.
  intros Hv Hv0 Hl Hb. unfold int_to_str_chop. destruct (Z.leb_spec (zlen buf) 1); [lia|]. destruct (Z.eqb_spec v 0); [lia|].
  unfold sign_text. rewrite places10_eq. destruct (Z.ltb_spec v 0) as [Hn|Hn].
  - destruct buf as [|x [|y buf]]; try (unfold zlen in Hb; cbn in Hb; lia).
    change (wr (x :: y :: buf) 0 45) with (wr ([] ++ x :: y :: buf) (@zlen Z []) 45). rewrite wr_mid. cbn [app bind].
    unfold schk. change (32 - 1) with 31. replace ((- 2 ^ 31 <=? - v) && (- v <? 2 ^ 31)) with true by lia. cbn [bind].
    change (45 :: y :: buf) with ([45] ++ y :: buf). change 1 with (zlen [45]).
    rewrite chop_loop_spec by (try lia; discriminate).
    rewrite (chop_digits (- v) l) by (try lia; replace (- v) with (Z.abs v) by lia; exact Hl).
    cbn [length app Nat.sub skipn]. rewrite Nat.sub_0_r, !map_length. reflexivity.
  - change (chop_loop (places_of 10 10) v 0 buf) with (chop_loop (places_of 10 10) v (@zlen Z []) ([] ++ buf)).
    rewrite chop_loop_spec by (try lia; intros ->; unfold zlen in Hb; cbn in Hb; lia).
    rewrite (chop_digits v l) by (try lia; replace v with (Z.abs v) by lia; exact Hl).
    cbn [length app]. rewrite Nat.sub_0_r, !map_length. reflexivity.
Qed.
Lemma late_compare_id l : ~ In 0 l -> last l 0 <> 1 -> late_compare l = l.
Proof.
  induction l as [|d l IH]; intros H0 H1; [reflexivity|]. cbn [late_compare].
  destruct l as [|e l].
  - cbn [last] in H1. destruct (Z.eqb_spec d 1); [congruence|]. reflexivity.
  - assert (Ez : all_zero (e :: l) = false).
    { cbn [all_zero forallb]. destruct (Z.eqb_spec e 0) as [->|]; [exfalso; apply H0; right; left; reflexivity|reflexivity]. }
    rewrite Ez, andb_false_r, IH; [reflexivity|intros H; apply H0; right; exact H|exact H1].
Qed.
Lemma last_n_not_in {A} (x : A) m l : ~ In x l -> ~ In x (last_n m l).
Proof.
  intros H Hin. apply H. unfold last_n in Hin. rewrite <- (firstn_skipn (length l - m) l). apply in_or_app. right. exact Hin.
Qed.

(* ---------------- consequences ---------------- *)
Lemma text_prefix (a1 a2 r1 r2 : list Z) : ~ In 0 a1 -> ~ In 0 a2 -> a1 ++ 0 :: r1 = a2 ++ 0 :: r2 -> a1 = a2.
Proof.
  revert a2; induction a1 as [|x a1 IH]; intros [|y a2] H1 H2 E; cbn [app] in E.
  - reflexivity.
  - injection E as <- _. exfalso; apply H2; left; reflexivity.
  - injection E as -> _. exfalso; apply H1; left; reflexivity.
  - injection E as <- E. f_equal. apply IH; [| |exact E]; intros H; [apply H1|apply H2]; right; exact H.
Qed.
Lemma ascii_range d : 0 <= d -> 48 <= ascii_digit d.
Proof. unfold ascii_digit. destruct (Z.ltb_spec d 10); lia. Qed.
Lemma text_no_zero v l : Forall (fun d => 0 <= d < 10) l -> ~ In 0 (sign_text v ++ map ascii_digit l).
Proof.
  intros Hf H. apply in_app_or in H as [H|H].
  - unfold sign_text in H. destruct (v <? 0); cbn in H; [destruct H as [H|[]]; lia|exact H].
  - apply in_map_iff in H as (d & E & Hd). rewrite Forall_forall in Hf. specialize (Hf d Hd). pose proof (ascii_range d). lia.
Qed.
Lemma map_ascii_inj l1 l2 : Forall (fun d => 0 <= d < 10) l1 -> Forall (fun d => 0 <= d < 10) l2 ->
  map ascii_digit l1 = map ascii_digit l2 -> l1 = l2.
Proof.
  intros H1; revert l2; induction H1 as [|d l1 Hd H1 IH]; intros [|e l2] H2 E; cbn [map] in E; try discriminate; [reflexivity|].
  inversion H2; subst. injection E as Ed E. f_equal; [|apply IH; assumption].
  unfold ascii_digit in Ed. destruct (Z.ltb_spec d 10); destruct (Z.ltb_spec e 10); lia.
Qed.
Lemma int_to_str_correct_iff v l buf : - 2 ^ 31 < v < 2 ^ 31 -> v <> 0 -> numeral 10 (Z.abs v) l ->
  zlen (sign_text v) + zlen l + 1 <= zlen buf ->
  ((exists rest, int_to_str v buf = Ok ((sign_text v ++ map ascii_digit l) ++ 0 :: rest, true)) <-> ~ In 0 l).
Proof.
  intros Hv Hv0 Hl Hb. pose proof (int_to_str_spec v l buf Hv Hv0 Hl) as E. cbn zeta in E.
  destruct (Z.leb_spec (zlen (sign_text v) + zlen l + 1) (zlen buf)); [|lia]. rewrite E.
  destruct Hl as (Hf & _ & _). split.
  - intros (rest & Er). injection Er as Er.
    apply text_prefix in Er; [|apply text_no_zero, non_zero_forall, Hf|apply text_no_zero, Hf].
    apply app_inv_head in Er. apply map_ascii_inj in Er; [|apply non_zero_forall, Hf|exact Hf].
    apply non_zero_id in Er. exact Er.
  - intros H0. apply non_zero_id in H0. rewrite H0. eauto.
Qed.
Lemma int_to_str_safe v l buf : - 2 ^ 31 < v < 2 ^ 31 -> v <> 0 -> numeral 10 (Z.abs v) l ->
  exists buf' r, int_to_str v buf = Ok (buf', r) /\ zlen buf' = zlen buf /\
    (forall i, zlen (sign_text v) + zlen l + 1 <= i -> znth buf' i = znth buf i) /\
    (r = false -> forall i, zlen (sign_text v) <= i -> znth buf' i = znth buf i).
Proof.
  intros Hv Hv0 Hl. pose proof (int_to_str_spec v l buf Hv Hv0 Hl) as E. cbn zeta in E. eexists _, _. split.
  { rewrite E. f_equal. apply surjective_pairing. }
  pose proof (non_zero_le l) as Hnz. pose proof (zlen_nonneg l).
  assert (Hs : length (sign_text v) = 0%nat \/ length (sign_text v) = 1%nat) by (unfold sign_text; destruct (v <? 0); cbn; lia).
  destruct (Z.leb_spec (zlen (sign_text v) + zlen l + 1) (zlen buf)) as [G|G]; cbn [fst snd].
  - splits.
    + unfold zlen in *. rewrite app_length. cbn [length]. rewrite skipn_length, app_length, map_length. lia.
    + intros i Hi. rewrite app_snoc.
      set (t := (sign_text v ++ map ascii_digit (non_zero l)) ++ [0]).
      assert (Ht : length t = S (length (sign_text v ++ map ascii_digit (non_zero l)))) by (unfold t; rewrite app_length; cbn; lia).
      rewrite <- Ht. assert (Hlt : zlen t <= i).
      { unfold zlen in *. rewrite Ht, app_length, map_length. lia. }
      unfold znth. unfold zlen in *. destruct (Z.ltb_spec i 0); [lia|].
      rewrite nth_error_app2 by lia. rewrite <- (firstn_skipn (length t) buf) at 2.
      assert (Hlf : length (firstn (length t) buf) = length t).
      { rewrite firstn_length. rewrite Ht, app_length, map_length. lia. }
      rewrite nth_error_app2 by lia. rewrite Hlf. reflexivity.
    + discriminate.
  - assert (Hk : zlen (firstn (length buf) (sign_text v) ++ skipn (length (sign_text v)) buf) = zlen buf /\
       forall i, zlen (sign_text v) <= i -> znth (firstn (length buf) (sign_text v) ++ skipn (length (sign_text v)) buf) i = znth buf i).
    { unfold sign_text. destruct (v <? 0); cbn [length skipn].
      - destruct buf as [|x buf]; cbn [length firstn app]; rewrite ?firstn_nil; cbn [app].
        + split; [reflexivity|]. intros; reflexivity.
        + split; [rewrite !zlen_cons; reflexivity|]. intros i Hi. rewrite zlen_cons, (zlen_nil (A := Z)) in Hi.
          unfold znth. destruct (Z.ltb_spec i 0); [lia|]. destruct (Z.to_nat i) eqn:Ei; [lia|reflexivity].
      - rewrite firstn_nil. split; [reflexivity|]. intros; reflexivity. }
    destruct Hk as [K1 K2]. splits; [exact K1|intros i Hi; apply K2; unfold zlen in *; lia|intros _; exact K2].
Qed.
Lemma chop_contract v l buf : - 2 ^ 31 < v < 2 ^ 31 -> v <> 0 -> numeral 10 (Z.abs v) l -> 2 <= zlen buf ->
  ~ In 0 l -> last l 0 <> 1 ->
  let text := sign_text v ++ map ascii_digit (last_n (length buf - length (sign_text v) - 1) l) in
  int_to_str_chop v buf = Ok (text ++ 0 :: skipn (S (length text)) buf).
Proof.
  intros Hv Hv0 Hl Hb H0 H1. pose proof (chop_spec v l buf Hv Hv0 Hl Hb) as E. cbn zeta in *. rewrite E.
  rewrite late_compare_id by assumption.
  assert (En : non_zero (last_n (length buf - length (sign_text v) - 1) l) = last_n (length buf - length (sign_text v) - 1) l).
  { apply non_zero_id. apply last_n_not_in. exact H0. }
  rewrite En, map48; [reflexivity|]. destruct Hl as (Hf & _). unfold last_n.
  apply Forall_forall. intros x Hx. rewrite Forall_forall in Hf. apply Hf.
  rewrite <- (firstn_skipn (length l - (length buf - length (sign_text v) - 1)) l). apply in_or_app. right. exact Hx.
Qed.
Lemma chop_zero buf : 2 <= zlen buf -> int_to_str_chop 0 buf = Ok (48 :: 0 :: skipn 2 buf).
Proof.
  intros Hb. unfold int_to_str_chop. destruct (Z.leb_spec (zlen buf) 1); [lia|]. cbn [Z.eqb].
  destruct buf as [|x [|y buf]]; try (unfold zlen in Hb; cbn in Hb; lia).
  change (wr (x :: y :: buf) 0 48) with (wr ([] ++ x :: y :: buf) (@zlen Z []) 48). rewrite wr_mid. cbn [app bind].
  change (wr (48 :: y :: buf) 1 0) with (wr ([48] ++ y :: buf) (zlen [48]) 0). rewrite wr_mid. reflexivity.
Qed.
Lemma chop_small v buf : zlen buf <= 1 -> int_to_str_chop v buf = Ok buf.
Proof. intros H. unfold int_to_str_chop. destruct (Z.leb_spec (zlen buf) 1); [reflexivity|lia]. Qed.
Lemma numeral_1 : numeral 10 1 [1].
Proof. split; [|split]; [repeat constructor; lia|reflexivity|right; exists 1, []; split; [reflexivity|lia]]. Qed.
Lemma numeral_10 : numeral 10 10 [1; 0].
Proof. split; [|split]; [repeat constructor; lia|reflexivity|right; exists 1, [0]; split; [reflexivity|lia]]. Qed.
Lemma chop_one buf : 2 <= zlen buf -> int_to_str_chop 1 buf = Ok (0 :: skipn 1 buf).
Proof.
  intros Hb. pose proof (chop_spec 1 [1] buf ltac:(lia) ltac:(lia) numeral_1 Hb) as E. cbn zeta in E. rewrite E. clear E.
  change (sign_text 1) with (@nil Z). cbn [late_compare all_zero forallb length app].
  change ((1 =? 1) && true) with true. cbn iota.
  destruct (last_n_pad (length buf - 0 - 1) 1 0 []) as (j & Ej). cbn [repeat app] in Ej. rewrite Ej.
  assert (last_n (length buf - 0 - 1) (@nil Z) = []) as -> by (unfold last_n; rewrite skipn_nil; reflexivity).
  rewrite app_nil_r, non_zero_repeat. reflexivity.
Qed.
Lemma chop_ten buf : 2 <= zlen buf -> int_to_str_chop 10 buf = Ok (58 :: 0 :: skipn 2 buf).
Proof.
  intros Hb. pose proof (chop_spec 10 [1; 0] buf ltac:(lia) ltac:(lia) numeral_10 Hb) as E. cbn zeta in E. rewrite E. clear E.
  change (sign_text 10) with (@nil Z). change (late_compare [1; 0]) with ([0] ++ [10]). cbn [length app].
  destruct (last_n_pad (length buf - 0 - 1) 1 0 [10]) as (j & Ej). cbn [repeat app] in Ej. rewrite Ej.
  rewrite (last_n_all (length buf - 0 - 1) [10]) by (unfold zlen in Hb; cbn; lia).
  rewrite non_zero_app, non_zero_repeat. reflexivity.
Qed.

Lemma print_concat args texts : Forall2 renders args texts -> print args = Ok (concat texts).
Proof.
  induction 1 as [|a s args texts Ha _ IH]; [reflexivity|]. cbn [print concat].
  assert (E : printone a = Ok s).
  { destruct Ha; cbn [printone].
    - apply print_int_spec; assumption.
    - apply print_hex_spec; assumption.
    - apply print_cstr_spec; assumption.
    - apply print_cstr_spec; assumption.
    - assert ((- 2 ^ 31 <=? t) && (t <? 2 ^ 31) = true) as -> by (apply andb_true_intro; split; [apply Z.leb_le|apply Z.ltb_lt]; lia).
      rewrite (print_int_spec t l) by assumption. reflexivity. }
  rewrite E. cbn [bind]. rewrite IH. reflexivity.
Qed.
