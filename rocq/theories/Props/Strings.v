(* C40-C43: words, case-insensitive comparison, replacement, tokens. *)
From Verif.Common Require Import Base.
From Verif.Spec Require Import TextSpec.
From Verif.Model Require Import Strings.
From Verif.Proofs Require Strings.

(** C40.  For characters that are not negative as a plain char (in particular ASCII). *)
Theorem C40_contains_word_iff_delimited :
  forall name word : list Z,
    Forall (fun c => 0 <= c) name -> Forall (fun c => 0 <= c) word ->
    exists b, contains_word name word = Ok b /\ (b = true <-> word_in name word).
Proof. exact Strings.contains_word_spec. Qed.
Print Assumptions C40_contains_word_iff_delimited.
(** A character above 127 (a negative plain char) makes tolower undefined. *)
Theorem C40_non_ascii_undefined_refuted :
  forall name word : list Z, (exists c, In c name /\ c < 0) -> contains_word name word = UB OutOfBounds.
Proof. intros name word H. unfold contains_word. rewrite Strings.transform_lower_bad by exact H. reflexivity. Qed.
Print Assumptions C40_non_ascii_undefined_refuted.
Example C40_hypotheses_met : (* "Pan LFO x" contains "lfo", "LFOs x" does not *)
  contains_word [80; 97; 110; 32; 76; 70; 79; 32; 120] [108; 102; 111] = Ok true /\
  contains_word [76; 70; 79; 115; 32; 120] [108; 102; 111] = Ok false /\
  contains_word [80; -61; -87] [80] = UB OutOfBounds.
Proof. vm_compute. auto. Qed.

(** C41. *)
Theorem C41_less_ci_strict_weak_order :
  forall a b c : list Z,
    less_ci a a = false /\
    (less_ci a b = true -> less_ci b c = true -> less_ci a c = true) /\
    ((less_ci a b = true /\ less_ci b a = false /\ equal_ci a b = false) \/
     (less_ci a b = false /\ less_ci b a = true /\ equal_ci a b = false) \/
     (less_ci a b = false /\ less_ci b a = false /\ equal_ci a b = true)).
Proof.
  intros a b c. split; [apply Strings.less_ci_irrefl, Strings.equal_ci_iff; reflexivity|].
  split; [apply Strings.less_ci_trans|apply Strings.less_ci_trichotomy].
Qed.
Print Assumptions C41_less_ci_strict_weak_order.
Theorem C41_equal_ci_iff_lower_equal :
  forall a b : list Z, equal_ci a b = true <-> map lower a = map lower b.
Proof. exact Strings.equal_ci_iff. Qed.
Print Assumptions C41_equal_ci_iff_lower_equal.
(** less_ci compares at the first differing lower-cased character; a proper prefix is less. *)
Theorem C41_less_ci_is_lexicographic :
  forall a b : list Z, less_ci a b = true <->
    exists p, (exists x y a' b', map lower a = p ++ x :: a' /\ map lower b = p ++ y :: b' /\ x < y) \/
              (exists y b', map lower a = p /\ map lower b = p ++ y :: b').
Proof. exact Strings.less_ci_lex. Qed.
Print Assumptions C41_less_ci_is_lexicographic.
Example C41_hypotheses_met :
  less_ci [65; 98] [97; 67] = true /\ less_ci [97; 67] [98] = true /\ equal_ci [65; 98] [97; 66] = true.
Proof. vm_compute. auto. Qed.

(** C42.  Equal lengths: every occurrence from left to right.  A shorter replacement: after each
    one, as many characters as it is shorter by are not examined. *)
Theorem C42_replace_all_equal_length :
  forall s f r : list Z, f <> [] -> length r = length f ->
    exists t, replace_all s f r = Ok t /\ replaced f r 0 s t /\ forall t', replaced f r 0 s t' -> t' = t.
Proof.
  intros s f r Hf Hl. destruct (Strings.replace_all_spec s f r Hf) as (t & E & H); [rewrite Hl; apply Nat.le_refl|].
  rewrite Hl, Nat.sub_diag in H. exists t. split; [exact E|]. split; [exact H|].
  intros t' H'. exact (Strings.replaced_fun _ _ _ _ _ H' _ H).
Qed.
Print Assumptions C42_replace_all_equal_length.
Theorem C42_shorter_replacement_skips_refuted :
  forall s f r : list Z, f <> [] -> (length r < length f)%nat ->
    exists t, replace_all s f r = Ok t /\ replaced f r (length f - length r) s t.
Proof. intros s f r Hf Hl. exact (Strings.replace_all_spec s f r Hf (Nat.lt_le_incl _ _ Hl)). Qed.
Print Assumptions C42_shorter_replacement_skips_refuted.
(** Deleting a character from a run of it leaves half of them. *)
Theorem C42_deleting_a_run_leaves_half_refuted :
  forall (c : Z) (n : nat), replace_all (repeat c n) [c] [] = Ok (repeat c (Nat.div2 n)).
Proof. exact Strings.delete_run. Qed.
Print Assumptions C42_deleting_a_run_leaves_half_refuted.
(** A replacement at least as long as what is sought, in whose part beyond that length the first
    character sought does not occur: every occurrence from left to right. *)
Theorem C42_longer_replacement :
  forall (s : list Z) (c : Z) (f' r : list Z), let f := c :: f' in
    (length f <= length r)%nat -> ~ In c (skipn (length f) r) ->
    exists t, replace_all s f r = Ok t /\ replaced f r 0 s t /\ forall t', replaced f r 0 s t' -> t' = t.
Proof.
  intros s c f' r f Hl Hc. destruct (Strings.replace_all_longer s c f' r Hl Hc) as (t & E & H).
  exists t. split; [exact E|]. split; [exact H|]. intros t' H'. exact (Strings.replaced_fun _ _ _ _ _ H' _ H).
Qed.
Print Assumptions C42_longer_replacement.
(** A replacement that holds [f] at an offset of at least its length never terminates on a
    matching input; nor does an empty [f]. *)
Theorem C42_longer_replacement_diverges_refuted :
  forall f u w pre post : list Z, (length f <= length u)%nat ->
    forall iterations, replace_loop iterations (pre ++ f ++ post) f (u ++ f ++ w) 0 = OutOfFuel.
Proof.
  intros f u w pre post Hu n. apply (Strings.replace_loop_diverges f _ u w eq_refl Hu).
  exists pre, post. split; [reflexivity|apply Nat.le_0_l].
Qed.
Print Assumptions C42_longer_replacement_diverges_refuted.
Theorem C42_empty_find_diverges_refuted :
  forall s r : list Z, forall iterations, replace_loop iterations s [] r 0 = OutOfFuel.
Proof. intros s r n. apply Strings.replace_loop_empty, Nat.le_0_l. Qed.
Print Assumptions C42_empty_find_diverges_refuted.
Example C42_hypotheses_met :
  replace_all [97; 97; 98; 97; 97; 97] [97; 97] [120; 121] = Ok [120; 121; 98; 120; 121; 97] /\
  replace_all [120; 120; 120] [120] [] = Ok [120] /\
  (length [38] <= length [38; 97; 109; 112; 59])%nat /\ ~ In 38 (skipn 1 [38; 97; 109; 112; 59]) /\
  replace_all [38; 97; 38] [38] [38; 97; 109; 112; 59] = Ok [38; 97; 109; 112; 59; 97; 38; 97; 109; 112; 59] /\
  replace_loop 1000 [9; 120] [120] [121; 120] 0 = OutOfFuel.
Proof. do 2 (split; [reflexivity|]). split; [cbn; lia|]. split; [cbn; intuition discriminate|]. vm_compute. auto. Qed.

(** C43. *)
Theorem C43_tokenize_yields_the_runs :
  forall (s : list Z) (tokens : list (list Z)) (delims : list Z),
    exists ts, tokenize_string s tokens delims = Ok (tokens ++ ts) /\
      runs (fun c => In c delims) s ts /\
      concat ts = filter (fun c => negb (existsb (Z.eqb c) delims)) s /\
      Forall (fun t => t <> [] /\ Forall (fun c => ~ In c delims) t) ts.
Proof.
  intros s tokens ds. destruct (Strings.tokenize_spec s tokens ds) as (ts & E & H). exists ts.
  split; [exact E|]. split; [exact H|]. exact (Strings.runs_accounts ds s ts H).
Qed.
Print Assumptions C43_tokenize_yields_the_runs.
Example C43_hypotheses_met :
  tokenize_string [32; 97; 98; 44; 32; 99; 44] [[1]] [32; 44] = Ok [[1]; [97; 98]; [99]] /\
  tokenize_string [44; 44] [] [44] = Ok [].
Proof. vm_compute. auto. Qed.
