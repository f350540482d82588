(* What the string helpers promise.  Characters are their codes. *)
From Verif.Common Require Import Base.

(** ASCII lower case (what tolower does in the C locale). *)
Definition lower (c : Z) : Z := if (65 <=? c) && (c <=? 90) then c + 32 else c.

(** [word] occurs in [name] ignoring case, delimited by spaces or the ends. *)
Definition word_in (name word : list Z) : Prop :=
  exists pre post,
    map lower name = pre ++ map lower word ++ post /\
    (pre = [] \/ exists p, pre = p ++ [32]) /\
    (post = [] \/ exists q, post = 32 :: q).

(** [f] occurs in [s] after exactly [pre]. *)
Definition occurs_after (f s pre : list Z) : Prop := exists post, s = pre ++ f ++ post.
Definition no_occurrence (f s : list Z) : Prop := forall pre, ~ occurs_after f s pre.

(** Replacing occurrences of [f] by [r] from the left, where after each replacement the next
    [skip] characters are copied without being examined.  [skip = 0] is "replace all". *)
Inductive replaced (f r : list Z) (skip : nat) : list Z -> list Z -> Prop :=
| rep_none s : no_occurrence f s -> replaced f r skip s s
| rep_first pre post t :
    (forall p, (length p < length pre)%nat -> ~ occurs_after f (pre ++ f ++ post) p) ->
    replaced f r skip (skipn skip post) t ->
    replaced f r skip (pre ++ f ++ post) (pre ++ r ++ firstn skip post ++ t).

(** [ts] are the maximal runs of non-delimiters of [s]. *)
Inductive runs (delim : Z -> Prop) : list Z -> list (list Z) -> Prop :=
| runs_none s : Forall delim s -> runs delim s []
| runs_next pre tok post ts :
    Forall delim pre -> tok <> [] -> Forall (fun c => ~ delim c) tok ->
    (post = [] \/ exists c q, post = c :: q /\ delim c) ->
    runs delim post ts -> runs delim (pre ++ tok ++ post) (tok :: ts).
