(* C71, C74: zip, countzip and Partition. *)
From Verif.Common Require Import Base.
From Verif.Spec Require Import RangeSpec.
From Verif.Model Require Import Range.
From Verif.Proofs Require Range.
Open Scope Z_scope.

(** C71.  The body is run on the index and the elements of every index below the shortest length,
    in order; what it leaves in the elements is what the containers hold afterwards. *)
Theorem C71_common_prefix :
  forall {A S : Type} (body : S -> Z * list A -> S * list A),
    (forall s i vs, length (snd (body s (i, vs))) = length vs) ->
    forall fuel s cs n, cs <> [] -> shortest cs n -> n <= Z.of_nat fuel -> n < 2 ^ 64 ->
    let visits := ztab n (fun i => (i, column cs i)) in
    exists cs', zip_for fuel body s cs = Ok (fst (srun body s visits), cs') /\ zlen cs' = zlen cs /\
      forall k c, znth cs k = Some c -> exists c', znth cs' k = Some c' /\ zlen c' = zlen c /\
        forall j, znth c' j = if (0 <=? j) && (j <? n) then cell (snd (srun body s visits)) j k else znth c j.
Proof. intros A S. exact (@Range.zip_correct A S). Qed.
Print Assumptions C71_common_prefix.
(** Of no containers at all the loop never ends, although the common prefix is empty. *)
Theorem C71_no_containers_refuted :
  forall {A S : Type} (body : S -> Z * list A -> S * list A) fuel s, zip_for fuel body s [] = OutOfFuel.
Proof. intros A S body fuel s. exact (Range.zip_none body fuel s 0). Qed.
Print Assumptions C71_no_containers_refuted.
(** == between the iterators of two or more containers is not transitive: between any two positions
    there is one equal to both. *)
Theorem C71_iterator_equality_transitive_refuted :
  forall x1 x2 (xs : list Z) y1 y2 ys,
    exists m, length m = length (x1 :: x2 :: xs) /\ any_match (x1 :: x2 :: xs) m = true /\ any_match m (y1 :: y2 :: ys) = true.
Proof. exact Range.any_between. Qed.
Print Assumptions C71_iterator_equality_transitive_refuted.
Example C71_hypotheses_met :
  shortest [[1; 2; 3]; [10; 20]] 2 /\
  zip_for 5 (fun s v => (s ++ [v], map (fun x => x + fst v) (snd v))) [] [[1; 2; 3]; [10; 20]] =
    Ok ([(0, [1; 10]); (1, [2; 20])], [[1; 3; 3]; [10; 21]]).
Proof.
  split; [|reflexivity]. split; [intros c [<-|[<-|[]]]; cbn; lia|]. exists [10; 20]. split; [right; left; reflexivity|reflexivity].
Qed.

(** C74. *)
Theorem C74_every_index_once :
  forall NumP MaxE sort vals init, 0 < NumP -> 0 <= MaxE -> sorts_descending sort ->
    Forall (fun v => 0 <= v) vals -> Forall (fun v => 0 <= v) init -> zlen init <= NumP -> zsum init + zsum vals < 2 ^ 32 ->
    exists parts, calc_partitions NumP MaxE sort vals init = Ok parts /\ zlen parts = NumP /\
      Permutation (concat parts) (ztab (Z.min (zlen vals) MaxE) (fun i => i)) /\
      forall p l x, znth parts p = Some (l ++ [x]) ->
        (forall q, 0 <= q < NumP -> part_sum vals init parts p - value_at vals x <= part_sum vals init parts q) /\
        Forall (fun y => value_at vals x <= value_at vals y) l.
Proof. exact Range.partition_ok. Qed.
Print Assumptions C74_every_index_once.
Theorem C74_balanced :
  forall NumP MaxE sort vals parts big, 0 < NumP -> 0 <= MaxE -> sorts_descending sort ->
    Forall (fun v => 0 <= v <= big) vals -> zsum vals < 2 ^ 32 -> 0 <= big ->
    calc_partitions NumP MaxE sort vals [] = Ok parts ->
    forall p q, 0 <= p < NumP -> 0 <= q < NumP -> Z.abs (part_sum vals [] parts p - part_sum vals [] parts q) <= big.
Proof. exact Range.partition_balanced. Qed.
Print Assumptions C74_balanced.
Theorem C74_too_many_initial_values_refuted :
  forall NumP MaxE sort vals init, 0 <= NumP -> NumP < zlen init -> calc_partitions NumP MaxE sort vals init = UB OutOfBounds.
Proof. exact Range.partition_long. Qed.
Print Assumptions C74_too_many_initial_values_refuted.
(* values [7; 3; 9; 4] in two parts: 9+3 and 7+4 *)
Example C74_hypotheses_met :
  sorts_descending Range.isort /\
  calc_partitions 2 8 Range.isort [7; 3; 9; 4] [] = Ok [[2; 1]; [0; 3]] /\
  calc_partitions 2 8 Range.isort [7; 3; 9; 4] [20; 0] = Ok [[1]; [2; 0; 3]] /\
  calc_partitions 2 3 Range.isort [7; 3; 9; 4] [] = Ok [[2]; [0; 1]] /\
  calc_partitions 2 8 Range.isort [7] [1; 2; 3] = UB OutOfBounds.
Proof. split; [exact Range.isort_sorts|repeat split; reflexivity]. Qed.
