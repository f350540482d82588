(* C15-C18: SequentialMap and SeqMap. *)
From Verif.Common Require Import Base Lists.
From Verif.Spec Require Import MapSpec.
From Verif.Model Require Import FixedVector Maps.
From Verif.Proofs Require Maps SeqMap.

(** C15.  Every history is that of an association list with at most N entries
    ([map_spec], which also says what happens on overflow). *)
Theorem C15_sequential_map_is_bounded_map :
  forall (K V : Type) (keq : K -> K -> bool) (N : Z) (dk : K) (dv : V), 0 < N ->
  forall ops : list (mop K V),
    exists s' outs l', run (sm_step keq N) (sm_init N dk dv) ops = Ok (s', outs) /\
      rel_run (map_spec keq N) [] ops outs l' /\ fv_contents s' = l' /\ zlen l' <= N.
Proof. exact @Maps.sm_run. Qed.
Print Assumptions C15_sequential_map_is_bounded_map.

(** C15.  When == of the key type is equality, no key is ever stored twice. *)
Theorem C15_keys_are_distinct :
  forall (K V : Type) (keq : K -> K -> bool) (N : Z), (forall a b, keq a b = true <-> a = b) ->
  forall (dk : K) (dv : V) (ops : list (mop K V)), 0 < N ->
    exists s' outs, run (sm_step keq N) (sm_init N dk dv) ops = Ok (s', outs) /\ NoDup (map fst (fv_contents s')).
Proof. exact @Maps.sm_keys_distinct. Qed.
Print Assumptions C15_keys_are_distinct.

(** C15.  [put] on an association list is map update. *)
Theorem C15_assigned_value_is_found :
  forall (K V : Type) (keq : K -> K -> bool), (forall a, keq a a = true) ->
  forall (k : K) (v : V) (l : list (K * V)), lookup keq k (put keq k v l) = Some v.
Proof. exact @Maps.lookup_put_same. Qed.
Print Assumptions C15_assigned_value_is_found.
Theorem C15_other_keys_are_unaffected :
  forall (K V : Type) (keq : K -> K -> bool), (forall a b, keq a b = true <-> a = b) ->
  forall (k k' : K) (v : V) (l : list (K * V)), k <> k' -> lookup keq k' (put keq k v l) = lookup keq k' l.
Proof. exact @Maps.lookup_put_other. Qed.
Print Assumptions C15_other_keys_are_unaffected.

Example C15_hypotheses_met :
  (0 < 3 /\ forall a b, Z.eqb a b = true <-> a = b) /\
  exists s', run (sm_step Z.eqb 3) (sm_init 3 0 0)
    [MAssign 7 70; MAssign 8 80; MAssign 7 71; MFind 7; MErase 8; MErase 8; MContains 8; MAssign 9 90; MAssign 10 100; MFull; MList; MAssign 11 110; MFind 10; MList; MRef 12] =
  Ok (s', [MoUnit; MoUnit; MoUnit; MoOpt (Some 71); MoNum 1; MoNum 0; MoBool false; MoUnit; MoUnit; MoBool true;
           MoList [(7, 71); (9, 90); (10, 100)]; MoUnit; MoOpt None; MoList [(7, 71); (9, 90); (11, 110)]; MoVal 110]).
Proof. split; [split; [Lia.lia|apply Z.eqb_eq]|]. eexists. vm_compute. reflexivity. Qed.

(** C15.  The const operator[] on a missing key returns a reference to a dead object. *)
Theorem C15_const_index_of_missing_key_dangles_refuted :
  forall (K V : Type) (keq : K -> K -> bool) (N : Z) (dk : K) (dv : V), 0 < N ->
  forall (ops : list (mop K V)) s outs k,
    run (sm_step keq N) (sm_init N dk dv) ops = Ok (s, outs) ->
    lookup keq k (fv_contents s) = None -> sm_const_ref keq s k = UB BadDeref.
Proof. exact @Maps.const_index_missing. Qed.
Print Assumptions C15_const_index_of_missing_key_dangles_refuted.

Example C15_const_index_hypotheses_met :
  exists s outs, run (sm_step Z.eqb 3) (sm_init 3 0 0) [MAssign 7 70] = Ok (s, outs) /\ lookup Z.eqb 8 (fv_contents s) = None /\
   sm_const_ref Z.eqb s 8 = UB BadDeref /\ sm_const_ref Z.eqb s 7 = Ok 70.
Proof. do 2 eexists. split; [vm_compute; reflexivity|]. vm_compute; auto. Qed.

(** C16.  insert of a new key with room returns true, and find then yields a value [w]
    that does not depend on the inserted one. *)
Theorem C16_insert_loses_the_value_refuted :
  forall (K V : Type) (keq : K -> K -> bool) (N : Z) (dk : K) (dv : V), 0 < N ->
  forall (ops : list (mop K V)) s outs k, keq k k = true ->
    run (sm_step keq N) (sm_init N dk dv) ops = Ok (s, outs) ->
    lookup keq k (fv_contents s) = None -> v_n s < N ->
    exists w, forall v, exists s', run (sm_step keq N) s [MInsert k v; MFind k] = Ok (s', [MoBool true; MoOpt (Some w)]).
Proof. exact @Maps.insert_value_lost. Qed.
Print Assumptions C16_insert_loses_the_value_refuted.

(** C16.  In every other respect insert is that of a map: this is [map_spec] at MInsert. *)
Theorem C16_insert_flag_size_and_keys :
  forall (K V : Type) (keq : K -> K -> bool) (N : Z) (dk : K) (dv : V), 0 < N ->
  forall (ops : list (mop K V)) s outs k v,
    run (sm_step keq N) (sm_init N dk dv) ops = Ok (s, outs) ->
    exists s' b, sm_insert keq N s (k, v) = Ok (s', b) /\
      b = negb (has keq k (fv_contents s)) && (zlen (fv_contents s) <? N) /\
      (b = false -> s' = s) /\
      (b = true -> exists junk, fv_contents s' = fv_contents s ++ [(k, junk)]).
Proof. exact @Maps.insert_otherwise. Qed.
Print Assumptions C16_insert_flag_size_and_keys.

Example C16_hypotheses_met :
  exists s outs, run (sm_step Z.eqb 3) (sm_init 3 0 0) [MAssign 7 70; MAssign 8 80; MErase 8] = Ok (s, outs) /\
    lookup Z.eqb 9 (fv_contents s) = None /\ v_n s < 3 /\
    exists s', run (sm_step Z.eqb 3) s [MInsert 9 90; MFind 9] = Ok (s', [MoBool true; MoOpt (Some 80)]).
Proof.
  do 2 eexists. split; [vm_compute; reflexivity|]. split; [vm_compute; reflexivity|]. split; [vm_compute; reflexivity|].
  eexists. vm_compute. reflexivity.
Qed.

(** C17.  Through overwrite/get/key_exists/size only, SeqMap is a map evicting the key
    written first longest ago. *)
Theorem C17_seqmap_is_fifo_evicting_map :
  forall (K V : Type) (keq : K -> K -> bool) (N : Z) (dk : K) (dv : V), 0 < N ->
  (forall a b, keq a b = true <-> a = b) ->
  forall (ks : list K) (vs : list V) (ops : list (qmop K V)), zlen ks = N -> zlen vs = N -> Forall overwrite_only ops ->
    exists s', run (q_step keq N dk dv) (q_init ks vs) ops = Ok (s', snd (srun (evict_step keq N) [] ops)).
Proof. exact @SeqMap.q_evict_run. Qed.
Print Assumptions C17_seqmap_is_fifo_evicting_map.

Example C17_hypotheses_met :
  let ops := [QOverwrite 1 10; QOverwrite 2 20; QOverwrite 1 11; QOverwrite 3 30; QGet 1; QGet 2; QOverwrite 4 40; QExists 2; QExists 3; QSize] in
  Forall (@overwrite_only Z Z) ops /\ snd (srun (evict_step Z.eqb 2) [] ops) =
  [MoOpt (Some 10); MoOpt (Some 20); MoOpt (Some 11); MoOpt (Some 30); MoOpt None; MoOpt (Some 20); MoOpt (Some 40); MoBool false; MoBool true; MoNum 2].
Proof. split; [repeat constructor|vm_compute; reflexivity]. Qed.

(** C17.  With capacity zero overwrite writes outside the object. *)
Theorem C17_zero_capacity_refuted :
  forall (K V : Type) (keq : K -> K -> bool) (k : K) (v : V), q_overwrite keq 0 (q_init [] []) k v = UB OutOfBounds.
Proof. exact (fun K V keq k v => eq_refl). Qed.
Print Assumptions C17_zero_capacity_refuted.

(** C18.  All operations: the outputs are those of the slots in storage order
    ([slot_step]); nothing leaves the arrays. *)
Theorem C18_seqmap_slots :
  forall (K V : Type) (keq : K -> K -> bool) (N : Z) (dk : K) (dv : V), 0 < N ->
  forall (ks : list K) (vs : list V) (ops : list (qmop K V)), zlen ks = N -> zlen vs = N ->
    exists s', run (q_step keq N dk dv) (q_init ks vs) ops = Ok (s', snd (srun (slot_step keq dk dv N) ([], 0) ops)).
Proof. exact @SeqMap.q_run. Qed.
Print Assumptions C18_seqmap_slots.

(** C18.  A duplicate insert answers true, and get still answers the older value. *)
Theorem C18_duplicate_insert_keeps_old_value_refuted :
  forall (K V : Type) (keq : K -> K -> bool) (N : Z) (dk : K) (dv : V), 0 < N ->
  forall (ks : list K) (vs : list V) (ops : list (qmop K V)) s outs k v w, zlen ks = N -> zlen vs = N ->
    run (q_step keq N dk dv) (q_init ks vs) ops = Ok (s, outs) ->
    q_get keq s k = Ok (Some w) -> q_sz s < N ->
    exists s', run (q_step keq N dk dv) s [QInsert k v; QGet k; QSize]
               = Ok (s', [MoBool true; MoOpt (Some w); MoNum (q_sz s + 1)]).
Proof. exact @SeqMap.duplicate_insert. Qed.
Print Assumptions C18_duplicate_insert_keeps_old_value_refuted.

(** C18.  remove keeps the size, and the default key is found afterwards. *)
Theorem C18_remove_leaves_default_key_refuted :
  forall (K V : Type) (keq : K -> K -> bool) (N : Z) (dk : K) (dv : V), 0 < N ->
  (forall a b, keq a b = true <-> a = b) ->
  forall (ks : list K) (vs : list V) (ops : list (qmop K V)) s outs k, zlen ks = N -> zlen vs = N ->
    run (q_step keq N dk dv) (q_init ks vs) ops = Ok (s, outs) -> q_exists keq s k = Ok true ->
    exists s', run (q_step keq N dk dv) s [QRemove k; QSize; QExists dk] = Ok (s', [MoBool true; MoNum (q_sz s); MoBool true]).
Proof. exact @SeqMap.remove_leaves_hole. Qed.
Print Assumptions C18_remove_leaves_default_key_refuted.

Example C18_hypotheses_met :
  exists s outs, run (q_step Z.eqb 3 0 0) (q_init [5; 5; 5] [6; 6; 6]) [QInsert 1 10; QInsert 2 20] = Ok (s, outs) /\
    q_get Z.eqb s 1 = Ok (Some 10) /\ q_sz s < 3 /\ q_exists Z.eqb s 1 = Ok true.
Proof. do 2 eexists. split; [vm_compute; reflexivity|]. vm_compute; auto. Qed.

(** C18.  remove_last after an eviction: for every capacity from two up and all
    distinct keys, fill the map, overwrite one more key and call remove_last: the
    newest key [k] is still there, and the key before it is gone. *)
Theorem C18_remove_last_after_eviction_refuted :
  forall (K V : Type) (keq : K -> K -> bool) (N : Z) (dk : K) (dv : V), (forall a b, keq a b = true <-> a = b) ->
  forall (ks : list K) (vs : list V) (first : K * V) (mid : list (K * V)) (last : K * V) (k : K) (v : V),
    zlen ks = N -> zlen vs = N -> zlen (first :: mid ++ [last]) = N -> NoDup (k :: map fst (first :: mid ++ [last])) ->
    exists s', run (q_step keq N dk dv) (q_init ks vs)
                 (map (fun e => QOverwrite (fst e) (snd e)) (first :: mid ++ [last]) ++ [QOverwrite k v; QRemoveLast; QExists k; QExists (fst last)]) =
               Ok (s', map (fun e => MoOpt (Some (snd e))) (first :: mid ++ [last]) ++ [MoOpt (Some v); MoUnit; MoBool true; MoBool false]).
Proof. exact @SeqMap.remove_last_evicted. Qed.
Print Assumptions C18_remove_last_after_eviction_refuted.
Example C18_eviction_hypotheses_met :
  exists s', run (q_step Z.eqb 2 0 0) (q_init [5; 5] [6; 6])
    [QOverwrite 1 10; QOverwrite 2 20; QOverwrite 3 30; QRemoveLast; QExists 3; QExists 2]
    = Ok (s', [MoOpt (Some 10); MoOpt (Some 20); MoOpt (Some 30); MoUnit; MoBool true; MoBool false]).
Proof. exact (ex_intro _ (SeqMap [3; 2] [30; 20] 1 1) eq_refl). Qed.
