(* C20, C21: Pool and ThreadSafePool. *)
From Verif.Common Require Import Base Lists.
From Verif.Spec Require Import PoolSpec.
From Verif.Model Require Import Pool PoolConc.
From Verif.Proofs Require Pool PoolConc.

(** C20.  Every history is one of the slot specification [pool_spec], starting with all
    slots free. *)
Theorem C20_pool_slots :
  forall (T : Type) (dflt : T) (N : Z) (ops : list (pop T)), 0 <= N -> Forall (pop_ok N) ops ->
    exists s' outs l', run (p_step dflt) (pool_init dflt N) ops = Ok (s', outs) /\
      rel_run (pool_spec dflt) (zrepeat None N) ops outs l' /\ zlen l' = N.
Proof. exact @Pool.p_run. Qed.
Print Assumptions C20_pool_slots.

Example C20_hypotheses_met :
  let ops := [PCreate; PCreate; PWrite 0 5; PWrite 1 6; PCreate; PDestroy (Slot 0); PDestroy (Slot 0); PDestroy Foreign; PRead 1; PCreate; PRead 0;
              PDestroy (Slot 7); PDestroy (Slot 1); PCreateOverwrite; PRead 1] in
  0 <= 2 /\ Forall (pop_ok 2) ops /\
  exists s', run (p_step 0) (pool_init 0 2) ops =
   Ok (s', [PoPtr (Some 0); PoPtr (Some 1); PoUnit; PoUnit; PoPtr None; PoBool true; PoBool false; PoBool false; PoItem 6; PoPtr (Some 0); PoItem 0;
            PoBool false; PoBool true; PoPtr (Some 1); PoItem 6]).
Proof.
  split; [Lia.lia|]. split; [repeat constructor; cbn; Lia.lia|]. eexists. vm_compute. reflexivity.
Qed.

(** C21.  Under every schedule of any number of threads, without clear: no data race on the
    elements, no index held by two threads, none twice by one, indices in range, and
    destroying an owned index always succeeds. *)
Theorem C21_mutual_exclusion_and_race_freedom :
  forall (N : Z) (ls : list (Z * act)), 0 <= N -> Forall no_clear ls ->
    exists c es, run (pstep true true N) (p0 N) ls = Ok (c, es) /\
      (forall t1 t2 i, holds c t1 i -> holds c t2 i -> t1 = t2) /\
      (forall t, NoDup (owned (threads c t))) /\
      (forall t i, holds c t i -> 0 <= i < N /\ znth (flags c) i = Some true) /\
      (forall i, In (EReturn (Some i)) es -> 0 <= i < N) /\ ~ In (EDestroyed false) es.
Proof. exact PoolConc.mutual_exclusion. Qed.
Print Assumptions C21_mutual_exclusion_and_race_freedom.

(** C21.  An index returned by create was held by nobody at that moment. *)
Theorem C21_returned_index_is_free :
  forall (N : Z) (ls : list (Z * act)) (t : Z) c es c' (i : Z), 0 <= N -> Forall no_clear ls ->
    run (pstep true true N) (p0 N) ls = Ok (c, es) ->
    pstep true true N c (t, AStep) = Ok (c', EReturn (Some i)) ->
    (forall u, ~ holds c u i) /\ holds c' t i.
Proof. exact PoolConc.fresh_index. Qed.
Print Assumptions C21_returned_index_is_free.

(** C21.  If create returns nullopt, each slot was in use at some moment during the call
    (holds for any memory orders, and even with concurrent clear). *)
Theorem C21_nullopt_means_each_slot_seen_used :
  forall (N : Z) (acq rel : bool) (ls mid : list (Z * act)) (t : Z) c0 es0 c1 e1 c es c',
    run (pstep acq rel N) (p0 N) ls = Ok (c0, es0) -> t_pc (threads c0 t) = Idle ->
    pstep acq rel N c0 (t, ACreate) = Ok (c1, e1) -> ~ In (t, ACreate) mid ->
    run (pstep acq rel N) c1 mid = Ok (c, es) -> pstep acq rel N c (t, AStep) = Ok (c', EReturn None) ->
    forall j, 0 <= j < N ->
      exists m1 m2 cj esj, mid = m1 ++ m2 /\ run (pstep acq rel N) c1 m1 = Ok (cj, esj) /\ znth (flags cj) j = Some true.
Proof. exact PoolConc.nullopt_all_used. Qed.
Print Assumptions C21_nullopt_means_each_slot_seen_used.

(** C21.  create is wait-free: while it has not returned, its own steps are at most N,
    whatever the other threads do. *)
Theorem C21_create_is_wait_free :
  forall (N : Z) (acq rel : bool) (ls : list (Z * act)) c (t : Z) c' es (k : Z),
    t_pc (threads c t) = Creating 0 -> ~ In (t, ACreate) ls ->
    run (pstep acq rel N) c ls = Ok (c', es) -> t_pc (threads c' t) = Creating k ->
    own_steps t ls = k /\ (k = 0 \/ k <= N).
Proof. exact PoolConc.create_steps. Qed.
Print Assumptions C21_create_is_wait_free.

Example C21_hypotheses_met :
  let events N ls := match run (pstep true true N) (p0 N) ls with Ok (_, es) => es | _ => [] end in
  let ls := [(1, ACreate); (2, ACreate); (1, AStep); (2, AStep); (2, AStep); (1, AAccess 0); (2, AAccess 1); (1, ADestroy 0); (3, ACreate); (1, AStep); (3, AStep); (3, AAccess 0)] in
  Forall no_clear ls /\
  events 2 ls = [ENone; ENone; EReturn (Some 0); ENone; EReturn (Some 1); ENone; ENone; ENone; ENone; EDestroyed true; EReturn (Some 0); ENone] /\
  events 1 [(1, ACreate); (1, AStep); (2, ACreate); (2, AStep); (1, ADestroy 0); (1, AStep); (2, AStep)] =
    [ENone; EReturn (Some 0); ENone; ENone; ENone; EDestroyed true; EReturn None].
Proof.
  split; [repeat constructor; discriminate|]. split; vm_compute; reflexivity.
Qed.

(** C21.  Both halves of the exchange's default order are needed for the elements:
    with either missing, two threads that use the same entry one after the other race,
    for every number of entries and any two threads. *)
Theorem C21_relaxed_exchange_races_refuted :
  forall N t u (acq rel : bool), 0 < N -> t <> u -> acq && rel = false ->
    run (pstep acq rel N) (p0 N)
      [(t, ACreate); (t, AStep); (t, AAccess 0); (t, ADestroy 0); (t, AStep); (u, ACreate); (u, AStep); (u, AAccess 0)] = UB DataRace.
Proof. exact PoolConc.relaxed_race. Qed.
Print Assumptions C21_relaxed_exchange_races_refuted.

(** C21.  clear while an index is held lets a second thread own it too, for every
    number of entries and any two threads. *)
Theorem C21_clear_breaks_exclusion_refuted :
  forall N t u, 0 < N -> t <> u ->
  exists c es, run (pstep true true N) (p0 N)
      ([(t, ACreate); (t, AStep); (u, AClear)] ++ repeat (u, AStep) (Z.to_nat N) ++ [(u, AStep); (u, ACreate); (u, AStep)]) = Ok (c, es) /\
    holds c t 0 /\ holds c u 0.
Proof. exact PoolConc.clear_breaks. Qed.
Print Assumptions C21_clear_breaks_exclusion_refuted.
(** If the first thread has used its object, clear is a data race. *)
Theorem C21_clear_races_refuted :
  forall N t u, 0 < N -> t <> u ->
    run (pstep true true N) (p0 N) [(t, ACreate); (t, AStep); (t, AAccess 0); (u, AClear); (u, AStep)] = UB DataRace.
Proof. exact PoolConc.clear_races. Qed.
Print Assumptions C21_clear_races_refuted.
