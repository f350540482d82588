(* C142: what ThreadSafePool::is_used tells a thread. *)
From Verif.Common Require Import Base.
From Verif.Model Require Import PoolConc PoolUsed.
From Verif.Proofs Require PoolUsed.

(** C142.  With is_used called by any thread at any time, reading any value the memory model allows,
    no step is undefined: owners still never race. *)
Theorem C142_no_race :
  forall (N : Z) (l : list vact), 0 <= N -> Forall disciplined l ->
    exists s es, run (vstep N) (v0 N) l = Ok (s, es).
Proof. intros N l HN. exact (PoolUsed.vrun_total N HN l). Qed.
Print Assumptions C142_no_race.

(** C142.  A thread that holds an index is always told that it is used. *)
Theorem C142_owner_sees_used :
  forall (N : Z) (l : list vact) s es (t i j : Z) s' b, 0 <= N -> Forall disciplined l ->
    run (vstep N) (v0 N) l = Ok (s, es) -> holds (base s) t i ->
    vstep N s (IsUsed t i j) = Ok (s', VUsed b) -> b = true.
Proof. intros N l s es t i j s' b HN. exact (PoolUsed.owner_sees_used N HN l s es t i j s' b). Qed.
Print Assumptions C142_owner_sees_used.

(** C142.  Used is reported only of an index that some create returned before. *)
Theorem C142_used_was_created :
  forall (N : Z) (l : list vact) s es (t i j : Z) s', 0 <= N -> Forall disciplined l ->
    run (vstep N) (v0 N) l = Ok (s, es) ->
    vstep N s (IsUsed t i j) = Ok (s', VUsed true) -> In (VBase (EReturn (Some i))) es.
Proof. intros N l s es t i j s' HN. exact (PoolUsed.used_was_created N HN l s es t i j s'). Qed.
Print Assumptions C142_used_was_created.

(** C142.  If only one thread uses the pool, is_used is exact. *)
Theorem C142_single_thread_exact :
  forall (N t : Z) (l : list vact) s es (i j : Z) s' b, 0 <= N -> Forall disciplined l -> Forall (only_thread t) l ->
    run (vstep N) (v0 N) l = Ok (s, es) -> 0 <= i < N ->
    vstep N s (IsUsed t i j) = Ok (s', VUsed b) -> (b = true <-> exists u, holds (base s) u i).
Proof. intros N t l s es i j s' b HN. exact (PoolUsed.alone_exact N HN t l s es i j s' b). Qed.
Print Assumptions C142_single_thread_exact.

(** C142.  A read of the newest value is exact, and if it says free, the thread may access the element: all
    accesses of earlier owners happen before. *)
Theorem C142_newest_value :
  forall (N : Z) (l : list vact) s es (t i : Z) s' b, 0 <= N -> Forall disciplined l ->
    run (vstep N) (v0 N) l = Ok (s, es) -> 0 <= i < N ->
    vstep N s (IsUsed t i (zlen (msgs s i) - 1)) = Ok (s', VUsed b) ->
    (b = true <-> exists u, holds (base s) u i) /\
    (b = false -> exists s2 e, vstep N s' (Peek t i) = Ok (s2, e)).
Proof.
  intros N l s es t i s' b HN HF E Hi Es. split; [exact (PoolUsed.newest_is_held N HN l s es t i s' b HF E Hi Es)|].
  exact (proj2 (PoolUsed.newest_is_exact N HN l s es t i s' b HF E Hi Es)).
Qed.
Print Assumptions C142_newest_value.

(** C142, the violations of what one might expect, in every reachable state and for every index a thread
    holds.  Once the owner has accessed its element, another thread that is told "used" and reads the
    element races with it. *)
Theorem C142_used_then_read_refuted :
  forall (N t u i : Z) (l : list vact) s es, 0 <= N -> Forall disciplined l -> run (vstep N) (v0 N) l = Ok (s, es) ->
    In i (owned (threads (base s) t)) -> t_pc (threads (base s) t) = Idle -> t_pc (threads (base s) u) = Idle -> t <> u ->
    exists s1 s2, vstep N s (Act (t, AAccess i)) = Ok (s1, VBase ENone) /\
      vstep N s1 (IsUsed u i (zlen (msgs s1 i) - 1)) = Ok (s2, VUsed true) /\ vstep N s2 (Peek u i) = UB DataRace.
Proof. exact PoolUsed.used_then_read_races. Qed.
Print Assumptions C142_used_then_read_refuted.
(** Even after the owner has destroyed it and the slot is free, whatever a read of an old value says,
    "free" or "used": reading the element after it is a data race. *)
Theorem C142_stale_free_refuted :
  forall (N t u i : Z) (l : list vact) s es, 0 <= N -> Forall disciplined l -> run (vstep N) (v0 N) l = Ok (s, es) ->
    In i (owned (threads (base s) t)) -> t_pc (threads (base s) t) = Idle -> t_pc (threads (base s) u) = Idle -> t <> u ->
    exists s1 es1, run (vstep N) s [Act (t, AAccess i); Act (t, ADestroy i); Act (t, AStep)] = Ok (s1, es1) /\
      znth (flags (base s1)) i = Some false /\
      forall j b s2, j < zlen (msgs s1 i) - 1 -> vstep N s1 (IsUsed u i j) = Ok (s2, VUsed b) -> vstep N s2 (Peek u i) = UB DataRace.
Proof. exact PoolUsed.stale_read_races. Qed.
Print Assumptions C142_stale_free_refuted.
Example C142_races_hypotheses_met :
  let l := [Act (1, ACreate); Act (1, AStep)] in
  (exists s es, run (vstep 3) (v0 3) l = Ok (s, es) /\ Forall disciplined l /\ In 0 (owned (threads (base s) 1)) /\
     t_pc (threads (base s) 1) = Idle /\ t_pc (threads (base s) 2) = Idle) /\
  (exists s es s2, run (vstep 3) (v0 3) (l ++ [Act (1, AAccess 0); Act (1, ADestroy 0); Act (1, AStep)]) = Ok (s, es) /\
     zlen (msgs s 0) = 3 /\ vstep 3 s (IsUsed 2 0 0) = Ok (s2, VUsed false) /\ vstep 3 s2 (Peek 2 0) = UB DataRace).
Proof.
  split; do 2 eexists.
  - split; [cbv; reflexivity|]. split; [repeat constructor; discriminate|]. cbv. auto.
  - eexists. split; [cbv; reflexivity|]. split; [reflexivity|]. split; [cbv; reflexivity|reflexivity].
Qed.

(* Thread 1 takes slot 0 and hands it back, thread 2 sees free (stale), used (stale), then free. *)
Example C142_hypotheses_met :
  let l := [Act (1, ACreate); Act (1, AStep); IsUsed 2 0 0; IsUsed 1 0 0; IsUsed 1 0 1; Act (1, AAccess 0); Act (1, ADestroy 0); Act (1, AStep);
            IsUsed 2 0 1; IsUsed 2 0 0; IsUsed 2 0 2; IsUsed 1 1 0; IsUsed 1 5 0] in
  Forall disciplined l /\
  match run (vstep 2) (v0 2) l with
  | Ok (_, es) => es = [VBase ENone; VBase (EReturn (Some 0)); VUsed false; VNone; VUsed true; VBase ENone; VBase ENone; VBase (EDestroyed true);
                        VUsed true; VNone; VUsed false; VUsed false; VUsed false]
  | _ => False
  end.
Proof. split; [repeat constructor; try discriminate; cbn; Lia.lia|vm_compute; reflexivity]. Qed.
