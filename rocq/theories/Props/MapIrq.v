(* C151: SeqMap and SequentialMap shared by a main program and an interrupt handler. *)
From Verif.Common Require Import Base Lists.
From Verif.Spec Require Import IrqSpec MapSpec MapIrqSpec.
From Verif.Model Require Import FixedVector Maps Irq MapIrq.
From Verif.Proofs Require MapIrq SMapIrq Uninterrupted.

(** C151, SeqMap.  The main program makes a call that is neither remove nor an overwrite of a key the
    map does not have; the handler interrupts it anywhere, any number of times, and only looks.  The
    call acts at one moment: the looks [a] see the entries as they were, the looks [b] as the call
    leaves them. *)
Theorem C151_seqmap_interrupted_call :
  forall {K V} keq N (dk : K) (dv : V), 0 < N -> forall s m gaps,
    zlen (q_keys s) = N -> zlen (q_vals s) = N -> 0 <= q_sz s <= N -> 0 <= q_oldest s < N ->
    q_simple keq (q_slots s) m -> Forall q_reads (concat gaps) ->
    exists s' r a b qa qb, iexec (q_step keq N dk dv) (q_main keq N dk dv m) s gaps = Ok (s', r, qa ++ qb) /\ concat gaps = a ++ b /\ length qa = length a /\
      rel_run (fun q o r q' => slot_step keq dk dv N q o = (q', r)) (q_slots s, q_oldest s) (a ++ m :: b) (qa ++ r :: qb) (q_slots s', q_oldest s').
Proof. exact @MapIrq.seq_interrupted. Qed.
Print Assumptions C151_seqmap_interrupted_call.
(** Any call whatever, interrupted by looks: it does what it should, and a key it is not about, which
    the map has with the same value before and after, is found with this value all the time. *)
Theorem C151_seqmap_other_keys :
  forall {K V} keq N (dk : K) (dv : V), 0 < N -> forall k' w m s gaps, (forall a b, keq a b = true <-> a = b) ->
    zlen (q_keys s) = N -> zlen (q_vals s) = N -> 0 <= q_sz s <= N -> 0 <= q_oldest s < N ->
    q_key m <> Some k' -> (forall k, m = QRemove k -> k' <> dk) ->
    lookup keq k' (q_slots s) = Some w -> lookup keq k' (fst (fst (slot_step keq dk dv N (q_slots s, q_oldest s) m))) = Some w ->
    Forall q_reads (concat gaps) ->
    exists s' r q, iexec (q_step keq N dk dv) (q_main keq N dk dv m) s gaps = Ok (s', r, q) /\
      slot_step keq dk dv N (q_slots s, q_oldest s) m = ((q_slots s', q_oldest s'), r) /\
      Forall2 (fun o r => (o = QGet k' -> r = MoOpt (Some w)) /\ (o = QExists k' -> r = MoBool true)) (concat gaps) q.
Proof. exact @MapIrq.seq_other. Qed.
Print Assumptions C151_seqmap_other_keys.
(** What does not hold.  A key [k0] was inserted, removed again and is not in the map.  While another
    new key is being brought in by overwrite, the handler finds [k0] with its old value. *)
Theorem C151_seqmap_removed_stays_away_refuted :
  forall {K V} keq N (dk : K) (dv : V), 0 < N -> forall s k v k0 v0,
    zlen (q_keys s) = N -> zlen (q_vals s) = N -> 0 <= q_sz s < N -> 0 <= q_oldest s < N -> keq k0 k0 = true ->
    lookup keq k (q_slots s) = None -> lookup keq k0 (q_slots s) = None ->
    exists s1 gaps s', run (q_step keq N dk dv) s [QInsert k0 v0; QRemoveLast; QExists k0] = Ok (s1, [MoBool true; MoUnit; MoBool false]) /\
      concat gaps = [QGet k0] /\
      iexec (q_step keq N dk dv) (q_main keq N dk dv (QOverwrite k v)) s1 gaps = Ok (s', MoOpt (Some v), [MoOpt (Some v0)]).
Proof. exact @MapIrq.overwrite_new_shows_removed. Qed.
Print Assumptions C151_seqmap_removed_stays_away_refuted.
(** Overwriting a new key on a full map: the handler finds the new key with the value of the entry
    [e] it replaces. *)
Theorem C151_seqmap_new_key_whole_refuted :
  forall {K V} keq N (dk : K) (dv : V), 0 < N -> forall s k v e,
    zlen (q_keys s) = N -> zlen (q_vals s) = N -> q_sz s = N -> 0 <= q_oldest s < N -> keq k k = true ->
    lookup keq k (q_slots s) = None -> znth (q_slots s) (q_oldest s) = Some e ->
    exists gaps s', concat gaps = [QGet k] /\
      iexec (q_step keq N dk dv) (q_main keq N dk dv (QOverwrite k v)) s gaps = Ok (s', MoOpt (Some v), [MoOpt (Some (snd e))]).
Proof. exact @MapIrq.overwrite_new_shows_evicted. Qed.
Print Assumptions C151_seqmap_new_key_whole_refuted.
(** Removing a key: the handler finds the default key with the value of the removed one. *)
Theorem C151_seqmap_remove_whole_refuted :
  forall {K V} keq N (dk : K) (dv : V), 0 < N -> forall s k v,
    zlen (q_keys s) = N -> zlen (q_vals s) = N -> 0 <= q_sz s <= N -> keq dk dk = true ->
    lookup keq k (q_slots s) = Some v -> lookup keq dk (q_slots s) = None ->
    exists gaps s', concat gaps = [QGet dk] /\
      iexec (q_step keq N dk dv) (q_main keq N dk dv (QRemove k)) s gaps = Ok (s', MoBool true, [MoOpt (Some v)]).
Proof. exact @MapIrq.remove_shows_default. Qed.
Print Assumptions C151_seqmap_remove_whole_refuted.

(** C151, SequentialMap.  A call that neither brings in a key nor erases an entry before the last one,
    interrupted by looks, acts at one moment. *)
Theorem C151_sequential_map_interrupted_call :
  forall {K V} keq N, 0 < N -> forall (s : fvec (K * V)) m gaps,
    zlen (v_data s) = N -> 0 <= v_n s <= N -> m_simple keq N (fv_contents s) m -> Forall m_reads (concat gaps) ->
    exists s' r a b qa qb, iexec (sm_step keq N) (sm_main keq N m) s gaps = Ok (s', r, qa ++ qb) /\ concat gaps = a ++ b /\ length qa = length a /\
      rel_run (map_spec keq N) (fv_contents s) (a ++ m :: b) (qa ++ r :: qb) (fv_contents s').
Proof. exact @SMapIrq.map_interrupted. Qed.
Print Assumptions C151_sequential_map_interrupted_call.
(** m[k] = v, reading m[k] and insert, interrupted by looks: every other key that the call leaves alone
    is found with its value all the time. *)
Theorem C151_sequential_map_other_keys :
  forall {K V} keq N, 0 < N -> forall (k' : K) (w : V) m s gaps, (forall a b, keq a b = true <-> a = b) ->
    zlen (v_data s) = N -> 0 <= v_n s <= N ->
    m_adds m -> m_key m <> Some k' -> lookup keq k' (m_kept keq N (fv_contents s) m) = Some w -> Forall m_reads (concat gaps) ->
    exists s' r q, iexec (sm_step keq N) (sm_main keq N m) s gaps = Ok (s', r, q) /\ map_spec keq N (fv_contents s) m r (fv_contents s') /\
      Forall2 (fun o r => (o = MFind k' -> r = MoOpt (Some w)) /\ (o = MContains k' -> r = MoBool true)) (concat gaps) q.
Proof. exact @SMapIrq.map_other. Qed.
Print Assumptions C151_sequential_map_other_keys.
(** What does not hold.  A key [k0] was assigned, erased and is not in the map.  During m[k] = v with
    a new key the handler finds [k0] again, and a moment later [k] with the value of [k0]. *)
Theorem C151_sequential_map_new_key_whole_refuted :
  forall {K V} keq N, 0 < N -> forall (s : fvec (K * V)) k v k0 v0,
    zlen (v_data s) = N -> 0 <= v_n s < N -> keq k0 k0 = true -> keq k k = true ->
    lookup keq k (fv_contents s) = None -> lookup keq k0 (fv_contents s) = None ->
    exists s1, run (sm_step keq N) s [MAssign k0 v0; MErase k0; MContains k0] = Ok (s1, [MoUnit; MoNum 1; MoBool false]) /\
      (exists gaps s', concat gaps = [MFind k0] /\ iexec (sm_step keq N) (sm_main keq N (MAssign k v)) s1 gaps = Ok (s', MoUnit, [MoOpt (Some v0)])) /\
      (exists gaps s', concat gaps = [MFind k] /\ iexec (sm_step keq N) (sm_main keq N (MAssign k v)) s1 gaps = Ok (s', MoUnit, [MoOpt (Some v0)])).
Proof. exact @SMapIrq.new_key_shows_erased. Qed.
Print Assumptions C151_sequential_map_new_key_whole_refuted.
(** Erasing an entry before the last one: the handler finds the next key with the value of the
    erased one, although neither call is about that key. *)
Theorem C151_sequential_map_erase_other_key_refuted :
  forall {K V} keq N, 0 < N -> forall (s : fvec (K * V)) a k w k1 w1 b,
    zlen (v_data s) = N -> 0 <= v_n s <= N -> fv_contents s = a ++ (k, w) :: (k1, w1) :: b -> keq k k = true -> keq k1 k1 = true ->
    lookup keq k a = None -> lookup keq k1 a = None ->
    exists gaps s', concat gaps = [MFind k1] /\ iexec (sm_step keq N) (sm_main keq N (MErase k)) s gaps = Ok (s', MoNum 1, [MoOpt (Some w)]).
Proof. exact @SMapIrq.erase_shows_torn. Qed.
Print Assumptions C151_sequential_map_erase_other_key_refuted.

(** A full and a half-full SeqMap and a SequentialMap with keys 1, 2, 3. *)
(** A call that is not interrupted does what the call does. *)
Theorem C151_seqmap_uninterrupted :
  forall (K V : Type) (keq : K -> K -> bool) N dk (dv : V) s o, 0 <= q_sz s ->
    irun (q_step keq N dk dv) (q_main keq N dk dv) s [Call o []] = let* (s', r) := q_step keq N dk dv s o in Ok (s', [r], []).
Proof. exact @Uninterrupted.uninterrupted_seqmap. Qed.
Print Assumptions C151_seqmap_uninterrupted.
(** A call that is not interrupted does what the call does. *)
Theorem C151_sequential_map_uninterrupted :
  forall (K V : Type) (keq : K -> K -> bool) N (d : list (K * V)) n o, 0 <= n <= N -> zlen d = N ->
    irun (sm_step keq N) (sm_main keq N) (FVec d n) [Call o []] = let* (s', r) := sm_step keq N (FVec d n) o in Ok (s', [r], []).
Proof. intros. apply Uninterrupted.uninterrupted_sequential_map; assumption. Qed.
Print Assumptions C151_sequential_map_uninterrupted.
Example C151_hypotheses_met :
  let s := SeqMap [1; 2; 0; 0] [10; 20; 0; 0] 2 0 in
  let f := SeqMap [1; 2] [10; 20] 2 1 in
  let m := FVec [(1, 10); (2, 20); (3, 30); (9, 90)] 3 in
  zlen (q_keys s) = 4 /\ zlen (q_vals s) = 4 /\ q_slots s = [(1, 10); (2, 20)] /\
  q_simple Z.eqb (q_slots s) (QInsert 3 30) /\ q_simple Z.eqb (q_slots s) (QOverwrite 2 21) /\
  Forall (@q_reads Z Z) (concat [[QGet 1]; [QExists 3; QSize]]) /\
  lookup Z.eqb 1 (q_slots f) = Some 10 /\ slot_step Z.eqb 0 0 2 (q_slots f, q_oldest f) (QOverwrite 3 30) = (([(1, 10); (3, 30)], 0), MoOpt (Some 30)) /\
  iexec (q_step Z.eqb 2 0 0) (q_main Z.eqb 2 0 0 (QOverwrite 3 30)) f (repeat [] 11 ++ [[QGet 1; QGet 3]]) = Ok (SeqMap [1; 3] [10; 30] 2 0, MoOpt (Some 30), [MoOpt (Some 10); MoOpt (Some 20)]) /\
  fv_contents m = [(1, 10); (2, 20); (3, 30)] /\ m_simple Z.eqb 4 (fv_contents m) (MErase 3) /\ m_simple Z.eqb 4 (fv_contents m) (MAssign 2 21) /\
  lookup Z.eqb 2 (m_kept Z.eqb 4 (fv_contents m) (MAssign 4 40)) = Some 20 /\
  iexec (sm_step Z.eqb 4) (sm_main Z.eqb 4 (MAssign 4 40)) m (repeat [] 8 ++ [[MFind 9; MFind 2]; [MFind 4]]) =
    Ok (FVec [(1, 10); (2, 20); (3, 30); (4, 40)] 4, MoUnit, [MoOpt (Some 90); MoOpt (Some 20); MoOpt (Some 90)]) /\
  iexec (sm_step Z.eqb 4) (sm_main Z.eqb 4 (MErase 1)) m (repeat [] 7 ++ [[MFind 2]]) = Ok (FVec [(2, 20); (3, 30); (3, 30); (9, 90)] 2, MoNum 1, [MoOpt (Some 10)]).
Proof.
  cbn zeta. repeat split; try (vm_compute; reflexivity). repeat constructor.
Qed.
