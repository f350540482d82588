(* C148: an object pool shared by a main program and an interrupt handler. *)
From Verif.Common Require Import Base Lists.
From Verif.Spec Require Import IrqSpec PoolSpec.
From Verif.Model Require Import Pool Irq PoolIrq.
From Verif.Proofs Require PoolIrq Uninterrupted.

(** C148.  The main program creates an object; wherever the handler interrupts the call, and whatever it
    does with objects that were live when the call began (reading, writing, destroying them), the
    call acts at one moment: it answers with a slot that was free then, or with null if none was.
    [a] are the handler's calls before that moment and [b] those after it. *)
Theorem C148_interrupted_create :
  forall {T} (dflt : T) s m gaps, creates m -> uses_live (live_slots s) (concat gaps) ->
    exists s' r a b qa qb, iexec (p_step dflt) (p_main dflt (zlen s) m) s gaps = Ok (s', r, qa ++ qb) /\ concat gaps = a ++ b /\ length qa = length a /\
      rel_run (pool_spec dflt) (live_slots s) (a ++ m :: b) (qa ++ r :: qb) (live_slots s').
Proof. exact @PoolIrq.interrupted_create. Qed.
Print Assumptions C148_interrupted_create.
(** The main program destroys an object; the handler may do anything, creating objects included,
    except destroy the same object. *)
Theorem C148_interrupted_destroy :
  forall {T} (dflt : T) s p gaps, Forall (pop_ok (zlen s)) (concat gaps) -> p = Foreign \/ ~ In (PDestroy p) (concat gaps) ->
    exists s' r a b qa qb, iexec (p_step dflt) (p_main dflt (zlen s) (PDestroy p)) s gaps = Ok (s', r, qa ++ qb) /\ concat gaps = a ++ b /\ length qa = length a /\
      rel_run (pool_spec dflt) (live_slots s) (a ++ PDestroy p :: b) (qa ++ r :: qb) (live_slots s').
Proof. exact @PoolIrq.interrupted_destroy. Qed.
Print Assumptions C148_interrupted_destroy.
(** What does not hold.  Whenever a slot is free, a handler that creates an object during the main
    program's create can be given the same slot. *)
Theorem C148_create_during_create_refuted :
  forall {T} (dflt : T) s m m2, creates m -> creates m2 -> In None (live_slots s) ->
    exists gaps i s', concat gaps = [m2] /\ iexec (p_step dflt) (p_main dflt (zlen s) m) s gaps = Ok (s', PoPtr (Some i), [PoPtr (Some i)]).
Proof. exact @PoolIrq.double_create. Qed.
Print Assumptions C148_create_during_create_refuted.
(** An object destroyed by both: both are told that they destroyed it. *)
Theorem C148_destroy_during_destroy_refuted :
  forall {T} (dflt : T) s i, live_at (live_slots s) i ->
    exists gaps s', concat gaps = [PDestroy (Slot i)] /\ iexec (p_step dflt) (p_main dflt (zlen s) (PDestroy (Slot i))) s gaps = Ok (s', PoBool true, [PoBool true]).
Proof. exact @PoolIrq.double_destroy. Qed.
Print Assumptions C148_destroy_during_destroy_refuted.

(** A pool of three: the handler reads and destroys object 0 after create has passed its slot. *)
(** A call that is not interrupted does what the call does. *)
Theorem C148_uninterrupted :
  forall (T : Type) (dflt : T) (s : list (entry T)) o, 
    irun (p_step dflt) (p_main dflt (zlen s)) s [Call o []] = let* (s', r) := p_step dflt s o in Ok (s', [r], []).
Proof. intros. apply Uninterrupted.uninterrupted_pool. reflexivity. Qed.
Print Assumptions C148_uninterrupted.
Example C148_hypotheses_met :
  let s := [Entry 7 true; Entry 8 true; Entry 9 false] in
  let gaps := [[]; [PRead 0; PDestroy (Slot 0)]; [PWrite 1 5]; [PDestroy (Slot 1)]] in
  creates (@PCreate Z) /\ uses_live (live_slots s) (concat gaps) /\
  iexec (p_step 0) (p_main 0 3 PCreate) s gaps = Ok ([Entry 7 false; Entry 5 false; Entry 0 true], PoPtr (Some 2), [PoItem 7; PoBool true; PoUnit; PoBool true]) /\
  ~ In (PDestroy (Slot 1)) (concat [[@PCreate Z]; []; [PDestroy (Slot 0)]]) /\
  iexec (p_step 0) (p_main 0 3 (PDestroy (Slot 1))) s [[PCreate]; []; [PDestroy (Slot 0)]] = Ok ([Entry 7 false; Entry 8 false; Entry 0 true], PoBool true, [PoPtr (Some 2); PoBool true]) /\
  In None (live_slots s).
Proof.
  cbn zeta. split; [left; reflexivity|]. split; [cbn; unfold live_at; repeat split; eexists; reflexivity|]. split; [vm_compute; reflexivity|].
  split; [cbn; intros [X|[X|X]]; try discriminate X; contradiction|]. split; [vm_compute; reflexivity|]. cbn. auto.
Qed.
