(* C145: wear leveling through any number of power failures. *)
From Verif.Common Require Import Base.
From Verif.Spec Require Import WearSpec WearCrashSpec.
From Verif.Model Require Import WearLevel WearCrash.
From Verif.Proofs Require WearLevel WearCrash.

(** C145.  Whatever is stored at first and however often the power fails, the device is a register:
    a write cut off leaves the old or the new data, unless it was one that erases the block. *)
Theorem C145_register_through_power_failures :
  forall (S D : Type) (st : storage S D) (W N : Z) (valid : D -> bool) (cell : S -> Z -> content D)
         (reset : bool) (d0 : D) (s : S) (cur : option D) (past : list D) (es : list (wevent D)) rs (w' : wl),
    reads_back st N valid cell -> erases st N cell -> 0 < N -> N + 1 < 2 ^ W ->
    latest N valid cell s cur -> (forall i y, offers N valid cell s i y -> In y past) -> Forall (event_valid valid) es ->
    wl_life st W N valid cell reset d0 (construct st N valid s d0) es rs w' -> lossy_register cur past es rs.
Proof.
  intros S D st W N valid cell reset d0 s cur past es rs w' G He HN HW Hl HK HV HL.
  exact (WearCrash.life_refines st W N valid cell reset d0 G HN HW He es _ cur past rs w' (WearLevel.construct_inv st N valid cell G s d0 (Z.lt_le_incl _ _ HN)) Hl HK HV HL).
Qed.
Print Assumptions C145_register_through_power_failures.
(** No life gets stuck. *)
Theorem C145_every_life_goes_on :
  forall (S D : Type) (st : storage S D) (W N : Z) (valid : D -> bool) (cell : S -> Z -> content D)
         (reset : bool) (d0 : D) (s : S) (es : list (wevent D)),
    reads_back st N valid cell -> erases st N cell -> 0 < N -> N + 1 < 2 ^ W -> Forall (event_valid valid) es ->
    exists rs w', wl_life st W N valid cell reset d0 (construct st N valid s d0) es rs w'.
Proof.
  intros S D st W N valid cell reset d0 s es G He HN HW HV.
  apply (WearCrash.life_exists st W N valid cell reset d0 G HN HW He es); [apply WearLevel.construct_inv; [exact G|apply Z.lt_le_incl; exact HN]|exact HV].
Qed.
Print Assumptions C145_every_life_goes_on.
(** What is read was written once, or was there at first: never half-written data. *)
Theorem C145_only_written_data_is_read :
  forall (S D : Type) (st : storage S D) (W N : Z) (valid : D -> bool) (cell : S -> Z -> content D)
         (reset : bool) (d0 : D) (s : S) (past : list D) (es : list (wevent D)) rs (w' : wl) (y : D),
    reads_back st N valid cell -> erases st N cell -> 0 < N -> N + 1 < 2 ^ W ->
    (forall i z, offers N valid cell s i z -> In z past) -> Forall (event_valid valid) es ->
    wl_life st W N valid cell reset d0 (construct st N valid s d0) es rs w' ->
    In (Answer (WoRead (Some y))) rs -> In y past \/ In (Call (WWrite y)) es \/ In (Lost y) es.
Proof. exact @WearCrash.only_written. Qed.
Print Assumptions C145_only_written_data_is_read.
(** What does not hold: a power failure loses at most the write it hits.  An erase cut off may
    bring back any older data of the block. *)
Theorem C145_old_data_returns_refuted :
  forall (W N : Z) (reset : bool) (l : list Z) (x i y : Z),
    0 < N -> N + 1 < 2 ^ W -> zlen l = N -> Forall (fun z => 0 <= z) l -> znth l i = Some y ->
    exists w', wl_life (flash N true) W N flash_valid flash_cell reset (-1) (construct (flash N true) N flash_valid (flash_of l) (-1))
      [Lost x; Call (WRead (-1))] [CutOff true; Answer (WoRead (Some y))] w'.
Proof. exact WearCrash.stale_data_returns. Qed.
Print Assumptions C145_old_data_returns_refuted.
Example C145_hypotheses_met :
  reads_back (flash 3 true) 3 flash_valid flash_cell /\ erases (flash 3 true) 3 flash_cell /\
  latest 3 flash_valid flash_cell (flash_of [4; 9; 5]) (Some 5) /\
  (forall i y, offers 3 flash_valid flash_cell (flash_of [4; 9; 5]) i y -> In y [4; 9; 5]) /\
  (exists w', wl_life (flash 3 true) 32 3 flash_valid flash_cell true (-1) (construct (flash 3 true) 3 flash_valid (flash_of [4; 9; 5]) (-1))
      [Lost 7; Call (WRead (-1))] [CutOff true; Answer (WoRead (Some 4))] w') /\
  (exists w', wl_life (flash 3 true) 32 3 flash_valid flash_cell true (-1) (construct (flash 3 true) 3 flash_valid (flash_of [4]) (-1))
      [Call (WWrite 6); Lost 7; Call (WRead (-1)); Lost 8; Call (WWrite 2); Call WRestart; Call (WRead 3)]
      [Answer (WoWrite true); CutOff false; Answer (WoRead (Some 6)); CutOff false; Answer (WoWrite true); Answer WoUnit; Answer (WoRead (Some 2))] w').
Proof.
  split; [apply WearCrash.flash_good|]. split; [apply WearCrash.flash_erases|]. split.
  { exists 2. split; [repeat split; lia|]. intros j y Hj (Hr & _). lia. }
  split.
  { intros i y (Hr & Hc & _). unfold flash_cell, flash_of in Hc. destruct (znth [4; 9; 5] i) as [z|] eqn:E; [|discriminate Hc]. injection Hc as <-.
    unfold znth in E. destruct (i <? 0); [discriminate E|]. eapply nth_error_In; eauto. }
  split.
  { apply (WearCrash.stale_data_returns 32 3 true [4; 9; 5] 7 0 4); try lia; try reflexivity. repeat constructor; lia. }
  eexists.
  eapply life_call; [vm_compute; reflexivity|]. eapply (life_lost _ _ _ _ _ _ _ _ 7) with (log := [AWrite 2]); [vm_compute; reflexivity|apply crash_before|].
  eapply life_call; [vm_compute; reflexivity|]. eapply (life_lost _ _ _ _ _ _ _ _ 8) with (log := [AWrite 2]); [vm_compute; reflexivity|apply crash_before|].
  eapply life_call; [vm_compute; reflexivity|]. eapply life_call; [vm_compute; reflexivity|]. eapply life_call; [vm_compute; reflexivity|]. apply life_nil.
Qed.
