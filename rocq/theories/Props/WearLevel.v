(* C30-C33, C87: wear leveling. *)
From Verif.Common Require Import Base.
From Verif.Spec Require Import WearSpec.
From Verif.Model Require Import WearLevel.
From Verif.Proofs Require WearLevel.

(** C30.  Whatever the storage holds at first, the leveler is a register that survives
    restarts and starts with the latest valid data found there. *)
Theorem C30_write_then_read_across_restarts :
  forall (S D : Type) (st : storage S D) (W N : Z) (valid : D -> bool) (cell : S -> Z -> content D)
         (reset : bool) (d0 : D) (s : S) (cur : option D) (ops : list (wop D)),
    reads_back st N valid cell -> erases st N cell -> 0 < N -> N + 1 < 2 ^ W ->
    latest N valid cell s cur -> Forall (writes_valid valid) ops ->
    exists w rs,
      run (wl_step st W N valid reset d0) (construct st N valid s d0) ops = Ok (w, rs) /\
      map fst rs = snd (srun register_spec cur ops) /\
      latest N valid cell (wl_store w) (fst (srun register_spec cur ops)).
Proof.
  intros S D st W N valid cell reset d0 s cur ops G He HN HW Hl Hv.
  destruct (WearLevel.register_run st W N valid cell G reset d0 HN HW He ops (construct st N valid s d0) cur)
    as (w & rs & E & H1 & _ & H2); eauto using WearLevel.construct_inv, Z.lt_le_incl.
Qed.
Print Assumptions C30_write_then_read_across_restarts.
Example C30_hypotheses_met :
  (reads_back (flash 3 true) 3 flash_valid flash_cell /\ erases (flash 3 true) 3 flash_cell /\
   latest 3 flash_valid flash_cell (flash_of [4; 9]) (Some 9)) /\
  (match run (wl_step (flash 3 true) 32 3 flash_valid true 0) (construct (flash 3 true) 3 flash_valid (flash_of [4; 9]) 0)
     [WRead 0; WWrite 5; WWrite 6; WRestart; WRead 0; WWrite 7; WRead 1] with
   | Ok (_, rs) => map fst rs = [WoRead (Some 9); WoWrite true; WoWrite true; WoUnit; WoRead (Some 6); WoWrite true; WoRead (Some 7)]
   | _ => False end).
Proof.
  split; [|vm_compute; reflexivity]. split; [|split].
  - constructor; unfold flash_cell, flash, flash_valid; cbn [st_read st_writeable st_write st_erase fst snd].
    + intros s i d x _ H. destruct (s i); congruence.
    + intros s i d _ H. destruct (s i); [discriminate|reflexivity].
    + intros s i. destruct (s i); destruct (Z.leb_spec 0 i); destruct (Z.ltb_spec i 3); cbn; intuition (try discriminate; try lia; auto).
    + intros s x i _ _. rewrite Z.eqb_refl. repeat split. intros j Hj. destruct (Z.eqb_spec j i); congruence.
  - intros s. split; reflexivity.
  - exists 1. split; [repeat split; lia|]. intros j y Hj (Hr & Hc & _). assert (j = 2) by lia. subst j. discriminate Hc.
Qed.

(** C31.  Power failure at any point of a write that does not erase leaves the previous or the
    new data; a write that erases has a crash point that leaves nothing. *)
Theorem C31_crash_loses_at_most_that_write :
  forall (S D : Type) (st : storage S D) (W N : Z) (valid : D -> bool) (cell : S -> Z -> content D)
         (reset : bool) (d0 buf : D) (s : S) (cur : option D) (ops : list (wop D)) (w w' : wl) rs (x : D) (ok : bool) (log : list access),
    reads_back st N valid cell -> erases st N cell -> 0 < N -> N + 1 < 2 ^ W ->
    latest N valid cell s cur -> Forall (writes_valid valid) ops -> valid x = true ->
    run (wl_step st W N valid reset d0) (construct st N valid s d0) ops = Ok (w, rs) ->
    wl_write st W N reset w x = Ok (w', ok, log) ->
    let after s' := fst (wl_read st valid (construct st N valid s' d0) buf) in
    (~ In AErase log -> forall s', crash st N valid cell x (wl_store w) log s' ->
       after s' = fst (srun register_spec cur ops) \/ after s' = Some x) /\
    (In AErase log -> exists s', crash st N valid cell x (wl_store w) log s' /\ after s' = None).
Proof.
  intros S D st W N valid cell reset d0 buf s cur ops w w' rs x ok log G He HN HW Hl Hv Hx E Ew.
  destruct (WearLevel.register_run st W N valid cell G reset d0 HN HW He ops (construct st N valid s d0) cur)
    as (w1 & rs1 & E1 & _ & H1 & H2); eauto using WearLevel.construct_inv, Z.lt_le_incl.
  rewrite E1 in E. injection E as -> ->.
  exact (WearLevel.crash_consistent st W N valid cell G reset w x _ w' ok log d0 buf HN HW He H1 H2 Hx Ew).
Qed.
Print Assumptions C31_crash_loses_at_most_that_write.
Example C31_hypotheses_met :
  let w := construct (flash 3 true) 3 flash_valid (flash_of [4; 9]) 0 in
  match wl_write (flash 3 true) 32 3 true w 5 with Ok (w1, ok, log) => ok = true /\ log = [AWrite 2] /\
    match wl_write (flash 3 true) 32 3 true w1 6 with Ok (_, ok, log) => ok = true /\ log = [AErase; AWrite 0] | _ => False end
  | _ => False end /\
  crash (flash 3 true) 3 flash_valid flash_cell 5 (wl_store w) [AWrite 2] (flash_of [4; 9; -7]) /\
  fst (wl_read (flash 3 true) flash_valid (construct (flash 3 true) 3 flash_valid (flash_of [4; 9; -7]) 0) 0) = Some 9.
Proof.
  split; [vm_compute; repeat split; reflexivity|]. split; [|vm_compute; reflexivity].
  apply crash_in_write. split.
  - intros j Hj. assert (j < 0 \/ j = 0 \/ j = 1 \/ 2 < j) as [H|[-> |[-> |H]]] by lia; try reflexivity;
      unfold flash_cell, flash_of, construct, znth; cbn [wl_store]; destruct (Z.ltb_spec j 0); try reflexivity; try lia.
    destruct (Z.to_nat j) as [|[|[|n]]] eqn:E; [lia|lia|lia|]. destruct n; reflexivity.
  - right. right. exists (-7). split; reflexivity.
Qed.

(** C32.  On a blank device the k-th write goes to cell [k mod N], after an erase exactly when
    it returns to cell 0; so after any number of rounds every cell was written equally often. *)
Theorem C32_cells_used_in_order :
  forall (S D : Type) (st : storage S D) (W N : Z) (valid : D -> bool) (cell : S -> Z -> content D)
         (reset : bool) (d0 : D) (s : S) (xs : list D),
    reads_back st N valid cell -> erases st N cell -> 0 < N -> N + 1 < 2 ^ W ->
    (forall i, 0 <= i < N -> cell s i = Blank) ->
    let logs := map (fun k => nth_write_log N (Z.of_nat k)) (seq 0 (length xs)) in
    (exists w, run (wl_step st W N valid reset d0) (construct st N valid s d0) (map WWrite xs)
               = Ok (w, map (fun l => (WoWrite true, l)) logs)) /\
    (forall rounds i, length xs = (rounds * Z.to_nat N)%nat -> 0 <= i < N -> writes_to i (concat logs) = rounds).
Proof.
  intros S D st W N valid cell reset d0 s xs G He HN HW Hb logs. split.
  - destruct (WearLevel.cyclic_from_blank st W N valid cell G reset d0 s xs HN HW He Hb) as (w & E).
    exists w. rewrite E. unfold logs. rewrite map_map. reflexivity.
  - intros rounds i Hlen Hi. unfold logs. rewrite Hlen. apply WearLevel.equal_wear; assumption.
Qed.
Print Assumptions C32_cells_used_in_order.
(** On any storage at all, from any counter: a write terminates with at most one erase and one
    write; a WearLeveler whose storage only accepts writes inside the block keeps every access
    inside the block in every history. *)
Theorem C32_write_terminates_on_any_storage :
  forall (S D : Type) (st : storage S D) (W N : Z) (reset : bool) (w : wl) (x : D),
    0 < N -> N + 1 < 2 ^ W -> 0 <= wl_cell w < 2 ^ W ->
    exists w' ok l, wl_write st W N reset w x = Ok (w', ok, l) /\ (erase_count l <= 1)%nat /\ (write_count l <= 1)%nat.
Proof. intros S D st W N reset. exact (WearLevel.write_total st W N reset). Qed.
Print Assumptions C32_write_terminates_on_any_storage.
(** What a write returns, on any storage: the result of the storage's write when it made one
    (to a cell the storage called writeable, after an erase that succeeded if it made one), false otherwise. *)
Theorem C32_write_reports_the_storage_result :
  forall (S D : Type) (st : storage S D) (W N : Z) (reset : bool) (w w' : wl) (x : D) (ok : bool) (l : list access),
    wl_write st W N reset w x = Ok (w', ok, l) ->
    let s := wl_store w in let s1 := fst (st_erase st s) in
    (exists i, l = [AWrite i] /\ st_writeable st s i = true /\ st_write st s x i = (wl_store w', ok)) \/
    (snd (st_erase st s) = true /\ exists i, l = [AErase; AWrite i] /\
       st_writeable st s1 i = true /\ st_write st s1 x i = (wl_store w', ok)) \/
    (ok = false /\ ((l = [] /\ wl_store w' = s) \/ (l = [AErase] /\ wl_store w' = s1))).
Proof.
  intros S D st W N reset w w' x ok l E s s1. unfold wl_write in E.
  apply WearLevel.write_loop_result in E. cbn [app] in E. fold s s1 in E. tauto.
Qed.
Print Assumptions C32_write_reports_the_storage_result.
Example C32_hypotheses_met :
  (forall i, 0 <= i < 2 -> flash_cell blank_flash i = Blank) /\
  match run (wl_step (flash 2 true) 32 2 flash_valid true 0) (construct (flash 2 true) 2 flash_valid blank_flash 0)
     (map WWrite [5; 6; 7; 8]) with
  | Ok (_, rs) => map snd rs = [[AWrite 0]; [AWrite 1]; [AErase; AWrite 0]; [AWrite 1]]
  | _ => False end.
Proof. split; [reflexivity|vm_compute; reflexivity]. Qed.

(** C33.  WearLevel with a full block and an erase that fails: each failed write pushes the
    counter further out, and the next read asks for a cell outside the block. *)
Theorem C33_failed_erase_reads_outside_the_block_refuted :
  forall (S D : Type) (st : storage S D) (W N : Z) (valid : D -> bool) (cell : S -> Z -> content D)
         (d0 buf x : D) (s : S) (k : nat),
    reads_back st N valid cell -> 0 < N -> (0 < k)%nat -> N + Z.of_nat k + 1 < 2 ^ W ->
    (forall i, 0 <= i < N -> cell s i <> Blank) -> st_erase st s = (s, false) ->
    exists w l,
      run (wl_step st W N valid false d0) (WL N s) (map WWrite (repeat x k)) = Ok (w, repeat (WoWrite false, [AErase]) k) /\
      snd (wl_read st valid w buf) = ARead (N + Z.of_nat k - 1) :: l /\ N <= N + Z.of_nat k - 1.
Proof.
  intros S D st W N valid cell d0 buf x s k G HN Hk HW Hb He.
  pose proof (WearLevel.failed_erase_wearlevel st W N valid cell G (WL N s) x k d0 HN Hb He eq_refl HW) as E.
  destruct (WearLevel.read_first_access st valid (WL (N + Z.of_nat k) s) buf) as (l & El); [cbn; lia|].
  eexists _, l. split; [exact E|]. split; [exact El|lia].
Qed.
Print Assumptions C33_failed_erase_reads_outside_the_block_refuted.
Theorem C33_leveler_stays_inside_the_block :
  forall (S D : Type) (st : storage S D) (W N : Z) (valid : D -> bool) (d0 : D) (s : S) (ops : list (wop D)) (w : wl) rs,
    0 < N -> N + 1 < 2 ^ W -> (forall s i, st_writeable st s i = true -> 0 <= i < N) ->
    run (wl_step st W N valid true d0) (construct st N valid s d0) ops = Ok (w, rs) ->
    0 <= wl_cell w <= N /\ Forall (fun r => Forall (in_block N) (snd r)) rs.
Proof. intros S D st W N valid d0 s ops w rs HN HW Hw E. exact (WearLevel.leveler_bounded st W N valid d0 HN HW Hw ops s w rs E). Qed.
Print Assumptions C33_leveler_stays_inside_the_block.
(** WearLeveler forgets the data it could read until it is restarted. *)
Theorem C33_failed_erase_forgets_until_restart_refuted :
  forall (S D : Type) (st : storage S D) (W N : Z) (valid : D -> bool) (cell : S -> Z -> content D)
         (d0 buf x : D) (s : S) (cur : option D),
    reads_back st N valid cell -> 0 < N -> N + 1 < 2 ^ W -> latest N valid cell s cur ->
    (forall i, 0 <= i < N -> cell s i <> Blank) -> st_erase st s = (s, false) ->
    exists w rs,
      run (wl_step st W N valid true d0) (construct st N valid s d0) [WRead buf; WWrite x; WRead buf; WRestart; WRead buf] = Ok (w, rs) /\
      map fst rs = [WoRead cur; WoWrite false; WoRead None; WoUnit; WoRead cur].
Proof.
  intros S D st W N valid cell d0 buf x s cur G HN HW Hl Hb He.
  set (w := construct st N valid s d0).
  assert (Hi : WearLevel.inv N valid cell w) by (apply WearLevel.construct_inv; [exact G|apply Z.lt_le_incl, HN]).
  destruct (WearLevel.failed_erase_leveler st W N valid cell G w x cur buf d0 HN HW Hi Hl) as (E1 & E2 & E3 & E4);
    [intros i Hc; apply Hb; destruct Hi as [Hi _]; split; [apply Z.le_trans with (wl_cell w); tauto|tauto]|exact He|].
  cbn [run wl_step]. destruct (wl_read st valid w buf) as [r1 l1]. cbn [bind fst] in *. rewrite E1. cbn [bind fst].
  destruct (wl_read st valid (WL 0 (wl_store w)) buf) as [r2 l2]. cbn [bind fst wl_store] in *.
  destruct (wl_read st valid (construct st N valid (wl_store w) d0) buf) as [r3 l3]. cbn [bind fst] in *.
  eexists _, _. split; [reflexivity|]. cbn [map fst]. rewrite E2, E3, E4. reflexivity.
Qed.
Print Assumptions C33_failed_erase_forgets_until_restart_refuted.
Example C33_hypotheses_met :
  (forall i, 0 <= i < 2 -> flash_cell (flash_of [5; 6]) i <> Blank) /\
  wl_cell (construct (flash 2 false) 2 flash_valid (flash_of [5; 6]) 0) = 2 /\
  (match run (wl_step (flash 2 false) 32 2 flash_valid false 0) (construct (flash 2 false) 2 flash_valid (flash_of [5; 6]) 0) [WWrite 7; WRead 0] with
   | Ok (_, rs) => rs = [(WoWrite false, [AErase]); (WoRead (Some 6), [ARead 2; ARead 1])] | _ => False end) /\
  (match run (wl_step (flash 2 false) 32 2 flash_valid true 0) (construct (flash 2 false) 2 flash_valid (flash_of [5; 6]) 0) [WRead 0; WWrite 7; WRead 0; WRestart; WRead 0] with
   | Ok (_, rs) => map fst rs = [WoRead (Some 6); WoWrite false; WoRead None; WoUnit; WoRead (Some 6)] | _ => False end).
Proof.
  split; [|vm_compute; repeat split; reflexivity].
  intros i Hi. assert (i = 0 \/ i = 1) as [-> | ->] by lia; discriminate.
Qed.

(** C87.  read() does not look at what the storage's read returned: when reads fail and leave
    the caller's object alone, a valid-looking object is handed back as if it had been read. *)
Theorem C87_failed_storage_read_reported_as_success_refuted :
  forall (S D : Type) (st : storage S D) (valid : D -> bool) (w : wl) (buf : D),
    0 < wl_cell w -> valid buf = true -> (forall i, st_read st (wl_store w) i buf = (false, buf)) ->
    fst (wl_read st valid w buf) = Some buf.
Proof. intros S D st valid w buf. exact (WearLevel.stale_read st valid w buf). Qed.
Print Assumptions C87_failed_storage_read_reported_as_success_refuted.
Example C87_hypotheses_met :
  let dead := Storage (fun (s : unit) (i : Z) (d : Z) => (false, d)) (fun _ _ => false) (fun s _ _ => (s, false)) (fun s => (s, false)) in
  wl_cell (WL 3 tt) = 3 /\ fst (wl_read dead flash_valid (WL 3 tt) 42) = Some 42 /\ wl_cell (construct dead 4 flash_valid tt 42) = 0.
Proof. vm_compute. repeat split. Qed.
