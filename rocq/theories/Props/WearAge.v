(* C163: wear leveling on storage that wears out. *)
From Verif.Common Require Import Base.
From Verif.Spec Require Import WearSpec WearAgeSpec.
From Verif.Model Require Import WearLevel.
From Verif.Proofs Require WearAge.

(** C163.  Some cells can no longer be written and some writes fail: in every history each read
    returns what the writes so far left, a write the storage did not keep leaves the data before it,
    and only a write that erased the block and then failed leaves none.  Data that does not validate
    is never read back, whoever wrote it. *)
Theorem C163_register_on_worn_storage :
  forall (S D : Type) (st : storage S D) (W N : Z) (valid : D -> bool) (honest : bool) (cell : S -> Z -> content D)
         (reset : bool) (d0 : D) (s : S) (cur : option D) (ops : list (wop D)),
    ageing st N valid honest cell -> 0 < N -> N + 1 < 2 ^ W -> latest N valid cell s cur ->
    exists w rs cur',
      run (wl_step st W N valid reset d0) (construct st N valid s d0) ops = Ok (w, rs) /\
      worn_register valid honest cur ops (map (fun r => (fst r, existsb is_erase (snd r))) rs) cur' /\
      latest N valid cell (wl_store w) cur'.
Proof.
  intros S D st W N valid honest cell reset d0 s cur ops A HN HW Hl.
  destruct (WearAge.worn_run st W N valid honest cell reset A d0 HN HW ops (construct st N valid s d0) cur)
    as (w & rs & cur' & E & H1 & _ & H2); eauto using WearAge.construct_inv, Z.lt_le_incl.
  exists w, rs, cur'. auto.
Qed.
Print Assumptions C163_register_on_worn_storage.
(** As long as an erase leaves one cell that can be written, no write is refused. *)
Theorem C163_one_good_cell_suffices :
  forall (S D : Type) (st : storage S D) (W N : Z) (valid : D -> bool) (honest : bool) (cell : S -> Z -> content D)
         (reset : bool) (d0 : D) (s : S) (ops : list (wop D)) (w : wl) rs,
    ageing st N valid honest cell -> serviceable st N -> 0 < N -> N + 1 < 2 ^ W ->
    run (wl_step st W N valid reset d0) (construct st N valid s d0) ops = Ok (w, rs) ->
    Forall (fun r => fst r <> WoWrite false) rs.
Proof.
  intros S D st W N valid honest cell reset d0 s ops w rs A Hs HN HW E.
  exact (WearAge.available st W N valid honest cell reset d0 A Hs HN HW ops _ w rs (WearAge.construct_inv st N valid honest cell A s d0 (Z.lt_le_incl _ _ HN)) E).
Qed.
Print Assumptions C163_one_good_cell_suffices.
(** After a write, kept or not, the next one that does not erase uses a later cell: a cell whose
    write failed is not tried again until the block has been erased. *)
Theorem C163_failed_cell_is_left_behind :
  forall (S D : Type) (st : storage S D) (W N : Z) (valid : D -> bool) (honest : bool) (cell : S -> Z -> content D)
         (reset : bool) (d0 : D) (s : S) (ops : list (wop D)) (w : wl) rs (x : D) (w1 : wl) (ok1 : bool) (l1 : list access) (i : Z)
         (y : D) (w2 : wl) (ok2 : bool) (j : Z),
    ageing st N valid honest cell -> 0 < N -> N + 1 < 2 ^ W ->
    run (wl_step st W N valid reset d0) (construct st N valid s d0) ops = Ok (w, rs) ->
    wl_write st W N reset w x = Ok (w1, ok1, l1) -> In (AWrite i) l1 ->
    wl_write st W N reset w1 y = Ok (w2, ok2, [AWrite j]) -> i < j.
Proof. exact @WearAge.moves_on. Qed.
Print Assumptions C163_failed_cell_is_left_behind.
(** What does not hold: a refused write leaves the data alone.  On a block with no cell left to
    write, the write erases the block before it finds that out. *)
Theorem C163_refused_write_destroys_data_refuted :
  forall (S D : Type) (st : storage S D) (W N : Z) (valid : D -> bool) (cell : S -> Z -> content D)
         (reset : bool) (d0 buf x : D) (s : S) (cur : option D),
    ageing st N valid true cell -> 0 < N -> N + 1 < 2 ^ W -> latest N valid cell s cur -> worn_out st s ->
    exists w rs, run (wl_step st W N valid reset d0) (construct st N valid s d0)
        [WRead buf; WWrite x; WRead buf; WRestart; WRead buf] = Ok (w, rs) /\
      map fst rs = [WoRead cur; WoWrite false; WoRead None; WoUnit; WoRead None].
Proof. exact @WearAge.worn_out_loses. Qed.
Print Assumptions C163_refused_write_destroys_data_refuted.
Example C163_hypotheses_met :
  let go st l ops := match run (wl_step st 32 4 flash_valid true 0) (construct st 4 flash_valid (flash_of l) 0) ops with
                     | Ok (_, rs) => map fst rs | _ => [] end in
  (forall honest dead weak, ageing (worn_flash 4 honest dead weak) 4 flash_valid honest flash_cell) /\
  serviceable (worn_flash 4 true (fun i => negb (i =? 2)) (fun _ => false)) 4 /\
  go (worn_flash 4 true (fun i => negb (i =? 2)) (fun _ => false)) [] [WWrite 5; WWrite 6; WRestart; WRead 0; WWrite (-3); WRead 0]
    = [WoWrite true; WoWrite true; WoUnit; WoRead (Some 6); WoWrite true; WoRead None] /\
  go (worn_flash 4 true (fun i => i =? 0) (fun i => i =? 2)) [] [WWrite 5; WWrite 6; WRead 0; WRestart; WRead 0; WWrite 7; WWrite (-3); WWrite 8; WRead 0]
    = [WoWrite true; WoWrite false; WoRead (Some 5); WoUnit; WoRead (Some 5); WoWrite false; WoWrite true; WoWrite true; WoRead (Some 8)] /\
  go (worn_flash 4 false (fun _ => false) (fun i => i =? 1)) [] [WWrite 5; WWrite 6; WRead 0; WWrite 7; WRead 0]
    = [WoWrite true; WoWrite true; WoRead (Some 5); WoWrite true; WoRead (Some 7)] /\
  (let st := worn_flash 4 true (fun _ => false) (fun i => i =? 1) in
   match wl_write st 32 4 true (WL 1 (flash_of [5])) 6 with
   | Ok (w1, ok1, l1) => ok1 = false /\ l1 = [AWrite 1] /\
       match wl_write st 32 4 true w1 6 with Ok (_, ok2, l2) => ok2 = true /\ l2 = [AWrite 2] | _ => False end
   | _ => False end) /\
  worn_out (worn_flash 4 true (fun _ => true) (fun _ => false)) (flash_of [3; 9]) /\
  latest 4 flash_valid flash_cell (flash_of [3; 9]) (Some 9) /\
  go (worn_flash 4 true (fun _ => true) (fun _ => false)) [3; 9] [WRead 0; WWrite 7; WRead 0; WRestart; WRead 0]
    = [WoRead (Some 9); WoWrite false; WoRead None; WoUnit; WoRead None].
Proof.
  cbn zeta. split; [intros; apply WearAge.worn_flash_ages|]. split.
  { split; [intros s; exists 2; split; [lia|reflexivity]|reflexivity]. }
  split; [vm_compute; reflexivity|]. split; [vm_compute; reflexivity|]. split; [vm_compute; reflexivity|].
  split; [vm_compute; repeat split; reflexivity|]. split.
  { intros i. unfold worn_flash. cbn [st_writeable negb]. rewrite andb_false_r. split; reflexivity. }
  split; [|vm_compute; reflexivity].
  exists 1. split; [repeat split; lia|]. intros j y Hj (Hr & Hc & _). assert (j = 2 \/ j = 3) as [-> | ->] by lia; discriminate Hc.
Qed.
