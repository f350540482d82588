(* C161: set_read_offset by a polling consumer under the C++ release/acquire rules. *)
From Verif.Common Require Import Base.
From Verif.Spec Require Import FifoLog PolledLog SeekLog.
From Verif.Model Require Import Fifo FifoWeak FifoPolled FifoSeekWeak.
From Verif.Proofs Require FifoSeekWeak.

(** C161.  A consumer that takes, and asks set_read_offset to keep, at most as
    many items as it was told are there ("told" by num_filled(), or by having kept
    them), against a producer that calls put at any time, with the memory orders as
    written (acquire load and release store in set_read_offset): in every execution
    (any interleaving, any choice of visible messages at every load) there is no
    data race and no out-of-bounds access; set_read_offset(k) drops all but the last
    k of the items its load found, keeping all that are put later; the k items can
    then be taken without asking again.  It does nothing only if the counter has wrapped. *)
Theorem C161_seek_is_race_free :
  forall (T : Type) (W k h : Z) (buf : list T) (l : list (saction T)),
    0 <= k < W -> 0 <= h < 2 ^ W -> zlen buf = 2 ^ k ->
    exists s' log, seek_run W (2 ^ k) slot_static code_orders true true 0 (seek_init (2 ^ k) h buf) l = Ok (s', log) /\
                   seek_legal (2 ^ k) (2 ^ W <=? h + seek_puts l) [] 0 log.
Proof. exact @FifoSeekWeak.seek_static. Qed.
Print Assumptions C161_seek_is_race_free.

(** The same for the variant whose capacity is given at construction, with any
    capacity, as long as the counters do not wrap or the capacity divides 2^W. *)
Theorem C161_dyn_seek_is_race_free :
  forall (T : Type) (W cap h : Z) (buf : list T) (l : list (saction T)),
    0 < cap < 2 ^ W -> 0 <= h < 2 ^ W -> zlen buf = cap ->
    ((cap | 2 ^ W) \/ h + seek_puts l <= 2 ^ W) ->
    exists s' log, seek_run W cap slot_dyn code_orders true true 0 (seek_init cap h buf) l = Ok (s', log) /\
                   seek_legal cap (2 ^ W <=? h + seek_puts l) [] 0 log.
Proof. exact @FifoSeekWeak.seek_dyn. Qed.
Print Assumptions C161_dyn_seek_is_race_free.

(* Three items are announced; while set_read_offset(1) is under way a fourth is put; 7 and 8 remain and the kept 7 is taken. *)
Example C161_hypotheses_met :
  let put x jh := map (fun a => Plain (Base a)) [PBegin x; PStep jh; PStep 0; PStep 0; PStep 0] in
  let l := put 5 0 ++ put 6 1 ++ put 7 2 ++ [Plain (Count 3); SeekLoad 1 3] ++ put 8 3 ++ [SeekStore] ++
           map (fun a => Plain (Base a)) [CGet; CStep 1 None; CStep 3 None; CStep 0 (Some 9); CStep 0 None; CGet] ++
           [Plain (Count 4)] in
  (0 <= 2 < 32 /\ 0 <= 100 < 2 ^ 32 /\ zlen [0; 0; 0; 0] = 2 ^ 2) /\
  match seek_run 32 (2 ^ 2) slot_static code_orders true true 0 (seek_init (2 ^ 2) 100 [0; 0; 0; 0]) l with
  | Ok (_, log) => log = [SE (Eff (EffPut 5)); SE (Eff (EffPut 6)); SE (Eff (EffPut 7)); SE (Counted 3); Saw 1 3;
                          SE (Eff (EffPut 8)); Dropped 1; SE (Eff (EffGot 7)); SE (Counted 1)]
  | _ => False
  end /\
  (2 ^ 32 <=? 100 + seek_puts l) = false /\
  (0 < 3 < 2 ^ 32 /\ 7 + seek_puts l <= 2 ^ 32).
Proof. split; [repeat split; lia|]. split; [vm_compute; reflexivity|]. split; [reflexivity|]. split; [lia|vm_compute; discriminate]. Qed.

(** Each part matters.  With a relaxed load there is a race for every element type, every capacity above 1
    and every counter value from which the counter does not wrap at once, in both classes. *)
Theorem C161_relaxed_load_races_refuted :
  forall (T : Type) (x y : T) (W h : Z) (buf : list T), 0 <= h -> h + 2 < 2 ^ W -> exists l, seek_puts l = 2 /\
    (forall k, 0 < k < W -> zlen buf = 2 ^ k ->
       seek_run W (2 ^ k) slot_static code_orders false true 0 (seek_init (2 ^ k) h buf) l = UB DataRace) /\
    (forall cap, 1 < cap < 2 ^ W -> zlen buf = cap ->
       seek_run W cap slot_dyn code_orders false true 0 (seek_init cap h buf) l = UB DataRace).
Proof.
  intros T x y W h buf Hh H2. exists (FifoSeekWeak.unsynchronised x y). split; [reflexivity|].
  split; intros; [apply FifoSeekWeak.relaxed_load_static|apply FifoSeekWeak.relaxed_load_dyn]; assumption.
Qed.
Print Assumptions C161_relaxed_load_races_refuted.
(** A relaxed store and asking to keep one item more than told can race too. *)
Theorem C161_weaker_seek_races_refuted :
  (exists l : list (saction Z), seek_run 32 1 slot_static code_orders true false 0 (seek_init 1 0 [0]) l = UB DataRace) /\
  (exists l : list (saction Z), seek_run 32 2 slot_static code_orders true true 1 (seek_init 2 0 [0; 0]) l = UB DataRace).
Proof. exact (conj FifoSeekWeak.seek_relaxed_store_races FifoSeekWeak.seek_back_races). Qed.
Print Assumptions C161_weaker_seek_races_refuted.
