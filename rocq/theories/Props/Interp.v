(* C75, C111, C112: interpolated parameters. *)
From Coq Require Import QArith.
From Verif.Common Require Import Base.
From Verif.Spec Require Import InterpSpec.
From Verif.Model Require Import Interp.
From Verif.Proofs Require Interp.
Open Scope Z_scope.

(** C75.  InterpParam in exact arithmetic: after k calls of next the value is k/n of the way. *)
Theorem C75_equally_spaced :
  forall n p v k, 0 < n ->
    (ip_cur (Nat.iter k (fun q => fst (ip_next Qplus q)) (ip_set Qminus Qdiv inject_Z n p v)) ==
     ip_cur p + (inject_Z (Z.of_nat k) / inject_Z n) * (v - ip_cur p))%Q.
Proof. exact Interp.ip_exact. Qed.
Print Assumptions C75_equally_spaced.
Theorem C75_arrives :
  forall n p v, 0 < n ->
    (ip_cur (Nat.iter (Z.to_nat n) (fun q => fst (ip_next Qplus q)) (ip_set Qminus Qdiv inject_Z n p v)) == v)%Q.
Proof. exact Interp.ip_arrives. Qed.
Print Assumptions C75_arrives.
(** FilteredInterpArray, any arithmetic and any filter: after any history that ends in
    mark_new_data_ready, add_new_readings and K reads, the k-th read of lane i is the filtered
    reading from k = n on, and k equal steps from the last output before.  n is the number of reads
    since the previous readings, or the configured number if there were none. *)
Theorem C75_array_reads :
  forall {A F : Type} (add sub div : A -> A -> A) (of_int : Z -> A) (fstep : F -> A -> F * A)
    N f0 ops read_fn i p f K k, 0 <= N ->
    Forall (fun o => match o with ISetNum n => 0 <= n < 2 ^ 32 | _ => True end) ops ->
    let step := fi_step add sub div of_int fstep in
    let s := fst (srun step (fia0 of_int N f0) (ops ++ [IMark])) in
    znth (fi_lanes s) i = Some (p, f) -> 1 <= k <= Z.of_nat K -> k < 2 ^ 32 ->
    let n := if fi_count s >? 0 then fi_count s else fi_num s in
    let target := snd (fstep f (read_fn i)) in
    let stp := if n >? 0 then div (sub target (iv_cur p)) (of_int n) else iv_step p in
    exists out, znth (snd (srun step s (IAdd read_fn :: repeat IGet K))) k = Some out /\
      znth out i = Some (if n <=? k then target else Nat.iter (Z.to_nat k) (fun x => add x stp) (iv_cur p)).
Proof. intros A F add sub div of_int fstep. exact (Interp.reads_after add sub div of_int fstep). Qed.
Print Assumptions C75_array_reads.
(** [iv_cur] is the last output. *)
Theorem C75_current_is_last_output :
  forall {A F : Type} (add sub div : A -> A -> A) (of_int : Z -> A) (fstep : F -> A -> F * A) s o i p f,
    znth (fi_lanes s) i = Some (p, f) ->
    let r := fi_step add sub div of_int fstep s o in
    exists p' f', znth (fi_lanes (fst r)) i = Some (p', f') /\
      match o with IGet => znth (snd r) i = Some (iv_cur p') | _ => iv_cur p' = iv_cur p end.
Proof. intros A F add sub div of_int fstep. exact (Interp.cur_is_last_output add sub div of_int fstep). Qed.
Print Assumptions C75_current_is_last_output.
Theorem C75_no_new_data_no_change :
  forall {A F : Type} (add sub div : A -> A -> A) of_int (fstep : F -> A -> F * A) s read_fn,
    fi_ready s = false -> fi_step add sub div of_int fstep s (IAdd read_fn) = (s, []).
Proof. intros A F. exact (@Interp.not_ready_nothing A F). Qed.
Print Assumptions C75_no_new_data_no_change.
(** Until mark_new_data_ready is called every output is the initial zero. *)
Theorem C75_zero_until_marked :
  forall {A F : Type} (add sub div : A -> A -> A) (of_int : Z -> A) (fstep : F -> A -> F * A),
    add (of_int 0) (of_int 0) = of_int 0 ->
    forall N f0 ops, ~ In IMark ops ->
    forall out x, In out (snd (srun (fi_step add sub div of_int fstep) (fia0 of_int N f0) ops)) -> In x out -> x = of_int 0.
Proof. intros A F add sub div of_int fstep. exact (Interp.unmarked_run add sub div of_int fstep). Qed.
Print Assumptions C75_zero_until_marked.
(** At the 2^32-th read the counter has wrapped and the output leaves the target by one step. *)
Theorem C75_stays_on_target_refuted :
  forall {A F : Type} (add sub div : A -> A -> A) (of_int : Z -> A) (fstep : F -> A -> F * A)
    N f0 ops read_fn i p f K, 0 <= N ->
    Forall (fun o => match o with ISetNum n => 0 <= n < 2 ^ 32 | _ => True end) ops ->
    let step := fi_step add sub div of_int fstep in
    let s := fst (srun step (fia0 of_int N f0) (ops ++ [IMark])) in
    znth (fi_lanes s) i = Some (p, f) -> 2 ^ 32 <= Z.of_nat K ->
    let n := if fi_count s >? 0 then fi_count s else fi_num s in
    let target := snd (fstep f (read_fn i)) in
    0 < n ->
    exists out, znth (snd (srun step s (IAdd read_fn :: repeat IGet K))) (2 ^ 32) = Some out /\
      znth out i = Some (add target (div (sub target (iv_cur p)) (of_int n))).
Proof. intros A F add sub div of_int fstep. exact (Interp.reads_wrap add sub div of_int fstep). Qed.
Print Assumptions C75_stays_on_target_refuted.
(* two lanes, integer arithmetic, a filter that adds the lane's count of readings: 4 reads to go
   from 0 to 101 and 201, then (4 reads were made) 4 reads to go to 2 and 42 *)
Example C75_hypotheses_met :
  let step := fi_step Z.add Z.sub Z.div (fun n => n) (fun f x => (f + 1, x + f)) in
  let ops := [ISetNum 4; IMark; IAdd (fun i => 100 * (i + 1)); IGet; IGet; IGet; IGet] in
  Forall (fun o => match o with ISetNum n => 0 <= n < 2 ^ 32 | _ => True end) ops /\
  snd (srun step (fia0 (fun n => n) 2 1) (ops ++ [IMark])) =
    [[]; []; []; [25; 50]; [50; 100]; [75; 150]; [101; 201]; []] /\
  snd (srun step (fst (srun step (fia0 (fun n => n) 2 1) (ops ++ [IMark]))) (IAdd (fun i => 40 * i) :: repeat IGet 5)) =
    [[]; [76; 161]; [51; 121]; [26; 81]; [2; 42]; [2; 42]] /\
  (ip_cur (Nat.iter 3 (fun q => fst (ip_next Qplus q)) (ip_set Qminus Qdiv inject_Z 4 (IP 1 0) 3)) == 5 # 2)%Q.
Proof.
  split; [repeat constructor; lia|]. repeat split; reflexivity.
Qed.

(** C111.  mark_new_data_ready against add_new_readings, any interleaving of their accesses to shared memory:
    whenever the consumer is between two calls and the flag is not set, every lane was last given a
    reading at least as new as the last marked one. *)
Theorem C111_marked_data_is_read :
  forall N l, 0 <= N -> exists s, hand_run N (hand0 N) l = Ok s /\
    (hs_pc s = CIdle -> hs_flag s = false ->
     forall i, 0 <= i < N -> exists r, znth (hs_read s) i = Some r /\ hs_marked s <= r <= hs_data s).
Proof. exact Interp.hand_no_loss. Qed.
Print Assumptions C111_marked_data_is_read.
(** The version numbers: after p moves of the producer (p + 1) / 2 versions are stored, p / 2 of them
    marked. *)
Theorem C111_versions :
  forall N l s, hand_run N (hand0 N) l = Ok s ->
    hs_data s = (producer_steps l + 1) / 2 /\ hs_marked s = producer_steps l / 2.
Proof. exact Interp.hand_fresh. Qed.
Print Assumptions C111_versions.
(** When the producer pauses, at most 2N+2 accesses of the consumer settle the exchange. *)
Theorem C111_settles :
  forall N l k, 0 <= N -> 2 * N + 2 <= Z.of_nat k ->
    exists s, hand_run N (hand0 N) (l ++ repeat Consumer k) = Ok s /\ hs_pc s = CIdle /\ hs_flag s = false /\
      forall i, 0 <= i < N -> exists r, znth (hs_read s) i = Some r /\ hs_marked s <= r <= hs_data s.
Proof. exact Interp.hand_settles. Qed.
Print Assumptions C111_settles.
(** Nothing is taken before the first mark. *)
Theorem C111_nothing_marked :
  forall N l, producer_steps l <= 1 ->
    exists s, hand_run N (hand0 N) l = Ok s /\ hs_pc s = CIdle /\ hs_read s = zrepeat 0 N.
Proof. exact Interp.hand_unmarked. Qed.
Print Assumptions C111_nothing_marked.
(* the producer overtakes the consumer: one lane gets version 1, the other version 2, the flag is
   set again and the next call reads version 2 into both *)
Example C111_hypotheses_met :
  let P := Producer in let C := Consumer in
  (exists s, hand_run 2 (hand0 2) [P; P; C; C; C; P; C; P] = Ok s /\ hs_pc s = CIdle /\ hs_flag s = true /\ hs_read s = [1; 2] /\ hs_marked s = 2) /\
  (exists s, hand_run 2 (hand0 2) [P; P; C; C; C; P; C; P; C; C; C; C] = Ok s /\ hs_pc s = CIdle /\ hs_flag s = false /\ hs_read s = [2; 2] /\ hs_marked s = 2).
Proof. cbn zeta. split; (eexists; split; [vm_compute; reflexivity|]); repeat split; reflexivity. Qed.

(** C112.  InterpParam over int ends at the target minus the truncated remainder. *)
Theorem C112_int_misses_by_remainder :
  forall n p v, 0 < n ->
    ip_cur (Nat.iter (Z.to_nat n) (fun q => fst (int_next q)) (int_set n p v)) = v - Z.rem (v - ip_cur p) n.
Proof. exact Interp.int_misses. Qed.
Print Assumptions C112_int_misses_by_remainder.
(** Over unsigned a lower target makes the first step go up. *)
Theorem C112_unsigned_ramp_down_refuted :
  forall n p v, 2 <= n <= 2 ^ 31 -> 0 <= v < ip_cur p -> ip_cur p < 2 ^ 31 ->
    snd (uint_next (uint_set n p v)) = ip_cur p + (2 ^ 32 - (ip_cur p - v)) / n /\
    ip_cur p < snd (uint_next (uint_set n p v)).
Proof. exact Interp.uint_down. Qed.
Print Assumptions C112_unsigned_ramp_down_refuted.
(** InterpParamVariable<int>: n steps end at the target minus the truncated remainder, too. *)
Theorem C112_variable_step :
  forall n cur v, n <> 0 -> exists q, ivariable_set n cur v = Ok q /\ cur + n * q = v - Z.rem (v - cur) n.
Proof. exact Interp.variable_step. Qed.
Print Assumptions C112_variable_step.
Theorem C112_variable_zero_updates_refuted :
  forall cur v, ivariable_set 0 cur v = UB DivByZero.
Proof. exact Interp.int_zero_updates. Qed.
Print Assumptions C112_variable_zero_updates_refuted.
Example C112_hypotheses_met :
  ip_cur (Nat.iter 8 (fun q => fst (int_next q)) (int_set 8 (IP 10 0) 33)) = 26 /\
  snd (uint_next (uint_set 4 (IP 100 0) 60)) = 1073741914 /\ ivariable_set 3 1 9 = Ok 2.
Proof. repeat split; reflexivity. Qed.
