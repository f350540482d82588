(* FilteredInterpArray::mark_new_data_ready (util/filtered_interp_array.hh:20-22) in one thread
   and add_new_readings (lines 27-39) in another, under the C++ memory model.
   The flag _new_data_ready (line 69) is atomic and all its accesses are seq_cst; as the only such
   location its accesses are totally ordered and a load reads the newest value.  A store releases what
   its thread knows, a load that reads it acquires that.  The readings that read_fn returns
   (line 35) are memory of the caller.  [plain = false]: relaxed atomics, a read may return any reading
   not older than what the thread knows.  [plain = true]: ordinary memory, and two accesses
   of a lane, one a write, that are not ordered are the outcome UB DataRace.
   Parameters to vary the program: [exchange]: one read-modify-write instead of the load and the
   store in lines 28-29; [window]: whether the producer may mark between the two.
   Simplifications: a reading is its number in its lane; filters and interpolation are left out
   (Model/Interp.v has them); executions are generated in program order. *)
From Verif.Common Require Import Base.
From Verif.Spec Require Import HandoffSpec.

Inductive iwpc :=
| IIdle                 (* between two calls of add_new_readings *)
| IStore                (* line 29: before the store of false *)
| IRead (i : Z).        (* lines 34-36: before read_fn(i) *)
(* [f_val], [f_know]: the flag's newest value and what its store released; [c_know]: per lane the
   newest reading the consumer knows of; [c_read]: the lanes the consumer has read *)
Record iwstate := IW { written : Z -> Z; f_val : bool; f_know : Z -> Z; c_know : Z -> Z; c_pc : iwpc; c_read : Z -> bool }.
Inductive iwact :=
| PWrite (i : Z)        (* the producer stores a new reading in lane i *)
| PMark                 (* mark_new_data_ready() *)
| CStep (j : Z).        (* the consumer's next access; a read of a lane returns reading j *)

Section I.
Variables (N : Z) (exchange window plain : bool).

Definition iw0 : iwstate := IW (fun _ => 0) false (fun _ => 0) (fun _ => 0) IIdle (fun _ => false).
Definition join (a b : Z -> Z) : Z -> Z := fun i => Z.max (a i) (b i).
Definition next_read (i : Z) : iwpc := if i <? N then IRead i else IIdle.
Definition is_store (p : iwpc) : bool := match p with IStore => true | _ => false end.

Definition iw_step (s : iwstate) (a : iwact) : outcome (iwstate * list hevent) :=
  match a with
  | PWrite i =>
      if (0 <=? i) && (i <? N) then
        if plain && c_read s i then UB DataRace        (* nothing orders the consumer's read before it *)
        else Ok (IW (set (written s) i (written s i + 1)) (f_val s) (f_know s) (c_know s) (c_pc s) (c_read s), [HWrite i])
      else Ok (s, [])
  | PMark =>                                                        (* line 21 *)
      if negb window && is_store (c_pc s) then Ok (s, [])
      else Ok (IW (written s) true (written s) (c_know s) (c_pc s) (c_read s), [HMark])
  | CStep j =>
      match c_pc s with
      | IIdle =>                                                    (* line 28 *)
          if f_val s then
            let know := join (c_know s) (f_know s) in
            if exchange then Ok (IW (written s) false know know (next_read 0) (c_read s), [HSeen])
            else Ok (IW (written s) true (f_know s) know IStore (c_read s), [HSeen])
          else Ok (s, [])
      | IStore => Ok (IW (written s) false (c_know s) (c_know s) (next_read 0) (c_read s), [])      (* line 29 *)
      | IRead i =>                                                  (* line 35 *)
          if plain then
            if c_know s i <? written s i then UB DataRace
            else Ok (IW (written s) (f_val s) (f_know s) (c_know s) (next_read (i + 1)) (set (c_read s) i true), [HTook i (written s i)])
          else if (c_know s i <=? j) && (j <=? written s i) then
            Ok (IW (written s) (f_val s) (f_know s) (set (c_know s) i j) (next_read (i + 1)) (set (c_read s) i true), [HTook i j])
          else Ok (s, [])                                           (* not a possible read *)
      end
  end.

Fixpoint iw_run (s : iwstate) (l : list iwact) : outcome (iwstate * list hevent) :=
  match l with
  | [] => Ok (s, [])
  | a :: r =>
      let* (s1, e1) := iw_step s a in
      let* (s2, e2) := iw_run s1 r in
      Ok (s2, e1 ++ e2)
  end.
End I.

(* All lanes from [i] on are written once ([n] of them), or read with number j. *)
Definition write_lanes (i : Z) (n : nat) : list iwact := map (fun k => PWrite (i + Z.of_nat k)) (seq 0 n).
(* The producer writes only before its first mark. *)
Fixpoint one_batch (marked : bool) (l : list iwact) : Prop :=
  match l with
  | [] => True
  | PWrite _ :: r => marked = false /\ one_batch marked r
  | PMark :: r => one_batch true r
  | CStep _ :: r => one_batch marked r
  end.
