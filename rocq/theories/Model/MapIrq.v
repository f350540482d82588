(* util/seq_map.hh and util/sequential_map.hh: calls of a main program interrupted by a handler that
   uses the same map, as in Model/Irq.v.  A key, a value, a counter are one access each; a pair is
   copied member by member. *)
From Verif.Common Require Import Base.
From Verif.Spec Require Import MapSpec.
From Verif.Model Require Import FixedVector Maps Irq VectorIrq.

Section MapIrq.
Context {K V : Type}.
Variables (keq : K -> K -> bool) (N : Z) (dk : K) (dv : V).

(* ---- SeqMap: seq_map.hh:8-11 ---- *)
Notation P := (prog (seqmap K V) (mout K V)).
Definition load_sz (k : Z -> P) : P := Acc (fun s => Ok (s, k (q_sz s))).
Definition store_sz (n : Z) (k : P) : P := Acc (fun s => Ok (SeqMap (q_keys s) (q_vals s) n (q_oldest s), k)).
Definition load_old (k : Z -> P) : P := Acc (fun s => Ok (s, k (q_oldest s))).
Definition store_old (n : Z) (k : P) : P := Acc (fun s => Ok (SeqMap (q_keys s) (q_vals s) (q_sz s) n, k)).
Definition load_key (i : Z) (k : K -> P) : P := Acc (fun s => let* x := rd (q_keys s) i in Ok (s, k x)).
Definition store_key (i : Z) (x : K) (k : P) : P := Acc (fun s => let* l := wr (q_keys s) i x in Ok (SeqMap l (q_vals s) (q_sz s) (q_oldest s), k)).
Definition load_val (i : Z) (k : V -> P) : P := Acc (fun s => let* x := rd (q_vals s) i in Ok (s, k x)).
Definition store_val (i : Z) (x : V) (k : P) : P := Acc (fun s => let* l := wr (q_vals s) i x in Ok (SeqMap (q_keys s) l (q_sz s) (q_oldest s), k)).
(* span{keys}.subspan(0, sz): undefined when sz exceeds the array *)
Definition load_active (k : Z -> P) : P := Acc (fun s => if q_sz s <=? zlen (q_keys s) then Ok (s, k (q_sz s)) else UB OutOfBounds).
(* the loops over active_keys, lines 24-31, 49-54, 65-73, 78-82: [n] keys are left from [i] on *)
Fixpoint scan_keys (key : K) (n : nat) (i : Z) (found : Z -> P) (missing : P) : P :=
  match n with
  | O => missing
  | S n' => load_key i (fun k' => if keq k' key then found i else scan_keys key n' (i + 1) found missing)
  end.
Definition look_for (key : K) (found : Z -> P) (missing : P) : P :=
  load_active (fun n => scan_keys key (Z.to_nat n) 0 found missing).

(* insert 13-20, overwrite 22-46, get 48-56, remove_last 58-61, remove 64-75, key_exists 77-84, size
   86-88; the pointers returned by overwrite and get are dereferenced by the caller *)
Definition q_main (o : qmop K V) : P :=
  match o with
  | QInsert key v =>
      load_sz (fun n => if n >=? N then Ret (MoBool false) else
      load_sz (fun i => store_key i key (load_sz (fun i => store_val i v (load_sz (fun n => store_sz (n + 1) (Ret (MoBool true))))))))
  | QOverwrite key v =>
      let finish index := store_key index key (store_val index v (load_val index (fun r => Ret (MoOpt (Some r))))) in
      look_for key
        (fun i => store_val i v (load_val i (fun r => Ret (MoOpt (Some r)))))
        (load_sz (fun index => load_sz (fun n =>
         if n >=? N then
           load_old (fun index => load_old (fun o => store_old (o + 1) (load_old (fun o => if o >=? N then store_old 0 (finish index) else finish index))))
         else load_sz (fun n => store_sz (n + 1) (finish index)))))
  | QGet key => look_for key (fun i => load_val i (fun v => Ret (MoOpt (Some v)))) (Ret (MoOpt None))
  | QExists key => look_for key (fun _ => Ret (MoBool true)) (Ret (MoBool false))
  | QSize => load_sz (fun n => Ret (MoNum n))
  | QRemove key => look_for key (fun i => store_key i dk (store_val i dv (Ret (MoBool true)))) (Ret (MoBool false))
  | QRemoveLast => load_sz (fun n => if n >? 0 then load_sz (fun n => store_sz (n - 1) (Ret MoUnit)) else Ret MoUnit)
  end.
(* the entries in storage order *)
Definition q_slots (s : seqmap K V) : list (K * V) := combine (firstn (Z.to_nat (q_sz s)) (q_keys s)) (firstn (Z.to_nat (q_sz s)) (q_vals s)).

(* ---- SequentialMap ---- *)
Notation M := (prog (fvec (K * V)) (mout K V)).
Definition load_fst (i : Z) (k : K -> M) : M := load_el i (fun e => k (fst e)).
Definition load_snd (i : Z) (k : V -> M) : M := load_el i (fun e => k (snd e)).
Definition store_fst (i : Z) (x : K) (k : M) : M := Acc (fun s => let* e := fv_at s i in let* s' := fv_set s i (x, snd e) in Ok (s', k)).
Definition store_snd (i : Z) (x : V) (k : M) : M := Acc (fun s => let* e := fv_at s i in let* s' := fv_set s i (fst e, x) in Ok (s', k)).
(* for (auto &pair : data): sequential_map.hh:16-19, 24-28, 105-108; end() is called once *)
Fixpoint scan_range (key : K) (n : nat) (i : Z) (found : Z -> M) (missing : M) : M :=
  match n with
  | O => missing
  | S n' => load_fst i (fun k' => if keq k' key then found i else scan_range key n' (i + 1) found missing)
  end.
(* for (auto it = data.begin(); it < data.end(); it++): lines 41-45, 78-81; end() is called every time *)
Fixpoint scan_iter (key : K) (fuel : nat) (i : Z) (found : Z -> M) (missing : M) : M :=
  match fuel with
  | O => Acc (fun _ => OutOfFuel)
  | S f => load_n (fun n => if i <? n then load_fst i (fun k' => if keq k' key then found i else scan_iter key f (i + 1) found missing) else missing)
  end.
(* push_back_for_overwrite: fixed_vector.hh:65-73 *)
Definition grow (k : Z -> M) : M :=
  load_n (fun n => if n >=? N then k N else load_n (fun idx => load_n (fun n => store_n (n + 1) (k idx)))).
(* operator[]: sequential_map.hh:23-37 *)
Definition sm_ref_prog (key : K) (k : Z -> M) : M :=
  load_n (fun n => scan_range key (Z.to_nat n) 0 k
    (grow (fun newsize => let newsize := if newsize =? N then newsize - 1 else newsize in store_fst newsize key (k newsize)))).
(* std::move of pairs: fixed_vector.hh:134 *)
Fixpoint shift_pairs (n : nat) (first dst : Z) (rest : M) : M :=
  match n with
  | O => rest
  | S n' =>
      load_fst first (fun a => store_fst dst a (load_snd first (fun b => store_snd dst b (shift_pairs n' (first + 1) (dst + 1) rest))))
  end.
Fixpoint list_pairs (n : nat) (i : Z) (seen : list (K * V)) : M :=
  match n with O => Ret (MoList (rev seen)) | S n' => load_fst i (fun a => load_snd i (fun b => list_pairs n' (i + 1) ((a, b) :: seen))) end.

(* lines 23-110 *)
Definition sm_main (o : mop K V) : M :=
  match o with
  | MAssign key v => sm_ref_prog key (fun i => store_snd i v (Ret MoUnit))
  | MRef key => sm_ref_prog key (fun i => load_snd i (fun v => Ret (MoVal v)))
  | MFind key => scan_iter key (S (Z.to_nat N)) 0 (fun i => load_snd i (fun v => Ret (MoOpt (Some v)))) (Ret (MoOpt None))
  | MContains key => load_n (fun n => scan_range key (Z.to_nat n) 0 (fun _ => Ret (MoBool true)) (Ret (MoBool false)))
  | MErase key =>
      scan_iter key (S (Z.to_nat N)) 0
        (fun i => load_n (fun e => if i =? e then Ret (MoNum 0) else
          load_n (fun n => if n =? 0 then Ret (MoNum 1) else
          load_n (fun e => shift_pairs (Z.to_nat (e - (i + 1))) (i + 1) i (load_n (fun n => store_n (n - 1) (Ret (MoNum 1))))))))
        (Ret (MoNum 0))
  | MInsert key v =>
      scan_iter key (S (Z.to_nat N)) 0 (fun _ => Ret (MoBool false))
        (grow (fun newsize => if newsize =? N then Ret (MoBool false) else store_fst newsize key (Ret (MoBool true))))
  | MSize => load_n (fun n => Ret (MoNum n))
  | MMaxSize => Ret (MoNum N)
  | MEmpty => load_n (fun n => Ret (MoBool (n =? 0)))
  | MFull => load_n (fun n => Ret (MoBool (n =? N)))
  | MClear => store_n 0 (Ret MoUnit)
  | MList => load_n (fun n => list_pairs (Z.to_nat n) 0 [])
  end.
End MapIrq.
