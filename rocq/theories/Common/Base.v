(* Shared foundations: the outcome monad (undefined behaviour is a value of
   its own), Z-indexed lists with checked access, fixed-width words, and the
   generic "run a list of operations" function. *)
From Coq Require Export List ZArith Lia Bool ZifyBool.
Export ListNotations.
Global Open Scope Z_scope.

(* ------------------------------------------------------------------ *)
(** ** Outcomes *)

Inductive ub_kind :=
| OutOfBounds      (* access outside an object *)
| DivByZero        (* integer division or remainder by zero *)
| SignedOverflow   (* signed arithmetic out of range *)
| BadCast          (* float value not representable in the integer type *)
| BadDeref         (* dereference of an empty optional / dangling object *)
| Indeterminate    (* use of an uninitialised variable *)
| DataRace.        (* conflicting non-atomic accesses not ordered by happens-before *)

Inductive outcome (A : Type) :=
| Ok (a : A)
| UB (k : ub_kind)
| OutOfFuel.       (* the modelled loop did not finish within its fuel *)
Arguments Ok {A} a.
Arguments UB {A} k.
Arguments OutOfFuel {A}.

Definition bind {A B} (m : outcome A) (f : A -> outcome B) : outcome B :=
  match m with
  | Ok a => f a
  | UB k => UB k
  | OutOfFuel => OutOfFuel
  end.

Declare Scope outcome_scope.
Delimit Scope outcome_scope with outcome.
Notation "'let*' x ':=' m 'in' f" := (bind m (fun x => f))
  (at level 200, x pattern, m at level 100, f at level 200, right associativity) : outcome_scope.
Global Open Scope outcome_scope.

Definition is_ok {A} (m : outcome A) : bool :=
  match m with Ok _ => true | _ => false end.

(* ------------------------------------------------------------------ *)
(** ** Lists indexed by Z *)

Definition zlen {A} (l : list A) : Z := Z.of_nat (length l).

Definition znth {A} (l : list A) (i : Z) : option A :=
  if i <? 0 then None else nth_error l (Z.to_nat i).

Fixpoint upd_nat {A} (l : list A) (n : nat) (x : A) : list A :=
  match l, n with
  | [], _ => []
  | _ :: t, O => x :: t
  | h :: t, S n' => h :: upd_nat t n' x
  end.

Definition zupd {A} (l : list A) (i : Z) (x : A) : list A :=
  if i <? 0 then l else upd_nat l (Z.to_nat i) x.

(** Checked read and write of an array object. *)
Definition rd {A} (l : list A) (i : Z) : outcome A :=
  match znth l i with Some x => Ok x | None => UB OutOfBounds end.

Definition wr {A} (l : list A) (i : Z) (x : A) : outcome (list A) :=
  if (0 <=? i) && (i <? zlen l) then Ok (zupd l i x) else UB OutOfBounds.

(** [f 0; f 1; ...; f (n-1)] *)
Definition ztab {A} (n : Z) (f : Z -> A) : list A := map (fun i => f (Z.of_nat i)) (seq 0 (Z.to_nat n)).

Definition zrepeat {A} (x : A) (n : Z) : list A := repeat x (Z.to_nat n).

(* ------------------------------------------------------------------ *)
(** ** Words *)

(** Reduction of a mathematical integer to a [w]-bit unsigned word. *)
Definition word (w : Z) (x : Z) : Z := x mod 2 ^ w.

(** Reduction to a [w]-bit two's complement signed integer. *)
Definition sword (w : Z) (x : Z) : Z :=
  (x + 2 ^ (w - 1)) mod 2 ^ w - 2 ^ (w - 1).

(** Signed arithmetic that is undefined when out of range. *)
Definition schk (w : Z) (x : Z) : outcome Z :=
  if (- 2 ^ (w - 1) <=? x) && (x <? 2 ^ (w - 1)) then Ok x else UB SignedOverflow.

(* ------------------------------------------------------------------ *)
(** ** Running histories *)

Fixpoint run {S O R : Type} (step : S -> O -> outcome (S * R)) (s : S) (ops : list O)
  : outcome (S * list R) :=
  match ops with
  | [] => Ok (s, [])
  | o :: ops' =>
      let* (s1, r) := step s o in
      let* (s2, rs) := run step s1 ops' in
      Ok (s2, r :: rs)
  end.

(** The same for a total (specification) transition function. *)
Fixpoint srun {S O R : Type} (step : S -> O -> S * R) (s : S) (ops : list O) : S * list R :=
  match ops with
  | [] => (s, [])
  | o :: ops' =>
      let (s1, r) := step s o in
      let (s2, rs) := srun step s1 ops' in
      (s2, r :: rs)
  end.

(** Every operation of a history satisfies a guard depending on the
    specification state reached before it. *)
Fixpoint guarded {Q O R : Type} (sstep : Q -> O -> Q * R) (guard : Q -> O -> Prop) (q : Q) (ops : list O) : Prop :=
  match ops with
  | [] => True
  | o :: ops' => guard q o /\ guarded sstep guard (fst (sstep q o)) ops'
  end.
