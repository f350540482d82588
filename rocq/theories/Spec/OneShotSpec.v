(* A pulse generator: calls and the time that passes. *)
From Coq Require Import QArith.
From Verif.Common Require Import Base F32.
Open Scope Q_scope.

Inductive oop (A : Type) :=
| OStart (width : A) | OUpdate | OStop | ORate (hz : A).
Arguments OStart {A}. Arguments OUpdate {A}. Arguments OStop {A}. Arguments ORate {A}.

Definition is_start {A} (o : oop A) : Prop := match o with OStart _ => True | _ => False end.
Definition is_stop {A} (o : oop A) : Prop := match o with OStop => True | _ => False end.

(** The time one update takes after the calls [h], if it took [t] before: a rate that is not positive
    is ignored. *)
Fixpoint tick (t : Q) (h : list (oop Q)) : Q :=
  match h with
  | [] => t
  | ORate hz :: r => tick (if Qlt_le_dec 0 hz then 1 / hz else t) r
  | _ :: r => tick t r
  end.
(** The time that passes during the calls [h]. *)
Fixpoint elapsed (t : Q) (h : list (oop Q)) : Q :=
  match h with
  | [] => 0
  | OUpdate :: r => t + elapsed t r
  | ORate hz :: r => elapsed (if Qlt_le_dec 0 hz then 1 / hz else t) r
  | _ :: r => elapsed t r
  end.

(** Histories given by whole numbers: widths in units of 2^-A, rates in Hz; as calls in single precision
    and in exact arithmetic. *)
Definition single_op (A : Z) (o : oop Z) : oop f32 :=
  match o with OStart j => OStart (f32_of j (- A)) | OUpdate => OUpdate | OStop => OStop | ORate n => ORate (f32_of_int n) end.
Definition exact_op (A : Z) (o : oop Z) : oop Q :=
  match o with OStart j => OStart (inject_Z j / inject_Z (2 ^ A)) | OUpdate => OUpdate | OStop => OStop | ORate n => ORate (inject_Z n) end.
(** Widths of at most 2^24 units; rates that are powers of two up to 2^A, or not positive. *)
Definition representable (A : Z) (o : oop Z) : Prop :=
  match o with
  | OStart j => (Z.abs j <= 2 ^ 24)%Z
  | ORate n => (- 2 ^ 24 <= n <= 0)%Z \/ exists a, (0 <= a <= A)%Z /\ n = (2 ^ a)%Z
  | _ => True
  end.
