(* InterpParamVariable, util/interp_param.hh lines 67-105. *)
From Verif.Common Require Import Base.
From Verif.Spec Require Import InterpVarSpec.

(* The arithmetic of T is a parameter: exact or single precision. *)
Section Updates.
Context {A : Type} (add sub div : A -> A -> A) (of_int : Z -> A).
(* lines 101-105: cur_val, target_val, step_size, num_updates *)
Record ivbl := IVB { vb_cur : A; vb_target : A; vb_size : A; vb_num : Z }.
(* lines 69-74 *)
Definition vb0 (num_updates : Z) : ivbl := IVB (of_int 0) (of_int 0) (of_int 0) num_updates.
(* lines 76-80; [of_int] is the conversion T(num_updates) *)
Definition vb_set (s : ivbl) (new_val : A) : ivbl :=
  let d := sub new_val (vb_cur s) in
  IVB (vb_cur s) new_val (div d (of_int (vb_num s))) (vb_num s).
(* lines 82-85 *)
Definition vb_next (s : ivbl) : ivbl * A :=
  let c := add (vb_cur s) (vb_size s) in
  (IVB c (vb_target s) (vb_size s) (vb_num s), c).
(* lines 91-93 *)
Definition vb_set_num (s : ivbl) (n : Z) : ivbl := IVB (vb_cur s) (vb_target s) (vb_size s) n.
(* line 99: cur_val is public *)
Definition vb_jump (s : ivbl) (x : A) : ivbl := IVB x (vb_target s) (vb_size s) (vb_num s).
(* one call; the result is what next returns *)
Definition vb_step (s : ivbl) (c : vcall A) : ivbl * option A :=
  match c with
  | VSet x => (vb_set s x, None)
  | VNum n => (vb_set_num s n, None)
  | VNext => let (s', c) := vb_next s in (s', Some c)
  | VJump x => (vb_jump s x, None)
  end.
Definition vb_after (num_updates : Z) (h : list (vcall A)) : ivbl := fst (srun vb_step (vb0 num_updates) h).
End Updates.
Arguments IVB {A}. Arguments vb_cur {A}. Arguments vb_target {A}. Arguments vb_size {A}. Arguments vb_num {A}.
