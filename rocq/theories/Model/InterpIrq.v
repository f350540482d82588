(* InterpParamVariable, util/interp_param.hh lines 67-105: calls of a main program interrupted by a
   handler that uses the same parameter, as in Model/Irq.v.  Every member read or written is one
   access; InterpParam (lines 3-29) is the same without the target and with a fixed number. *)
From Verif.Common Require Import Base.
From Verif.Spec Require Import InterpVarSpec.
From Verif.Model Require Import InterpVar Irq.

Section Updates.
Context {A : Type} (add sub div : A -> A -> A) (of_int : Z -> A).
Notation P := (prog (@ivbl A) (option A)).
Definition get_cur (k : A -> P) : P := Acc (fun s => Ok (s, k (vb_cur s))).
Definition get_size (k : A -> P) : P := Acc (fun s => Ok (s, k (vb_size s))).
Definition get_num (k : Z -> P) : P := Acc (fun s => Ok (s, k (vb_num s))).
Definition put_cur (x : A) (k : P) : P := Acc (fun s => Ok (IVB x (vb_target s) (vb_size s) (vb_num s), k)).
Definition put_target (x : A) (k : P) : P := Acc (fun s => Ok (IVB (vb_cur s) x (vb_size s) (vb_num s), k)).
Definition put_size (x : A) (k : P) : P := Acc (fun s => Ok (IVB (vb_cur s) (vb_target s) x (vb_num s), k)).
Definition put_num (n : Z) (k : P) : P := Acc (fun s => Ok (IVB (vb_cur s) (vb_target s) (vb_size s) n, k)).
Definition vb_main (c : vcall A) : P :=
  match c with
  (* lines 76-80 *)
  | VSet x => put_target x (get_cur (fun cur => get_num (fun n => put_size (div (sub x cur) (of_int n)) (Ret None))))
  (* lines 91-93 *)
  | VNum n => put_num n (Ret None)
  (* lines 82-85 *)
  | VNext => get_cur (fun cur => get_size (fun st => put_cur (add cur st) (get_cur (fun cur => Ret (Some cur)))))
  (* line 99: a store to the public member *)
  | VJump x => put_cur x (Ret None)
  end.
Definition vb_at_once (s : ivbl) (c : vcall A) : outcome (ivbl * option A) := total (vb_step add sub div of_int) s c.
End Updates.
