(* RefParameter, util/parameter.hh lines 92-129: setValue, and isChanged followed by getValue if it is
   true, as sequences of accesses; interrupted as in Model/Irq.v. *)
From Verif.Common Require Import Base.
From Verif.Spec Require Import DetectSpec IrqSpec.
From Verif.Model Require Import Detect Irq.

(* one call after the other *)
Definition ref_step (s : refparam) (o : pop) : refparam * option Z :=
  match o with
  | PSet x => (fst (rp_step s (VSet x)), None)
  | PPoll => let (s', c) := rp_step s VChanged in (s', if c then Some (rp_var s') else None)
  end.
(* lines 99-101: one store; lines 104-110: loads the variable and lastVal, then the variable again,
   stores lastVal; lines 112-114 load the variable *)
Definition ref_main (o : pop) : prog refparam (option Z) :=
  match o with
  | PSet x => Acc (fun s => Ok (RP x (rp_last s), Ret None))
  | PPoll => Acc (fun s => let v := rp_var s in Ok (s, Acc (fun s => Ok (s,
      if v =? rp_last s then Ret None
      else Acc (fun s => let v := rp_var s in Ok (s, Acc (fun s => Ok (RP (rp_var s) v, Acc (fun s => Ok (s, Ret (Some (rp_var s)))))))))))
    )
  end.
