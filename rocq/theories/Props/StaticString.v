(* C19: StaticString. *)
From Verif.Common Require Import Base.
From Verif.Spec Require Import StaticStringSpec.
From Verif.Model Require Import StaticString.
From Verif.Proofs Require StaticString.

(** C19.  From uninitialised storage, a constructor and then any history of calls: results
    are those of the text specification, and the array holds that text and a terminator. *)
Theorem C19_static_string_holds_longest_prefix :
  forall cap : Z, 0 <= cap -> forall (raw : list Z) (c : sop) (ops : list sop),
    0 < cap -> zlen raw = cap + 1 -> is_ctor c -> guarded (ss_spec cap) sop_ok [] (c :: ops) ->
    exists d' t junk,
      run (ss_step cap) raw (c :: ops) = Ok (d', snd (srun (ss_spec cap) [] (c :: ops))) /\
      t = fst (srun (ss_spec cap) [] (c :: ops)) /\ d' = t ++ 0 :: junk /\ zlen d' = cap + 1 /\ zlen t <= cap.
Proof. exact StaticString.ss_run. Qed.
Print Assumptions C19_static_string_holds_longest_prefix.

Example C19_hypotheses_met :
  let ops := [SCopySV [65; 66; 67; 68; 69]; SText; SLength; SAvailable; SCopySelf 1; SText; SEqual [66; 67; 68; 0; 9]; SCopySV [65; 0; 66]; SText;
              SCopyC [70; 71; 0]; SText; SAvailable; SClear; SLength] in
  (zlen [1; 2; 3; 4; 5] = 4 + 1 /\ guarded (ss_spec 4) sop_ok [] ops) /\
  snd (srun (ss_spec 4) [] ops) =
   [SoUnit; SoText [65; 66; 67; 68]; SoNum 4; SoNum 0; SoUnit; SoText [66; 67; 68]; SoBool true; SoUnit; SoText [65];
    SoUnit; SoText [70; 71]; SoNum 2; SoUnit; SoNum 0].
Proof. vm_compute; repeat split; congruence. Qed.

(** C19.  Capacity 0: copying a non-empty string_view writes outside the object. *)
Theorem C19_zero_capacity_view_copy_refuted :
  forall (c : Z) (l : list Z), copy_sv 0 0 (c :: l) [0] = UB OutOfBounds.
Proof. exact StaticString.zero_cap_sv. Qed.
Print Assumptions C19_zero_capacity_view_copy_refuted.
Theorem C19_zero_capacity_c_string_copy :
  forall mem : list Z, cstring mem <> None -> copy_c 0 0 mem [0] = Ok [0].
Proof. exact StaticString.zero_cap_c. Qed.
Print Assumptions C19_zero_capacity_c_string_copy.
Example C19_zero_capacity_hypotheses_met : cstring [65; 66; 0] <> None.
Proof. discriminate. Qed.
