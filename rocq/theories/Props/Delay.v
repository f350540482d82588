(* C152: CircularBufferAccess as a delay line. *)
From Verif.Common Require Import Base.
From Verif.Spec Require Import DelaySpec.
From Verif.Model Require Import CircularExt.
From Verif.Proofs Require Delay.

(** C152.  Constructed with offset [D] over a buffer, and used for any reads and writes of blocks of
    any lengths that never read more than waits nor write more than fits: what comes out is the first
    [D] elements of the buffer followed by what was written, in order, nothing lost or doubled. *)
Theorem C152_delay_line :
  forall {T} W (mix : T -> T -> T) (zero : T), (forall d o, mix d o = d) -> forall buf D ops,
    0 <= D < zlen buf -> zlen buf < 2 ^ W -> in_step (zlen buf) D ops ->
    exists s' outs rest, run (acc_step W mix zero) (acc_init buf D) ops = Ok (s', outs) /\
      heard outs ++ rest = firstn (Z.to_nat D) buf ++ written ops.
Proof. exact @Delay.delay_line. Qed.
Print Assumptions C152_delay_line.
(** Writing blocks and reading as much after each of them, block lengths varying: the output is the
    input delayed by exactly [D] elements. *)
Theorem C152_constant_delay :
  forall {T} W (mix : T -> T -> T) (zero : T), (forall d o, mix d o = d) -> forall buf D blocks,
    0 <= D < zlen buf -> zlen buf < 2 ^ W -> Forall (fun b => D + zlen b <= zlen buf) blocks ->
    exists s' outs, run (acc_step W mix zero) (acc_init buf D) (echo blocks) = Ok (s', outs) /\
      heard outs = firstn (length (concat blocks)) (firstn (Z.to_nat D) buf ++ concat blocks).
Proof. exact @Delay.echo_delay. Qed.
Print Assumptions C152_constant_delay.
(** The limit on writes is needed: when [d] would exactly fill the line and one more element [x] is
    written, the next element read is not the oldest waiting one, [y], but [x]. *)
Theorem C152_overtaken_refuted :
  forall {T} W (mix : T -> T -> T) (zero : T), (forall d o, mix d o = d) -> forall buf D ops x d,
    0 <= D < zlen buf -> zlen buf < 2 ^ W -> in_step (zlen buf) D ops ->
    forall s outs y rest, run (acc_step W mix zero) (acc_init buf D) ops = Ok (s, outs) ->
      heard outs ++ y :: rest = firstn (Z.to_nat D) buf ++ written ops -> zlen (y :: rest) = zlen buf - zlen d ->
      exists s' b b', run (acc_step W mix zero) s [AWrite (d ++ [x]); ARead 1] = Ok (s', [AFlag b; AData [x] b']).
Proof. exact @Delay.overtaken. Qed.
Print Assumptions C152_overtaken_refuted.

(** Four places, a delay of two. *)
Example C152_hypotheses_met :
  let keep := fun d (_ : Z) => d in
  in_step (zlen [8; 9; 0; 0]) 2 [AWrite [1; 2]; ARead 3; AWrite [3]; ARead 2] /\
  (exists s, run (acc_step 32 keep 0) (acc_init [8; 9; 0; 0] 2) [AWrite [1; 2]; ARead 3; AWrite [3]; ARead 2] = Ok (s, [AFlag true; AData [8; 9; 1] false; AFlag false; AData [2; 3] true])) /\
  (exists s outs, run (acc_step 32 keep 0) (acc_init [8; 9; 0; 0] 2) (echo [[1; 2]; [3]; [4; 5]]) = Ok (s, outs) /\ heard outs = [8; 9; 1; 2; 3]) /\
  (exists s, run (acc_step 32 keep 0) (acc_init [8; 9; 0; 0] 2) [AWrite [1; 2]; AWrite [3]; ARead 1] = Ok (s, [AFlag true; AFlag false; AData [3] false])).
Proof.
  split; [vm_compute; repeat split; congruence|]. split; [eexists; vm_compute; reflexivity|]. split; [do 2 eexists; split; vm_compute; reflexivity|eexists; vm_compute; reflexivity].
Qed.
