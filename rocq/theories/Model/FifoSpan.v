(* The constructor LockFreeFifoSpsc(std::span<T, max_size_>) of util/lockfree_fifo_spsc.hh.
   Elements are seen as their object representations, lists of [esz] bytes (memcpy needs a
   trivially copyable T). *)
From Verif.Common Require Import Base.
From Verif.Model Require Import Fifo Circular.

(* the array of [n] elements stored in [bytes] *)
Definition elements (n esz : Z) (bytes : list Z) : list (list Z) :=
  ztab n (fun i => firstn (Z.to_nat esz) (skipn (Z.to_nat (i * esz)) bytes)).
(* lines 19-21: buf_ is zeroed (line 142), then max_size_ bytes are copied *)
Definition fifo_init_from (esz cap : Z) (src : list (list Z)) : outcome (fifo (list Z)) :=
  let* b := cbo_copy_bytes cap (zrepeat 0 (esz * cap)) (concat src) in
  Ok (Fifo cap 0 0 (elements cap esz b)).
