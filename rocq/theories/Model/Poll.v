(* util/poll_event.hh and util/poll_change.hh. *)
From Verif.Common Require Import Base.
From Verif.Spec Require Import PollSpec.

(* PollEvent<TimeT>::poll, poll_event.hh lines 9-25, TimeT unsigned of W bits; the new last_poll and
   whether action() runs *)
Definition pe_poll (W period last_poll now : Z) : Z * bool :=
  let expired :=
    if now <? last_poll then now >=? word W (last_poll + period)
    else now - last_poll >=? period in
  if expired then (now, true) else (last_poll, false).
(* the same with a signed TimeT of W >= 32 bits; long int, line 3, is the default *)
Definition pe_poll_s (W period last_poll now : Z) : outcome (Z * bool) :=
  let* expired :=
    if now <? last_poll then let* t := schk W (last_poll + period) in Ok (now >=? t)
    else let* e := schk W (now - last_poll) in Ok (e >=? period) in
  Ok (if expired then (now, true) else (last_poll, false)).

(* PollChange, poll_change.hh lines 5-57 *)
Record pollchange := PC { current_state : bool; change_detected : bool; last_update_time : Z }.
Definition pc0 : pollchange := PC false false 0.
(* lines 11-50; poll takes a state or a function returning it (called only when due, lines 32-42);
   the result of poll tells whether the state was read, that of take_change is its own *)
Definition pc_step (update_ticks : Z) (s : pollchange) (o : pcop) : pollchange * bool :=
  match o with
  | PReset => (PC (current_state s) true (last_update_time s), false)
  | PForce => (PC (current_state s) (change_detected s) 0, false)
  | PPoll now state =>
      if word 32 (now - last_update_time s) >=? update_ticks then
        if Bool.eqb (current_state s) state then (PC (current_state s) (change_detected s) now, true)
        else (PC state true now, true)
      else (s, false)
  | PTake =>
      if change_detected s then (PC (current_state s) false (last_update_time s), true) else (s, false)
  end.
