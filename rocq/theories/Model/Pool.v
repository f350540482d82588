(* Model of util/pool.hh (Pool<T, MaxEntries>). Pointers are slot indices. *)
From Verif.Common Require Import Base.
From Verif.Spec Require Import PoolSpec.

Section Pool.
Context {T : Type}.
Variable dflt : T.

(* pool.hh:13-17 *)
Record entry := Entry { e_data : T; e_used : bool }.
Definition pool_init (N : Z) : list entry := zrepeat (Entry dflt false) N.

(* the loop of create / create_for_overwrite: pool.hh:23-33, 37-46.
   [fresh] is what happens to the data of the chosen entry. *)
Fixpoint claim (fresh : T -> T) (i : Z) (l : list entry) : list entry * option Z :=
  match l with
  | [] => ([], None)
  | e :: r =>
      if negb (e_used e) then (Entry (fresh (e_data e)) true :: r, Some i)
      else let (r', res) := claim fresh (i + 1) r in (e :: r', res)
  end.
Definition p_create := claim (fun _ => dflt) 0.
Definition p_create_ow := claim (fun x => x) 0.

(* destroy: pool.hh:49-57; item == &entry.data iff it is this slot's pointer *)
Fixpoint release (p : ptr) (i : Z) (l : list entry) : list entry * bool :=
  match l with
  | [] => ([], false)
  | e :: r =>
      if e_used e && (match p with Slot j => i =? j | Foreign => false end)
      then (Entry (e_data e) false :: r, true)
      else let (r', b) := release p (i + 1) r in (e :: r', b)
  end.

(* accesses of the user through a pointer obtained from create *)
Definition p_write (l : list entry) (i : Z) (x : T) : outcome (list entry) :=
  let* e := rd l i in wr l i (Entry x (e_used e)).
Definition p_read (l : list entry) (i : Z) : outcome T := let* e := rd l i in Ok (e_data e).

Definition p_step (l : list entry) (o : pop T) : outcome (list entry * pout T) :=
  match o with
  | PCreate => let (l', r) := p_create l in Ok (l', PoPtr r)
  | PCreateOverwrite => let (l', r) := p_create_ow l in Ok (l', PoPtr r)
  | PDestroy p => let (l', b) := release p 0 l in Ok (l', PoBool b)
  | PWrite i x => let* l' := p_write l i x in Ok (l', PoUnit)
  | PRead i => let* x := p_read l i in Ok (l, PoItem x)
  end.
End Pool.
Arguments entry : clear implicits.
