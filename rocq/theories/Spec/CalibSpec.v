(* Calibrators, meters, callables and stream buffers. *)
From Coq Require Import QArith.
From Verif.Common Require Import Base.
Open Scope Z_scope.

(** Calls on a volt-per-octave calibrator: notes 0 (C0) to 10 (C10), 11 is None. *)
Inductive vop := VReset | VRec (note : Z) (m : Q).
Definition valid_note (o : vop) : Prop := match o with VRec n _ => 0 <= n <= 11 | VReset => True end.
(** The measurements since the last reset, None left out. *)
Definition measured (h : list (Z * Q)) (o : vop) : list (Z * Q) :=
  match o with VReset => [] | VRec n m => if n =? 11 then h else h ++ [(n, m)] end.
Definition measurements (ops : list vop) : list (Z * Q) := fold_left measured ops [].
(** Every measurement lies on the line [a * note + b]. *)
Definition on_line (a b : Q) (h : list (Z * Q)) : Prop := Forall (fun p => (snd p == a * inject_Z (fst p) + b)%Q) h.
(** Two measurements in a row are of different notes. *)
Definition two_notes (h : list (Z * Q)) : Prop := exists l p q r, h = l ++ p :: q :: r /\ fst p <> fst q.

(** [x] is a least element of [l] with respect to [le] *)
Definition is_extreme {A} (le : A -> A -> Prop) (x : A) (l : list A) : Prop := In x l /\ forall y, In y l -> le x y.

(** Calls on a PeakMeter. *)
Inductive pop (A : Type) := PUpdate (x : A) | PReset.
Arguments PUpdate {A}. Arguments PReset {A}.
Definition seen_since {A} (l : list A) (o : pop A) : list A := match o with PUpdate x => l ++ [x] | PReset => [] end.
Definition seen {A} (ops : list (pop A)) : list A := fold_left seen_since ops [].

(** What happens to FunctionSized variables, and to the callables inside them. *)
Inductive fop := FDefault (v : Z) | FMake (v : Z) | FCopy (v w : Z) | FAssign (v w : Z) | FAssignNew (v : Z) | FCall (v : Z) | FDestroy (v : Z).
Inductive fevent := EConstruct (id : Z) | ECall (id : Z) | EDestroy (id : Z).
Definition no_copies (o : fop) : Prop := match o with FCopy _ _ | FAssign _ _ | FAssignNew _ => False | _ => True end.
(** Never used again once destroyed, never destroyed twice. *)
Definition no_use_after_destroy (log : list fevent) : Prop :=
  forall l1 id l2, log = l1 ++ EDestroy id :: l2 -> ~ In (ECall id) l2 /\ ~ In (EDestroy id) l2.
(** Used only after construction. *)
Definition constructed_first (log : list fevent) : Prop :=
  forall l1 id l2, log = l1 ++ ECall id :: l2 \/ log = l1 ++ EDestroy id :: l2 -> In (EConstruct id) l1.

(** Calls on an InputBuffer and an OutputBuffer. *)
Inductive inop (A : Type) := InPut (x : A) | InReset.
Arguments InPut {A}. Arguments InReset {A}.
Definition put_since {A} (h : list A) (o : inop A) : list A := match o with InPut x => h ++ [x] | InReset => [] end.
Definition items {A} (ops : list (inop A)) : list A := fold_left put_since ops [].
Inductive outop (A : Type) := OutGet | OutReset | OutFill (i : Z) (x : A).
Arguments OutGet {A}. Arguments OutReset {A}. Arguments OutFill {A}.
(** What data() shows: the items put since the last reset, up to [N], over the contents at that reset. *)
Definition overlay {A} (N : Z) (base h : list A) : list A :=
  firstn (Z.to_nat N) h ++ skipn (length (firstn (Z.to_nat N) h)) base.
Definition shown_since {A} (N : Z) (s : list A * list A) (o : inop A) : list A * list A :=
  match o with InPut x => (fst s, snd s ++ [x]) | InReset => (overlay N (fst s) (snd s), []) end.
Definition shown {A} (N : Z) (init : list A) (ops : list (inop A)) : list A :=
  let s := fold_left (shown_since N) ops (init, []) in overlay N (fst s) (snd s).
(** The stream of an OutputBuffer: contents and number of reads since the last reset. *)
Definition stream_step {A} (N : Z) (dflt : A) (s : list A * Z) (o : outop A) : (list A * Z) * option A :=
  match o with
  | OutGet => ((fst s, snd s + 1), if snd s <? N then znth (fst s) (snd s) else Some dflt)
  | OutReset => ((fst s, 0), None)
  | OutFill i x => ((zupd (fst s) i x, snd s), None)
  end.
