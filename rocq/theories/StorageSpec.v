(** Vocabulary for programs that construct, use and destroy objects. *)
From Verif Require Import Base StorageModel.

(** The classes; for a table: has it got a hash algorithm? *)
Inductive class := KStr | KTable (algo : bool) | KPoly.
(** The objects of a program so far, in order of construction; [None]: destroyed. *)
Notation known := (list (option class)).

Definition is_class (k : known) (i : nat) (test : class -> bool) : bool :=
  match nth_error k i with Some (Some c) => test c | _ => false end.
Definition is_str c := match c with KStr => true | _ => false end.
Definition is_table c := match c with KTable _ => true | _ => false end.
Definition is_poly c := match c with KPoly => true | _ => false end.

(** A proper call: on an object of the right class that has not been destroyed;
    objects are neither copied nor assigned.  The objects after it. *)
Definition after (k : known) (c : call) : option known :=
  match c with
  | CNewStr _ => Some (k ++ [Some KStr])
  | CNewTable _ _ a => Some (k ++ [Some (KTable (if a then true else false))])
  | CNewPoly => Some (k ++ [Some KPoly])
  | CUseStr i => if is_class k i is_str then Some k else None
  | CSetAlgo i a => if is_class k i is_table then Some (match a with Some _ => upd k i (Some (KTable true)) | None => k end) else None
  | CAdd i _ _ => if is_class k i is_table then Some k else None
  | CInterpolate i _ | CFactorise i | CFind i | CFindAll i _ => if is_class k i is_poly then Some k else None
  | CCopy _ | CAssign _ _ => None
  | CDestroy i => if is_class k i (fun _ => true) then Some (upd k i None) else None
  end.
Fixpoint proper (k : known) (l : list call) : option known :=
  match l with [] => Some k | c :: t => match after k c with Some k1 => proper k1 t | None => None end end.

(** How often a table that has an algorithm is given another one *)
Definition replaces (k : known) (c : call) : nat :=
  match c with
  | CSetAlgo i (Some _) => if is_class k i (fun c => match c with KTable true => true | _ => false end) then 1 else 0
  | _ => 0
  end.
Fixpoint replacements (k : known) (l : list call) : nat :=
  match l with [] => 0 | c :: t => replaces k c + match after k c with Some k1 => replacements k1 t | None => 0 end end.

(** The arrays not yet released *)
Definition live_blocks (s : store) : nat :=
  length (filter (fun b => match b with Live _ => true | Gone => false end) (s_heap s)).

(** The object refers to the array at [a]. *)
Definition holds (o : obj) (a : nat) : Prop :=
  match o with
  | OStr b p => a = b \/ a = p
  | OTable t st _ => a = t \/ exists s b p, st = Some (s, b, p) /\ (a = s \/ a = b \/ a = p)
  | OPoly ps fs _ => ps = Some a \/ fs = Some a
  | ODead => False
  end.
(** no copying *)
Definition no_copy (c : call) : Prop := match c with CCopy _ | CAssign _ _ => False | _ => True end.
