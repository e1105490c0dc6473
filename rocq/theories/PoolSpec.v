(** Vocabulary for C127. *)
From Verif Require Import Base Spec HashBucketsModel HashBucketsSpec EopsiModel PoolModel.

(** the tables of a program have usable hash algorithms, and its programmer
    never puts an element into table [t] by addToBucket *)
Definition usable (c : pcall) : Prop := match c with NewTable _ _ al => algo_valid al | _ => True end.
Definition spares (t : nat) (c : pcall) : Prop := match c with TableAddTo t' _ _ => t' <> t | _ => True end.
(** client [i] refers to table [t] *)
Definition refers (s : pool) (i t : nat) : Prop := exists m, nth_error (po_members s) i = Some m /\ me_table m = t.
(** the field element data of [bits] bits become in a party of field size [f]:
    moved up by the pad width, reduced modulo [p] *)
Definition moved_up (p f bits v : Z) : Z := (v * 2 ^ (num_bits f - bits - 1)) mod p.
(** the tables named in the construction of the clients, in order *)
Definition constructed_with (l : list pcall) : list nat :=
  flat_map (fun c => match c with NewMember t _ _ _ _ _ => [t] | _ => [] end) l.
