(** What a hash table with bounded buckets is supposed to do. *)
From Verif Require Import Base Spec HashBucketsModel.

(** the algorithms the table is used with: hash returns at least hashSize()
    bytes and hashSize() is positive *)
Definition algo_valid {T} (al : halgo T) : Prop :=
  (1 <= ha_size al)%nat /\ forall e, (ha_size al <= length (ha_hash al e))%nat.

(** bucket of an element: the digest as a little-endian number, modulo k *)
Definition index_of {T} (al : halgo T) (k : nat) (e : T) : nat :=
  Z.to_nat (LE (firstn (ha_size al) (ha_hash al e)) mod Z.of_nat k).

(** the elements of a list that belong to bucket i, in order *)
Definition belonging {T} (al : halgo T) (k i : nat) (l : list T) : list T :=
  filter (fun e => Nat.eqb (index_of al k e) i) l.

(** [n] successive draws from a generator, and its state afterwards *)
Fixpoint draws {T G} (gen : G -> T * G) (n : nat) (g : G) : list T * G :=
  match n with
  | O => ([], g)
  | S m => let '(x, g1) := gen g in let '(l, g2) := draws gen m g1 in (x :: l, g2)
  end.

(** number of elements in all buckets *)
Definition total_items {T} (h : hb T) : nat :=
  fold_right Nat.add 0%nat (map (fun b => length (mv_items b)) (hb_buckets h)).

Definition op_algo_valid {T} (o : @top T) : Prop :=
  match o with
  | TSetAlgo (Some al) => algo_valid al
  | TAddList l dim => (dim <= length l)%nat
  | _ => True
  end.

(** tables reachable by any history of public calls from construction *)
Definition reachable {T} (h : hb T) : Prop :=
  exists (G : Type) (gen : G -> T * G) k ml a0 h0 g0 g ops,
    match a0 with Some al => algo_valid al | None => True end /\
    new_hb k ml a0 = Ok h0 /\
    Forall op_algo_valid ops /\ run_table gen (h0, g0) ops = Ok (h, g).
