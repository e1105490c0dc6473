(** All the numbers that two data sets hold, each once, and the choices of a
    run: which bucket each number falls into, and the random field elements. *)
From Coq Require Import Reals.
From Verif Require Import Base Spec NtlMiss HashBucketsModel HashBucketsSpec EopsiSpec CountSpec DummySpec CherparsSpec.

Definition among (l : list Z) (v : Z) : bool := existsb (Z.eqb v) l.
(** first those that only A has, then the common ones, then those that only B has *)
Definition everyone (rawA rawB : list Z) : list Z :=
  filter (fun v => negb (among rawB v)) rawA ++ filter (among rawB) rawA ++ filter (fun v => negb (among rawA v)) rawB.

(** the buckets of all the numbers of both sets under a hash algorithm *)
Definition placing (al : halgo Z) (L : nat) (w : Z) (rawA rawB : list Z) : list nat :=
  map (fun v => index_of al L (padded w v)) (everyone rawA rawB).

(** every placing with every vector of [N] field elements *)
Definition outcomes (p : Z) (L N : nat) (rawA rawB : list Z) : list (list nat * list Z) :=
  list_prod (assignments L (length (everyone rawA rawB))) (vectors p N).
