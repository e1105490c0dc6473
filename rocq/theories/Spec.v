(** Small, model independent specifications used by the property files. *)
From Coq Require Import ZArith List.
Import ListNotations.
Open Scope Z_scope.

(** [n] is the least natural number satisfying [P]. *)
Definition least (P : Z -> Prop) (n : Z) : Prop :=
  0 <= n /\ P n /\ forall m, 0 <= m -> P m -> n <= m.

(** The number written little-endian by a byte string:
    sum of n_i * 256^i. *)
Definition sum_z (l : list Z) : Z := fold_right Z.add 0 l.
Definition LE (l : list Z) : Z :=
  sum_z (map (fun p => snd p * 256 ^ Z.of_nat (fst p)) (combine (seq 0 (length l)) l)).
