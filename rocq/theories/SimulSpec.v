(** What the simulator's helpers should compute. *)
From Verif Require Import Base.
From Coq Require Import Sorted.

(** how often a number occurs *)
Definition occurrences (v : Z) (l : list Z) : nat := count_occ Z.eq_dec l v.
(** no number twice, in increasing order *)
Definition increasing (l : list Z) : Prop := StronglySorted Z.lt l.
Definition common (a b : list Z) (v : Z) : Prop := In v a /\ In v b.
(** the different values among draws number k .. k+m-1 of a generator *)
Definition distinct_values (rb : nat -> Z) (k m : nat) : list Z := nodup Z.eq_dec (map rb (seq k m)).
