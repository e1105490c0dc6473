(** The dummies a client fills its table with, and where they end up. *)
From Verif Require Import Base Spec NtlMiss HashBucketsModel HashBucketsSpec EopsiSpec CountSpec.

(** the first [m] elements of the stream of [seed] *)
Definition dummies (sha : list Z -> list Z) (p seed : Z) (m : nat) : list Z :=
  map (fun i => key_stream sha p (num_bits p) seed (Z.of_nat i mod 2 ^ 64)) (seq 0 m).

(** places that the data [zs] leave free in bucket [j] of [L] buckets of
    capacity [h], and in all the buckets before [j] *)
Definition free (al : halgo Z) (L h : nat) (zs : list Z) (j : nat) : nat := (h - length (belonging al L j zs))%nat.
Definition free_before (al : halgo Z) (L h : nat) (zs : list Z) (j : nat) : nat :=
  list_sum (map (free al L h zs) (seq 0 j)).

(** bucket [j] filled up: its data, then the next dummies of [ds] that the
    buckets before it have not taken *)
Definition filled_up (al : halgo Z) (L h : nat) (zs ds : list Z) (j : nat) : list Z :=
  belonging al L j zs ++ slice (free_before al L h zs j) (free al L h zs j) ds.
