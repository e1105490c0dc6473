(** When a run may lack memory. *)
From Verif Require Import Base HashBucketsModel AllocModel AllocSpec.

(** some request from [m] on is refused, or a bucket of [h] elements with the
    reserve for random ones is longer than a std::vector may be *)
Definition short_of_memory (ok : nat -> bool) (pol : policy) (h : nat) (m : mem) : Prop :=
  (exists j, (m_tries m <= j)%nat /\ ok j = false) \/ p_max pol < reserved h \/ p_max pol <= Z.of_nat h.
