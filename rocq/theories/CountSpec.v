(** Counting: all the vectors of field elements, and how the coefficients a run
    takes from the stream of the temporary key are laid out in one vector. *)
From Verif Require Import Base Spec NtlMiss HashBucketsModel HashBucketsSpec EopsiSpec.

(** all vectors of [n] numbers from 0 to p-1; CountProofs.vectors_all shows that
    each occurs exactly once and that there are p^n *)
Fixpoint vectors (p : Z) (n : nat) : list (list Z) :=
  match n with
  | O => [[]]
  | S k => flat_map (fun c => map (cons c) (vectors p k)) (map Z.of_nat (seq 0 (Z.to_nat p)))
  end.

(** [h] numbers from position [i] on *)
Definition slice (i h : nat) (cs : list Z) : list Z := firstn h (skipn i cs).
(** the coefficients of the two random polynomials of bucket [j] *)
Definition coefA (h j : nat) (cs : list Z) : list Z := slice (2 * h * j) h cs.
Definition coefB (h j : nat) (cs : list Z) : list Z := slice (2 * h * j + h) h cs.

(** the vector of all coefficients drawn with the temporary key [key] *)
Definition all_coeffs (sha : list Z -> list Z) (p : Z) (L D h : nat) (key : Z) : list Z :=
  concat (map (fun j => coeffsA sha p L D h key j ++ coeffsB sha p L D h key j) (seq 0 L)).

(** Values that buckets number [j] of both tables hold and that carry the pad are
    real data of both clients, in their own bucket: no dummy of one client met
    an element of the other one. *)
Definition no_dummy_met (al : halgo Z) (w : Z) (L : nat) (rawA rawB : list Z) (tA tB : hb Z) : Prop :=
  forall j RA RB v, (j < L)%nat -> contents tA j RA -> contents tB j RB ->
    (v = 0 -> w = 0) -> In (padded w v) RA -> In (padded w v) RB ->
    In v rawA /\ In v rawB /\ index_of al L (padded w v) = j.
