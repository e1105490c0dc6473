(** Runs with any number of evaluation points (C128). *)
From Verif Require Import Base Spec HashBucketsModel PolySpec EopsiModel EopsiSpec.

(** everything [setting] asks for, except the number of points *)
Definition sized_run (sha : list Z -> list Z) (p : Z) (L h : nat) (al : halgo Z) (b : Z) (rawA rawB : list Z) : Prop :=
  setting sha p L h (2 * h + 1) al b rawA rawB.

(** [g] is the polynomial the requester finds in row [j]: of degree below the
    number of points, with the value t - q at each of them *)
Definition row_polynomial (sha : list Z -> list Z) (p : Z) (D : nat) (r : run_result) (j : nat) (g : list Z) : Prop :=
  is_poly p g /\ (length g <= D)%nat /\
  forall i, (i < D)%nat -> exists t q, entry (rr_t r) j i = Ok t /\ entry (rr_q r) j i = Ok q /\
    value p g (nth i (points sha p (num_bits p) D) 0) = (t - q) mod p.

(** t and q agree in row [j] *)
Definition zero_row (p : Z) (D : nat) (r : run_result) (j : nat) : Prop :=
  forall i t q, (i < D)%nat -> entry (rr_t r) j i = Ok t -> entry (rr_q r) j i = Ok q -> (t - q) mod p = 0.

(** [q] is what gets lost: of degree 2h - D with leading coefficient 2 (zero when there are enough points) *)
Definition lost_factor (h D : nat) (q : list Z) : Prop :=
  if Nat.leb D (2 * h) then length q = S (2 * h - D) /\ last q 0 = 2 else q = [].
