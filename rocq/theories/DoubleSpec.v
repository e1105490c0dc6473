(** Doubles and the figures they approximate. *)
From Coq Require Import Reals.
From Verif Require Import Base Spec.
Open Scope R_scope.

(** an IEEE 754 double (finite; no bound on the exponent from above) *)
Definition is_double (x : R) : Prop := exists m e : Z, x = IZR m * powerRZ 2 e /\ (Z.abs m < 2 ^ 53)%Z /\ (-1074 <= e)%Z.
(** [y] is a double, and no double is closer to [x] *)
Definition nearest_double (x y : R) : Prop := is_double y /\ forall z, is_double z -> Rabs (y - x) <= Rabs (z - x).

(** 2^-53 *)
Definition half_ulp : R := / IZR (2 ^ 53).

Definition sum_r (l : list R) : R := fold_right Rplus 0 l.
Definition mean_r (l : list Z) : R := IZR (sum_z l) / INR (length l).
(** the squared deviations from the mean, divided by [n] *)
Definition spread (l : list Z) (n : nat) : R := sum_r (map (fun x => (IZR x - mean_r l) * (IZR x - mean_r l)) l) / INR n.
(** the integer part of the deviations *)
Definition int_deviation (l : list Z) (x d : Z) : Prop := IZR d <= Rabs (IZR x - mean_r l) < IZR d + 1.
(** the mean of the squares of integers *)
Definition mean_square (ds : list Z) : R := sum_r (map (fun d => IZR d * IZR d) ds) / INR (length ds).
