(** What the parameters are for: putting [n] numbers into [h] buckets of
    capacity [l].  Under an ideal hash function every assignment of numbers to
    buckets is equally likely; probabilities are fractions of all
    assignments. *)
From Coq Require Import Reals.
From Verif Require Import Base CherparsModel.

(** all assignments of n numbers to h buckets: the lists of n bucket indices *)
Fixpoint assignments (h n : nat) : list (list nat) :=
  match n with
  | O => [[]]
  | S m => flat_map (fun a => map (fun b => b :: a) (seq 0 h)) (assignments h m)
  end.
(** the load of a bucket *)
Definition load (a : list nat) (b : nat) : nat := count_occ Nat.eq_dec a b.
(** some bucket receives at least l numbers *)
Definition crowded (h l : nat) (a : list nat) : bool :=
  existsb (fun b => Nat.leb l (load a b)) (seq 0 h).
(** the probability of that event *)
Definition probability (h n l : nat) : R :=
  (INR (length (filter (crowded h l) (assignments h n))) / INR (length (assignments h n)))%R.

(** Chernoff's bound, over all buckets, for mean load mu and capacity l *)
Definition chernoff (l n mu : R) : R :=
  (IZR (ceil (n / mu)) * (exp (l - mu) / Rpower (l / mu) l))%R.

(** options that end the program with exit code 1: a non-positive bucket size
    or exponent, a probability exponent not below -1/10000, -h *)
Definition refused (o : copt) : Prop :=
  match o with Cl z => (z < 1)%Z | Cn z => (z <= 0)%Z | Cp r => (- / 10000 <= r)%R | Cq => False | Ch => True end.
Definition no_n (o : copt) : Prop := match o with Cn _ => False | _ => True end.
(** the value in force: the last one given, else the default *)
Definition opt_l (o : copt) : option Z := match o with Cl z => Some z | _ => None end.
Definition opt_n (o : copt) : option Z := match o with Cn z => Some z | _ => None end.
Definition opt_p (o : copt) : option R := match o with Cp r => Some r | _ => None end.
Definition given {A} (f : copt -> option A) (default : A) (os : list copt) : A :=
  last (flat_map (fun o => match f o with Some z => [z] | None => [] end) os) default.
