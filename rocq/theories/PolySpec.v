(** Polynomials over the integers modulo p, as coefficient lists (lowest
    degree first), and what a factorisation is. *)
From Verif Require Import Base Spec.
From Coq Require Import Znumtheory.

Definition coef (f : list Z) (i : nat) : Z := nth i f 0.

(** coefficients reduced, leading one not zero *)
Definition is_poly (p : Z) (f : list Z) : Prop :=
  Forall (fun c => 0 <= c < p) f /\ last f 1 <> 0.

(** sum of c_i * x^i modulo p *)
Definition value (p : Z) (f : list Z) (x : Z) : Z :=
  sum_z (map (fun i => coef f i * x ^ Z.of_nat i) (seq 0 (length f))) mod p.

(** degree (0 for the zero polynomial too) and monic *)
Definition degree (f : list Z) : nat := length f - 1.
Definition monic (p : Z) (f : list Z) : Prop := is_poly p f /\ f <> [] /\ last f 0 = 1.

(** [h] is the product of [f] and [g]: the k-th coefficient is the
    convolution sum *)
Definition conv (f g : list Z) (k : nat) : Z :=
  sum_z (map (fun i => coef f i * coef g (k - i)) (seq 0 (S k))).
Definition is_product (p : Z) (f g h : list Z) : Prop :=
  forall k, (coef h k - conv f g k) mod p = 0.

Fixpoint is_power (p : Z) (g : list Z) (e : nat) (h : list Z) : Prop :=
  match e with
  | O => h = [1]
  | S e' => exists h', is_poly p h' /\ is_power p g e' h' /\ is_product p g h' h
  end.
Fixpoint is_product_of_powers (p : Z) (l : list (list Z * Z)) (h : list Z) : Prop :=
  match l with
  | [] => h = [1]
  | (g, e) :: t => exists a b, is_poly p a /\ is_poly p b /\
      is_power p g (Z.to_nat e) a /\ is_product_of_powers p t b /\ is_product p a b h
  end.

(** irreducible: of positive degree, and not a product of two polynomials of
    positive degree *)
Definition irreducible (p : Z) (g : list Z) : Prop :=
  (1 <= degree g)%nat /\
  ~ exists a b, is_poly p a /\ is_poly p b /\ (1 <= degree a)%nat /\ (1 <= degree b)%nat /\ is_product p a b g.

(** the documented result of NTL's factoring functions on a monic [f] *)
Definition is_factorisation (p : Z) (f : list Z) (l : list (list Z * Z)) : Prop :=
  Forall (fun ge => monic p (fst ge) /\ irreducible p (fst ge) /\ 1 <= snd ge) l /\
  NoDup (map fst l) /\
  is_product_of_powers p l f.
Definition factors_correctly (p : Z) (fact : nat -> list Z -> list (list Z * Z)) : Prop :=
  forall k f, monic p f -> is_factorisation p f (fact k f).

(** [z] is a field element that is a root of f *)
Definition root (p : Z) (f : list Z) (z : Z) : Prop := 0 <= z < p /\ value p f z = 0.

(** [vs]: the roots of [f] that carry the pad (a multiple of 2^pad, and not
    zero unless pad = 0), each once, without their pad *)
Definition padded_roots (p pad : Z) (f vs : list Z) : Prop :=
  exists zs, NoDup zs /\
    (forall z, In z zs <-> root p f z /\ (2 ^ pad | z) /\ (z = 0 -> pad = 0)) /\
    vs = map (fun z => z / 2 ^ pad) zs.
