(** What the requester of an intersection receives for one bucket, as a
    function of the two buckets, the clients' masks and the values taken from
    the stream of the temporary key, which the requester is never told. *)
From Verif Require Import Base Spec NtlMiss StrIntModel HashBucketsModel HashBucketsSpec PRFSpec PolySpec EopsiSpec.

(** the values taken from that stream for one bucket: one mask per point and
    the coefficients of the two random polynomials *)
Record rnd := mkRnd { r_mask : list Z; r_wA : list Z; r_wB : list Z }.
Definition field_list (p : Z) (n : nat) (l : list Z) : Prop := length l = n /\ Forall (fun c => 0 <= c < p) l.
Definition rnd_ok (p : Z) (D h : nat) (r : rnd) : Prop :=
  field_list p D (r_mask r) /\ field_list p h (r_wA r) /\ field_list p h (r_wB r).

(** the row of t: computed by the server from the outsourced (masked) values;
    [zA], [zB]: the masks of the helper and of the requester at the points *)
Definition row_t (p : Z) (xs RA RB zA zB : list Z) (r : rnd) : list Z :=
  map (fun i => let x := nth i xs 0 in
    (nth i (r_mask r) 0 + (prod_value p RA x + nth i zA 0) * omega_value p (r_wA r) x
                        + (prod_value p RB x + nth i zB 0) * omega_value p (r_wB r) x) mod p) (seq 0 (length xs)).
(** the row of q: computed by the helper from the masks *)
Definition row_q (p : Z) (xs zA zB : list Z) (r : rnd) : list Z :=
  map (fun i => let x := nth i xs 0 in
    (nth i (r_mask r) 0 + nth i zA 0 * omega_value p (r_wA r) x + nth i zB 0 * omega_value p (r_wB r) x) mod p) (seq 0 (length xs)).

(** how often z is common to the two buckets *)
Definition common (R R' : list Z) (z : Z) : nat := Nat.min (count_occ Z.eq_dec R z) (count_occ Z.eq_dec R' z).

(** A value y of the helper's bucket polynomial at a point explains the stored
    (masked) value v and the entry q the requester was sent: v - y is a mask of
    the helper with which q = k + mask * a + zB * b.  [k], [a], [b]: the mask
    and the values of the random polynomials at the point, from the stream of
    the temporary key; [zB]: the requester's own mask. *)
Definition explains (p v q k zB a b y : Z) : Prop := 0 <= y < p /\ ((v - y) * a + k + zB * b - q) mod p = 0.
