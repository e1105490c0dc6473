(** What the protocol computes, in plain arithmetic modulo p. *)
From Verif Require Import Base Spec NtlMiss StrIntModel HashBucketsModel HashBucketsSpec PRFSpec PolySpec.
From Coq Require Import Znumtheory.

(** product of (z - r) over a list of roots *)
Definition prod_value (p : Z) (rs : list Z) (z : Z) : Z := fold_right (fun r acc => (z - r) * acc) 1 rs mod p.
(** z^h + sum of c_i * z^i, for h coefficients c_i *)
Definition omega_value (p : Z) (cs : list Z) (z : Z) : Z := value p (cs ++ [1]) z.
(** PA * wA + PB * wB at z *)
Definition combined (p : Z) (ra rb ca cb : list Z) (z : Z) : Z :=
  (prod_value p ra z * omega_value p ca z + prod_value p rb z * omega_value p cb z) mod p.

(** the field element number [pos] of the stream of [key] *)
Definition key_stream (sha : list Z -> list Z) (p width key pos : Z) : Z := prf_value sha key pos width mod p.

(** positions in the stream of the temporary key, for tables of L buckets of
    h elements and D points: mask of cell (j,i), coefficient c of the j-th
    polynomial wA and wB *)
Definition mask_pos (D j i : nat) : Z := Z.of_nat (j * D + i) mod 2 ^ 64.
Definition omegaA_pos (L D h j c : nat) : Z := Z.of_nat (L * D + h * j + c) mod 2 ^ 64.
Definition omegaB_pos (L D h j c : nat) : Z := Z.of_nat (2 * L * D + h * j + c) mod 2 ^ 64.

(** the evaluation points: D elements of the stream of the constant seed 4 *)
Definition points (sha : list Z -> list Z) (p width : Z) (D : nat) : list Z :=
  map (fun j => key_stream sha p width 4 (Z.of_nat j)) (seq 0 D).

(** L x D matrix *)
Definition table2 {A} (L D : nat) (f : nat -> nat -> A) : list (list A) :=
  map (fun j => map (f j) (seq 0 D)) (seq 0 L).

(** pad width for b-bit data in the field of size p *)
Definition pad_width (p b : Z) : Z := num_bits p - b - 1.

(** a data element as a field element with a pad of w bits *)
Definition padded (w v : Z) : Z := v * 2 ^ w.

(** coefficients (without the leading 1) of the random polynomials of bucket j *)
Definition coeffsA (sha : list Z -> list Z) (p : Z) (L D h : nat) (key : Z) (j : nat) : list Z :=
  map (fun c => key_stream sha p (num_bits p) key (omegaA_pos L D h j c)) (seq 0 h).
Definition coeffsB (sha : list Z -> list Z) (p : Z) (L D h : nat) (key : Z) (j : nat) : list Z :=
  map (fun c => key_stream sha p (num_bits p) key (omegaB_pos L D h j c)) (seq 0 h).

(** the data as field elements *)
Definition padded_data (p b : Z) (raw : list Z) : list Z := map (padded (pad_width p b)) raw.
(** no bucket of L gets more than h of the elements *)
Definition fits (al : halgo Z) (L h : nat) (zs : list Z) : Prop :=
  forall j, (j < L)%nat -> (length (belonging al L j zs) <= h)%nat.
(** what operator[] of a table returns *)
Definition contents (t : hb Z) (j : nat) (R : list Z) : Prop := exists m, getBucket t j = Ok (mkMvec R m).

(** The conditions of a run: an odd prime field (NTL's sizes are longs), tables
    of L > 0 buckets of capacity h, at least 2h+1 points, data of b bits with
    b smaller than the field width, and data that fit the tables. *)
Record setting (sha : list Z -> list Z) (p : Z) (L h D : nat) (al : halgo Z) (b : Z) (rawA rawB : list Z) : Prop := mkSetting {
  st_sha : is_sha sha;
  st_prime : prime p;
  st_odd : 2 < p;
  st_long : num_bits p < 2 ^ 63;
  st_algo : algo_valid al;
  st_buckets : (0 < L)%nat;
  st_degree : (2 * h < D)%nat;
  st_width : 0 <= b < num_bits p;
  st_dataA : Forall (fun v => 0 <= v < 2 ^ b) rawA;
  st_dataB : Forall (fun v => 0 <= v < 2 ^ b) rawB;
  st_fitA : fits al L h (padded_data p b rawA);
  st_fitB : fits al L h (padded_data p b rawB)
}.
(** the evaluation points are pairwise different *)
Definition distinct_points (sha : list Z -> list Z) (p : Z) (D : nat) : Prop := NoDup (points sha p (num_bits p) D).

(** [z] is a common root of bucket j: an element the requester will see *)
Definition bucket_root (sha : list Z -> list Z) (p : Z) (L D h : nat) (key : Z) (tA tB : hb Z) (j : nat) (z : Z) : Prop :=
  exists RA RB, contents tA j RA /\ contents tB j RB /\
    combined p RA RB (coeffsA sha p L D h key j) (coeffsB sha p L D h key j) z = 0.

(** what a t/q computation takes from the stream of the temporary key: the
    mask of cell (j,i), coefficient c of the polynomial wA resp. wB of bucket j *)
Inductive use := MaskOf (j i : nat) | CoeffA (j c : nat) | CoeffB (j c : nat).
Definition use_ok (L D h : nat) (u : use) : Prop :=
  match u with MaskOf j i => (j < L /\ i < D)%nat | CoeffA j c | CoeffB j c => (j < L /\ c < h)%nat end.
Definition use_pos (L D h : nat) (u : use) : Z :=
  match u with MaskOf j i => mask_pos D j i | CoeffA j c => omegaA_pos L D h j c | CoeffB j c => omegaB_pos L D h j c end.

