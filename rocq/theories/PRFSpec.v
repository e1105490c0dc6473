(** Specification of the generators: a counter-mode/chained hash stream. *)
From Verif Require Import Base Spec.

(** the byte string hashed first: the bytes of |seed| (fewest sufficient,
    least significant first), then the 8 bytes of the index *)
Definition byte_count (z : Z) : nat := Z.to_nat ((num_bits z + 7) / 8).
Definition hash_input (seed index : Z) : list Z :=
  le_bytes (byte_count seed) (Z.abs seed) ++ le_bytes 8 index.

(** sha(x) ++ sha(sha(x)) ++ ... (m digests) *)
Fixpoint chain (sha : list Z -> list Z) (x : list Z) (m : nat) : list Z :=
  match m with O => [] | S k => sha x ++ chain sha (sha x) k end.

(** the generator's value: the first ceil(bits/8) bytes of the chain, read
    little-endian, reduced to [bits] bits *)
Definition prf_value (sha : list Z -> list Z) (seed index bits : Z) : Z :=
  let n := Z.to_nat ((bits + 7) / 8) in
  LE (firstn n (chain sha (hash_input seed index) n)) mod 2 ^ bits.

(** the width ZZpPRF asks for *)
Definition zp_width (modulo bits : Z) : Z :=
  if bits =? 0 then num_bits modulo else Z.min bits (num_bits modulo).

(** what a digest function is *)
Definition is_sha (sha : list Z -> list Z) : Prop :=
  forall x, length (sha x) = 20%nat /\ Forall is_byte (sha x).
