(** Properties C01-C05: arithmetic helpers (ntlmiss.cpp).
    Statements use the model functions, [least] of Spec.v and plain arithmetic. *)
From Verif Require Import Base Spec Lib NtlMiss NtlMissProofs.

(** C01: blocks/bytes give the least sufficient number of blocks. *)
Theorem C01_blocks_least : forall bits k,
  0 <= bits -> 0 < k -> bits + k - 1 < 2 ^ 64 ->
  exists n, blocks bits k = Ok n /\ least (fun n => bits <= n * k) n.
Proof. exact blocks_least_l. Qed.
Print Assumptions C01_blocks_least.

Theorem C01_bytes_least : forall bits,
  0 <= bits -> bits + 7 < 2 ^ 64 ->
  exists n, bytes_of_bits bits = Ok n /\ least (fun n => bits <= n * 8) n.
Proof. intros bits H1 H2. exact (blocks_least_l bits 8 H1 eq_refl ltac:(lia)). Qed.
Print Assumptions C01_bytes_least.

Theorem C01_bytes_of_zz_least : forall z, least (fun n => Z.abs z < 256 ^ n) (bytes_of_zz z).
Proof. exact bytes_of_zz_least_l. Qed.
Print Assumptions C01_bytes_of_zz_least.

Theorem C01_blocks_zero_divides : forall bits, blocks bits 0 = UB DivByZero.
Proof. exact blocks_zero_l. Qed.
Print Assumptions C01_blocks_zero_divides.

(** whenever the addition wraps the result is insufficient *)
Theorem C01_blocks_wrap_insufficient : forall bits k,
  0 <= bits < 2 ^ 64 -> 0 < k < 2 ^ 64 -> 2 ^ 64 <= bits + k - 1 ->
  exists n, blocks bits k = Ok n /\ n * k < bits.
Proof. exact blocks_wrap_l. Qed.
Print Assumptions C01_blocks_wrap_insufficient.

Example C01_nonvacuous : blocks 17 8 = Ok 3 /\ bytes_of_zz 65536 = 3 /\ blocks (2 ^ 64 - 1) 8 = Ok 0.
Proof. repeat split. Qed.

(** C02: log2 is the floor of the logarithm and terminates. *)
Theorem C02_log2_floor : forall z,
  1 <= z -> num_bits z < 2 ^ 64 ->
  exists N, forall fuel, (N <= fuel)%nat ->
  exists l, log2 fuel z = Ok l /\ 2 ^ l <= z < 2 ^ (l + 1).
Proof. exact log2_floor_l. Qed.
Print Assumptions C02_log2_floor.

Theorem C02_log2_small : forall z fuel, z <= 1 -> log2 (S fuel) z = Ok 0.
Proof. exact log2_small_l. Qed.
Print Assumptions C02_log2_small.

Example C02_nonvacuous : log2 20 1000 = Ok 9 /\ log2 1 (-5) = Ok 0.
Proof. split; reflexivity. Qed.

(** C03: padding is undone by the shift, passes the filter, and is injective. *)
Theorem C03_zeroPad_roundtrip : forall z k,
  z <> 0 -> 0 <= k < 2 ^ 63 ->
  ntl_shr (zeroPad z k) k = z /\ k <= countLeadingZeros (zeroPad z k).
Proof. exact zeroPad_roundtrip_l. Qed.
Print Assumptions C03_zeroPad_roundtrip.

Theorem C03_zeroPad_value : forall z k, 0 <= k < 2 ^ 63 -> zeroPad z k = z * 2 ^ k.
Proof. exact zeroPad_mul_l. Qed.
Print Assumptions C03_zeroPad_value.

Theorem C03_zeroPad_injective : forall z1 z2 k,
  0 <= k < 2 ^ 63 -> zeroPad z1 k = zeroPad z2 k -> z1 = z2.
Proof. exact zeroPad_inj_l. Qed.
Print Assumptions C03_zeroPad_injective.

(** countLeadingZeros (trailing zeros, in fact): largest power of two dividing *)
Theorem C03_countLeadingZeros_spec : forall z k, z <> 0 -> 0 <= k ->
  (k <= countLeadingZeros z <-> (2 ^ k | z)).
Proof. exact num_twos_ge. Qed.
Print Assumptions C03_countLeadingZeros_spec.

Example C03_nonvacuous : zeroPad 5 10 = 5120 /\ countLeadingZeros 5120 = 10 /\ ntl_shr 5120 10 = 5.
Proof. repeat split. Qed.

(** C04: the padded zero has no trailing zeros according to countLeadingZeros,
    so it reaches the pad size k only for k = 0. *)
Theorem C04_zero_fails_filter : forall k, 0 <= k ->
  (k <= countLeadingZeros (zeroPad 0 k) <-> k = 0).
Proof.
  exact (fun k H => ltac:(rewrite zeroPad_zero_l; change (countLeadingZeros 0) with 0; lia)).
Qed.
Print Assumptions C04_zero_fails_filter.
Example C04_nonvacuous : countLeadingZeros (zeroPad 0 7) = 0. Proof. reflexivity. Qed.

(** C05: zeroPadTo *)
Theorem C05_zeroPadTo_exact : forall z padsize,
  z <> 0 -> num_bits z < padsize -> padsize < 2 ^ 32 ->
  (exists e, 0 <= e /\ zeroPadTo z padsize = z * 2 ^ e) /\
  num_bits (zeroPadTo z padsize) = padsize - 1.
Proof. exact zeroPadTo_exact_l. Qed.
Print Assumptions C05_zeroPadTo_exact.

Theorem C05_zeroPadTo_unchanged : forall z padsize,
  0 <= padsize < 2 ^ 32 -> num_bits z < 2 ^ 32 ->
  (z = 0 \/ padsize <= num_bits z) -> zeroPadTo z padsize = z.
Proof. exact zeroPadTo_same_l. Qed.
Print Assumptions C05_zeroPadTo_unchanged.

(** the bound on padsize is needed: the shift is computed in 32 bits *)
Theorem C05_zeroPadTo_truncates : zeroPadTo 1 (2 ^ 32 + 2) = 1.
Proof. exact zeroPadTo_trunc_l. Qed.
Print Assumptions C05_zeroPadTo_truncates.

Example C05_nonvacuous : zeroPadTo 5 10 = 320 /\ num_bits 320 = 9 /\ num_bits 5 = 3.
Proof. repeat split. Qed.

(** C73: conversion of arrays and vectors to vec_ZZ_p *)
Theorem C73_array_copy : forall zp a dim,
  (dim <= length a)%nat ->
  exists v, array2VecZZp_into zp (Some a) dim = Ok v /\ array2VecZZp (Some a) dim = Ok v /\
            length v = dim /\ forall i, (i < dim)%nat -> nth_error v i = nth_error a i.
Proof. exact array2VecZZp_copy_l. Qed.
Print Assumptions C73_array_copy.

Theorem C73_array_too_short : forall zp a dim,
  (length a < dim)%nat ->
  array2VecZZp_into zp (Some a) dim = UB OutOfBounds /\ array2VecZZp (Some a) dim = UB OutOfBounds.
Proof. exact array2VecZZp_short_l. Qed.
Print Assumptions C73_array_too_short.

Theorem C73_array_null : forall zp dim,
  array2VecZZp_into zp None dim = Ok zp /\ array2VecZZp None dim = Ok [].
Proof. exact array2VecZZp_null_l. Qed.
Print Assumptions C73_array_null.

Theorem C73_vector_copy : forall zp v,
  vector2VecZZp_into zp v = Ok v /\ vector2VecZZp v = Ok v.
Proof. exact vector2VecZZp_copy_l. Qed.
Print Assumptions C73_vector_copy.

Example C73_nonvacuous :
  array2VecZZp_into [9; 9; 9] (Some [1; 2; 3; 4]) 2 = Ok [1; 2] /\
  array2VecZZp_into [9] (Some [1]) 2 = UB OutOfBounds /\
  array2VecZZp_into [9] None 2 = Ok [9] /\ vector2VecZZp_into [9] [1; 2] = Ok [1; 2].
Proof. repeat split. Qed.
