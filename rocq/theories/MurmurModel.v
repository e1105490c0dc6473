(** Model of src/libeopsi/murmurhash3.cpp: the x64 128-bit variant, which is
    the only one the library calls, and MurmurHash3::hash. *)
From Verif Require Import Base HashBucketsModel.

(** murmurhash3.cpp:36-38 *)
Definition rotl64 (x r : Z) : Z := Z.lor (w64 (Z.shiftl x r)) (Z.shiftr x (64 - r)).

(** murmurhash3.cpp:73-82 *)
Definition fmix64 (k0 : Z) : Z :=
  let k1 := Z.lxor k0 (Z.shiftr k0 33) in
  let k2 := w64 (k1 * 0xff51afd7ed558ccd) in
  let k3 := Z.lxor k2 (Z.shiftr k2 33) in
  let k4 := w64 (k3 * 0xc4ceb9fe1a85ec53) in
  Z.lxor k4 (Z.shiftr k4 33).

(** murmurhash3.cpp:314-315 *)
Definition c1 : Z := 0x87c37b91114253d5.
Definition c2 : Z := 0x4cf5ad432745937f.

(** murmurhash3.cpp:325-328 and 400-403 (h1 side), 334-337 and 372-375 (h2 side) *)
Definition mix_k1 (k1 : Z) : Z := w64 (rotl64 (w64 (k1 * c1)) 31 * c2).
Definition mix_k2 (k2 : Z) : Z := w64 (rotl64 (w64 (k2 * c2)) 33 * c1).

(** murmurhash3.cpp:325-341: one block *)
Definition block_step (h : Z * Z) (k : Z * Z) : Z * Z :=
  let '(h1, h2) := h in
  let '(k1, k2) := k in
  let h1 := Z.lxor h1 (mix_k1 k1) in
  let h1 := rotl64 h1 27 in
  let h1 := w64 (h1 + h2) in
  let h1 := w64 (h1 * 5 + 0x52dce729) in
  let h2 := Z.lxor h2 (mix_k2 k2) in
  let h2 := rotl64 h2 31 in
  let h2 := w64 (h2 + h1) in
  let h2 := w64 (h2 * 5 + 0x38495ab5) in
  (h1, h2).

(** murmurhash3.cpp:411-420: finalisation; [len] is a non-negative int *)
Definition finalise (h : Z * Z) (len : Z) : Z * Z :=
  let '(h1, h2) := h in
  let h1 := Z.lxor h1 len in
  let h2 := Z.lxor h2 len in
  let h1 := w64 (h1 + h2) in
  let h2 := w64 (h2 + h1) in
  let h1 := fmix64 h1 in
  let h2 := fmix64 h2 in
  let h1 := w64 (h1 + h2) in
  let h2 := w64 (h2 + h1) in
  (h1, h2).

Section Key.
(** [rd i] reads the byte at address key + i. *)
Variable rd : nat -> res Z.

(** murmurhash3.cpp:54-56: getblock64(blocks, i): 8 bytes, little-endian (x86-64) *)
Definition getblock64 (i : nat) : res Z :=
  do bs <- mapM rd (seq (8 * i) 8); Ok (le_val bs).

(** murmurhash3.cpp:321-342 *)
Definition body (nblocks : nat) (h : Z * Z) : res (Z * Z) :=
  for_up nblocks 0 (fun i h =>
    do k1 <- getblock64 (i * 2 + 0);
    do k2 <- getblock64 (i * 2 + 1);
    Ok (block_step h (k1, k2))) h.

(** murmurhash3.cpp:346-407: every case ends with break, so of the bytes
    read only those of cases 9 and 1 reach h2/h1; in the other cases k1/k2
    are computed and dropped. *)
Definition tail (nblocks : nat) (r : nat) (h : Z * Z) : res (Z * Z) :=
  let '(h1, h2) := h in
  match r with
  | O => Ok (h1, h2)
  | 9%nat => do t <- rd (nblocks * 16 + 8); Ok (h1, Z.lxor h2 (mix_k2 t))
  | 1%nat => do t <- rd (nblocks * 16 + 0); Ok (Z.lxor h1 (mix_k1 t), h2)
  | S q => do t <- rd (nblocks * 16 + q); Ok (h1, h2)   (* byte read, value dropped *)
  end.

(** murmurhash3.cpp:307-424: the two 64-bit words of the digest.  [seed] is a uint32_t. *)
Definition x64_128 (seed : Z) (len : nat) : res (Z * Z) :=
  let nblocks := (len / 16)%nat in
  do h <- body nblocks (seed, seed);
  do h <- tail nblocks (len mod 16)%nat h;
  Ok (finalise h (Z.of_nat len)).

(** lines 422-423: the words stored in out, as bytes *)
Definition digest (h : Z * Z) : list Z := le_bytes 8 (fst h) ++ le_bytes 8 (snd h).
End Key.

(** Decimal text written by [stream << n] for the representative of a ZZ_p
    (NTL/iostream): characters '0'..'9', most significant first. *)
Fixpoint dec_digits (fuel : nat) (n : Z) (acc : list Z) : list Z :=
  match fuel with
  | O => acc
  | S f => let acc' := (48 + n mod 10) :: acc in
           if n / 10 =? 0 then acc' else dec_digits f (n / 10) acc'
  end.
Definition dec_text (n : Z) : list Z := dec_digits (S (Z.to_nat (num_bits n))) n [].

(** The memory around zzString.c_str(): the text, a NUL, then [foreign]
    (whatever lies behind the string's buffer). *)
Definition string_memory (text : list Z) (foreign : nat -> res Z) (i : nat) : res Z :=
  if Nat.ltb i (length text) then aget text i
  else if Nat.eqb i (length text) then Ok 0
  else foreign i.
(** the C++ rule: nothing may be read behind the terminating NUL *)
Definition no_foreign (i : nat) : res Z := UB OutOfBounds.
(** what the hardware does: some byte is there *)
Definition some_foreign (f : nat -> Z) (i : nat) : res Z := Ok (f i).

(** murmurhash3.cpp:452-462.  [len] is the optional truncation argument
    (0 = none).  The int conversion of 4*truncLen is exact below 2^31. *)
Definition murmur_hash (foreign : nat -> res Z) (seed n : Z) (len : nat) : res (list Z) :=
  let text := dec_text n in
  let truncLen := if Nat.ltb 0 len && Nat.ltb len (length text) then len else length text in
  do h <- x64_128 (string_memory text foreign) seed (4 * truncLen);
  Ok (digest h).
