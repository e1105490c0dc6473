(** The published MurmurHash3_x64_128 (A. Appleby, smhasher), written from its
    description: tail bytes of the last partial block are assembled
    little-endian into k1 (bytes 0-7) and k2 (bytes 8-14) and both are mixed in. *)
From Verif Require Import Base.
Definition rotl (x r : Z) : Z := (x mod 2 ^ (64 - r)) * 2 ^ r + x / 2 ^ (64 - r).
Definition m64 (x : Z) : Z := x mod 2 ^ 64.
Definition ref_c1 : Z := 0x87c37b91114253d5.
Definition ref_c2 : Z := 0x4cf5ad432745937f.
Definition ref_k1 k := m64 (rotl (m64 (k * ref_c1)) 31 * ref_c2).
Definition ref_k2 k := m64 (rotl (m64 (k * ref_c2)) 33 * ref_c1).
Definition ref_block (h : Z * Z) (k : Z * Z) : Z * Z :=
  let h1 := m64 (m64 (rotl (Z.lxor (fst h) (ref_k1 (fst k))) 27 + snd h) * 5 + 0x52dce729) in
  let h2 := m64 (m64 (rotl (Z.lxor (snd h) (ref_k2 (snd k))) 31 + h1) * 5 + 0x38495ab5) in
  (h1, h2).
Definition ref_fmix (k : Z) : Z :=
  let k := Z.lxor k (k / 2 ^ 33) in
  let k := m64 (k * 0xff51afd7ed558ccd) in
  let k := Z.lxor k (k / 2 ^ 33) in
  let k := m64 (k * 0xc4ceb9fe1a85ec53) in
  Z.lxor k (k / 2 ^ 33).
Definition ref_final (h : Z * Z) (len : Z) : Z * Z :=
  let h1 := Z.lxor (fst h) len in
  let h2 := Z.lxor (snd h) len in
  let h1 := m64 (h1 + h2) in
  let h2 := m64 (h2 + h1) in
  let h1 := ref_fmix h1 in
  let h2 := ref_fmix h2 in
  let h1 := m64 (h1 + h2) in
  (h1, m64 (h2 + h1)).
(** the i-th 16-byte block of a key as two little-endian words *)
Definition word (m : nat -> Z) (off n : nat) : Z := le_val (map m (seq off n)).
Definition key_block (m : nat -> Z) (i : nat) : Z * Z := (word m (16 * i) 8, word m (16 * i + 8) 8).
Definition ref_tail (m : nat -> Z) (off r : nat) (h : Z * Z) : Z * Z :=
  let h2 := if Nat.ltb 8 r then Z.lxor (snd h) (ref_k2 (word m (off + 8) (r - 8))) else snd h in
  let h1 := if Nat.ltb 0 r then Z.lxor (fst h) (ref_k1 (word m off (Nat.min r 8))) else fst h in
  (h1, h2).
Definition reference (m : nat -> Z) (seed : Z) (len : nat) : Z * Z :=
  let nb := (len / 16)%nat in
  let h := fold_left ref_block (map (key_block m) (seq 0 nb)) (seed, seed) in
  ref_final (ref_tail m (16 * nb) (len mod 16) h) (Z.of_nat len).
