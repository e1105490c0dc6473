(** Properties C21-C24: MurmurHash3. *)
From Verif Require Import Base Spec Lib MurmurModel MurmurSpec MurmurProofs MurmurTrunc.

(** C21, part 1: whatever the element and the seed, hash(n) reads behind the
    terminating NUL of the decimal text. *)
Theorem C21_hash_reads_out_of_bounds : forall seed n, 0 <= n ->
  murmur_hash no_foreign seed n 0 = UB OutOfBounds.
Proof. exact hash_out_of_bounds_l. Qed.
Print Assumptions C21_hash_reads_out_of_bounds.

(** C21, part 2: for an element of at least four digits (and a text short
    enough for 4*length to be an int) the digest depends on the foreign bytes. *)
Theorem C21_digest_depends_on_foreign_memory : forall seed n,
  0 <= seed < 2 ^ 32 -> 1000 <= n -> Z.of_nat (4 * length (dec_text n)) < 2 ^ 31 ->
  exists f f' d d', (forall i, is_byte (f i)) /\ (forall i, is_byte (f' i)) /\
    murmur_hash (some_foreign f) seed n 0 = Ok d /\ murmur_hash (some_foreign f') seed n 0 = Ok d' /\ d <> d'.
Proof. exact foreign_matters_l. Qed.
Print Assumptions C21_digest_depends_on_foreign_memory.

Example C21_nonvacuous : dec_text 1234567 = [49;50;51;52;53;54;55] /\ Z.of_nat (4 * length (dec_text 1234567)) < 2 ^ 31.
Proof. split; reflexivity. Qed.

(** the decimal text is what it should be: the digits, most significant first *)
Theorem C21_decimal_text : forall n, 0 <= n ->
  fold_left (fun v c => 10 * v + (c - 48)) (dec_text n) 0 = n /\
  Forall (fun c => 48 <= c <= 57) (dec_text n).
Proof. exact dec_text_value. Qed.
Print Assumptions C21_decimal_text.

(** C22: on total memory only full blocks and, for residues 1 and 9, one tail
    byte determine the digest. *)
Theorem C22_tail_ignored : forall m m' seed len,
  (forall j, (j < len / 16 * 16)%nat -> m j = m' j) ->
  (len mod 16 = 1 -> m (len / 16 * 16) = m' (len / 16 * 16))%nat ->
  (len mod 16 = 9 -> m (len / 16 * 16 + 8) = m' (len / 16 * 16 + 8))%nat ->
  x64_128 (fun j => Ok (m j)) seed len = x64_128 (fun j => Ok (m' j)) seed len.
Proof. exact tail_ignored_l. Qed.
Print Assumptions C22_tail_ignored.

Theorem C22_agrees_with_published : forall m seed len, 0 <= seed < 2 ^ 32 -> (len mod 16 <= 1)%nat ->
  x64_128 (fun j => Ok (m j)) seed len = Ok (reference m seed len).
Proof. exact agrees_l. Qed.
Print Assumptions C22_agrees_with_published.

Theorem C22_differs_from_published : forall seed len,
  0 <= seed < 2 ^ 32 -> Z.of_nat len < 2 ^ 31 -> (2 <= len mod 16)%nat ->
  exists m, (forall i, is_byte (m i)) /\ x64_128 (fun j => Ok (m j)) seed len <> Ok (reference m seed len).
Proof. exact differs_l. Qed.
Print Assumptions C22_differs_from_published.

(** the reference is the published function: its value on the empty key with
    seed 0 and on "hello" (smhasher/mmh3 test vector) *)
Example C22_reference_vectors :
  reference (fun _ => 0) 0 0 = (0, 0) /\
  reference (fun i => nth i [104;101;108;108;111] 0) 0 5 = (0xcbd8a7b341bd9b02, 0x5b1e906a48ae1d19).
Proof. split; vm_compute; reflexivity. Qed.

(** C23: elements with the same number d <= 3 of digits share the digest, for
    every seed and whatever (readable) bytes lie behind the text. *)
Theorem C23_short_elements_collide : forall foreign seed n n' d, (1 <= d <= 3)%nat ->
  (forall i, exists v, foreign i = Ok v) ->
  0 <= n < 10 ^ Z.of_nat d -> 0 <= n' < 10 ^ Z.of_nat d ->
  (d = 1%nat \/ 10 ^ (Z.of_nat d - 1) <= n /\ 10 ^ (Z.of_nat d - 1) <= n') ->
  exists g, murmur_hash foreign seed n 0 = Ok g /\ murmur_hash foreign seed n' 0 = Ok g.
Proof.
  exact (fun foreign seed n n' d Hd F Hn Hn' Hlo =>
    short_collide_l foreign seed n n' d Hd
      (dec_text_length_unique n d (proj1 Hd) (proj1 Hn) (match Hlo with or_introl e => or_introl e | or_intror h => or_intror (proj1 h) end) (proj2 Hn))
      (dec_text_length_unique n' d (proj1 Hd) (proj1 Hn') (match Hlo with or_introl e => or_introl e | or_intror h => or_intror (proj2 h) end) (proj2 Hn'))
      F).
Qed.
Print Assumptions C23_short_elements_collide.

Example C23_nonvacuous : exists g, murmur_hash (some_foreign (fun _ => 7)) 42 123 0 = Ok g /\ murmur_hash (some_foreign (fun _ => 7)) 42 987 0 = Ok g.
Proof. eexists; split; vm_compute; reflexivity. Qed.

(** C24: keys of equal length that agree on all of the first len bytes except
    inside one full block have different digests. *)
Theorem C24_one_block_collision_free : forall m m' seed len b h h',
  (forall i, is_byte (m i)) -> (forall i, is_byte (m' i)) -> 0 <= seed < 2 ^ 32 ->
  Z.of_nat len < 2 ^ 31 -> (b < len / 16)%nat ->
  (forall j, (j < len)%nat -> (j < 16 * b \/ 16 * b + 16 <= j)%nat -> m j = m' j) ->
  (exists j, (16 * b <= j < 16 * b + 16)%nat /\ m j <> m' j) ->
  x64_128 (fun j => Ok (m j)) seed len = Ok h -> x64_128 (fun j => Ok (m' j)) seed len = Ok h' ->
  h <> h'.
Proof. exact one_block_digest_l. Qed.
Print Assumptions C24_one_block_collision_free.

(** the stored 16 bytes determine the two words *)
Theorem C24_digest_bytes_injective : forall h h', u128 h -> u128 h' -> digest h = digest h' -> h = h'.
Proof. exact digest_inj. Qed.
Print Assumptions C24_digest_bytes_injective.

(** the final mix is a bijection on 64-bit words *)
Theorem C24_final_mix_bijective :
  (forall x y, 0 <= x < 2 ^ 64 -> 0 <= y < 2 ^ 64 -> fmix64 x = fmix64 y -> x = y) /\
  (forall y, 0 <= y < 2 ^ 64 -> exists x, 0 <= x < 2 ^ 64 /\ fmix64 x = y).
Proof. exact (conj fmix64_inj fmix64_surj). Qed.
Print Assumptions C24_final_mix_bijective.

Example C24_nonvacuous :
  exists h h', x64_128 (fun j => Ok (nth j (repeat 1 16 ++ repeat 2 16) 0)) 7 32 = Ok h /\
               x64_128 (fun j => Ok (nth j (repeat 1 16 ++ repeat 2 15 ++ [3]) 0)) 7 32 = Ok h' /\ h <> h'.
Proof. do 2 eexists. split; [vm_compute; reflexivity|]. split; [vm_compute; reflexivity|]. discriminate. Qed.

(** C89: the truncation argument of hash(n, len), d the number of digits of n.
    None (0), or one that is not smaller than d, is no truncation at all. *)
Theorem C89_no_truncation : forall foreign seed n len, (len = 0 \/ length (dec_text n) <= len)%nat ->
  murmur_hash foreign seed n len = murmur_hash foreign seed n 0.
Proof. exact trunc_none. Qed.
Print Assumptions C89_no_truncation.

(** with 0 < len < d the call stays inside the text (and its NUL) exactly if
    4 * len <= d + 1; the digest is then that of the first 4 * len characters:
    nothing behind the text takes part *)
Theorem C89_truncated_safe : forall seed n len, (0 < len < length (dec_text n))%nat ->
  ((4 * len <= length (dec_text n) + 1)%nat <-> murmur_hash no_foreign seed n len <> UB OutOfBounds) /\
  ((4 * len <= length (dec_text n) + 1)%nat -> exists h,
     x64_128 (fun j => Ok (nth j (dec_text n) 0)) seed (4 * len) = Ok h /\
     forall foreign, murmur_hash foreign seed n len = Ok (digest h)).
Proof.
  intros seed n len H.
  assert (G : (4 * len <= length (dec_text n) + 1)%nat -> exists h,
     x64_128 (fun j => Ok (nth j (dec_text n) 0)) seed (4 * len) = Ok h /\
     forall foreign, murmur_hash foreign seed n len = Ok (digest h)).
  { intros Hs. rewrite x64_total. eexists. split; [reflexivity|]. intros foreign.
    rewrite trunc_total by assumption. rewrite x64_total. reflexivity. }
  split; [|exact G]. split.
  - intros Hs. destruct (G Hs) as [h [_ E]]. rewrite E. discriminate.
  - intros N. destruct (Nat.le_gt_cases (4 * len) (length (dec_text n) + 1)) as [L|L]; [exact L|].
    exfalso. apply N. apply trunc_out; assumption.
Qed.
Print Assumptions C89_truncated_safe.

(** numbers whose first 16 * (len / 4) digits agree share the truncated digest;
    for len < 4 that is every number of at least 4 * len - 1 digits *)
Theorem C89_truncated_collide : forall foreign foreign' seed n n' len,
  (0 < len < length (dec_text n))%nat -> (0 < len < length (dec_text n'))%nat ->
  (4 * len <= length (dec_text n) + 1)%nat -> (4 * len <= length (dec_text n') + 1)%nat ->
  firstn (16 * (len / 4)) (dec_text n) = firstn (16 * (len / 4)) (dec_text n') ->
  murmur_hash foreign seed n len = murmur_hash foreign' seed n' len.
Proof. exact trunc_prefix. Qed.
Print Assumptions C89_truncated_collide.

(** with len a multiple of four it is the published MurmurHash3_x64_128 of the
    first 4 * len digits *)
Theorem C89_truncated_published : forall foreign seed n len, 0 <= seed < 2 ^ 32 ->
  (0 < len < length (dec_text n))%nat -> (4 * len <= length (dec_text n) + 1)%nat -> (len mod 4 = 0)%nat ->
  murmur_hash foreign seed n len = Ok (digest (reference (fun j => nth j (dec_text n) 0) seed (4 * len))).
Proof. exact trunc_published. Qed.
Print Assumptions C89_truncated_published.

Example C89_nonvacuous :
  murmur_hash no_foreign 42 1234567 2 = murmur_hash no_foreign 42 7654321098 2 /\
  murmur_hash no_foreign 42 1234567 3 = UB OutOfBounds /\
  murmur_hash no_foreign 42 1234567 7 = murmur_hash no_foreign 42 1234567 0 /\
  (exists d, murmur_hash no_foreign 42 1234567890123456789 4 = Ok d /\ length d = 16%nat).
Proof.
  split; [vm_compute; reflexivity|]. split; [vm_compute; reflexivity|]. split; [vm_compute; reflexivity|].
  eexists. split; [vm_compute; reflexivity|reflexivity].
Qed.
