(** Properties of the hash objects and of the storage of the generators *)
From Coq Require Import Lia.
From Verif Require Import Base Spec Lib NtlMiss MurmurModel ShaModel ShaSpec ShaProofs ShaLife ShaFlavour.

(** a digest function for the examples *)
Definition ex_dig (k : kind) (m : list Z) : list Z :=
  match k with KSha1 => repeat (Z.of_nat (length m)) 20 | KSha256 => repeat (Z.of_nat (length m) + 1) 32 end.
Lemma ex_dig_sizes : digest_sizes ex_dig.
Proof. intros m. split; apply repeat_length. Qed.

(** C74: one call *)
Theorem C74_hash_is_the_digest : forall dig h0 fl c,
  digest_sizes dig -> call_ok c ->
  exists h o h1 p m,
    new_sha h0 fl = Ok (h, o) /\ hashSize o = digest_len fl /\
    exec_call dig h o c = Ok (h1, p) /\ call_text c m /\
    read_bytes h1 p (Z.to_nat (hashSize o)) = Ok (digest_of dig fl m).
Proof.
  intros dig h0 fl c HD C. rewrite new_sha_eq.
  destruct (exec_call_ok dig HD _ _ c (new_sha_live h0 fl) C) as [h1 [m [E [L [T R]]]]].
  exists (built h0 fl), (sha_at (length h0) fl), h1, (so_last (sha_at (length h0) fl)), m. auto.
Qed.
Print Assumptions C74_hash_is_the_digest.

(** the text of an element determines the element, so untruncated inputs differ *)
Theorem C74_decimal_faithful : forall n1 n2 t1 t2,
  decimal n1 t1 -> decimal n2 t2 -> (n1 = n2 <-> t1 = t2).
Proof. exact decimal_unique_l. Qed.
Print Assumptions C74_decimal_faithful.

Theorem C74_bytes_null : forall dig h o str len,
  str = None \/ len = 0%nat -> hash_bytes dig h o str len = Ok (h, None).
Proof. exact hash_bytes_null_l. Qed.
Print Assumptions C74_bytes_null.

Theorem C74_bytes : forall dig h0 fl h o a len m,
  digest_sizes dig -> new_sha h0 fl = Ok (h, o) -> (0 < len)%nat -> read_bytes h (Some a) len = Ok m ->
  exists h1 p, hash_bytes dig h o (Some a) len = Ok (h1, p) /\
    read_bytes h1 p (Z.to_nat (hashSize o)) = Ok (digest_of dig fl m).
Proof.
  intros dig h0 fl h o a len m HD E L R. rewrite new_sha_eq in E. inversion E; subst.
  destruct (hash_bytes_ok_l dig HD _ _ a len m (new_sha_live h0 fl) L R) as [h1 [E1 [_ R1]]].
  exists h1, (so_last (sha_at (length h0) fl)). auto.
Qed.
Print Assumptions C74_bytes.

Example C74_nonvacuous :
  exists h o h1 h2 p,
    new_sha [Arr [Some 1; Some 2; Some 3]] 256 = Ok (h, o) /\
    exec_call ex_dig h o (CZZp 1234 3) = Ok (h1, p) /\
    read_bytes h1 p 32 = Ok (ex_dig KSha256 [49; 50; 51]) /\
    hash_bytes ex_dig h o (Some 0%nat) 2 = Ok (h2, p) /\
    read_bytes h2 p 32 = Ok (repeat 3 32).
Proof. do 5 eexists. repeat split. Qed.

(** C75: all calls on one object return the same buffer *)
Theorem C75_results_overwritten : forall dig h0 fl cs,
  digest_sizes dig -> Forall call_ok cs ->
  exists h o h1 ps,
    new_sha h0 fl = Ok (h, o) /\ hashSize o = digest_len fl /\
    exec_calls dig h o cs = Ok (h1, ps) /\ length ps = length cs /\
    forall pre c, cs = pre ++ [c] -> exists m, call_text c m /\
      forall p, In p ps -> read_bytes h1 p (Z.to_nat (hashSize o)) = Ok (digest_of dig fl m).
Proof. intros dig h0 fl cs HD. exact (hash_history_l dig HD h0 fl cs). Qed.
Print Assumptions C75_results_overwritten.

(** hashing the returned buffer itself is the iterated digest (the loop of ZZPRF::generate) *)
Theorem C75_chaining : forall dig h0 fl h o a len m,
  digest_sizes dig -> new_sha h0 fl = Ok (h, o) -> (0 < len)%nat -> read_bytes h (Some a) len = Ok m ->
  exists h1 p h2 q,
    hash_bytes dig h o (Some a) len = Ok (h1, p) /\
    hash_bytes dig h1 o p (Z.to_nat (hashSize o)) = Ok (h2, q) /\
    read_bytes h2 q (Z.to_nat (hashSize o)) = Ok (digest_of dig fl (digest_of dig fl m)).
Proof.
  intros dig h0 fl h o a len m HD E L R. rewrite new_sha_eq in E. inversion E; subst.
  exact (hash_bytes_chain_l dig HD _ _ a len m (new_sha_live h0 fl) L R).
Qed.
Print Assumptions C75_chaining.

Example C75_nonvacuous :
  exists h o h1 p q,
    new_sha [] 0 = Ok (h, o) /\
    exec_calls ex_dig h o [CStr [1; 2; 3] 0; CStr [1; 2; 3; 4; 5] 4] = Ok (h1, [p; q]) /\
    read_bytes h1 p 20 = Ok (repeat 4 20) /\
    ex_dig KSha1 [1; 2; 3] = repeat 3 20.
Proof. do 5 eexists. repeat split. Qed.

(** C76: name() *)
Theorem C76_name : forall h0 fl h o, new_sha h0 fl = Ok (h, o) ->
  (fl = SHA1_FLAVOUR -> sha_name o = Ok [83; 72; 65]) /\
  (fl = SHA256_FLAVOUR \/ fl = MURMURHASH3_128_FLAVOUR -> sha_name o = UB OutOfBounds).
Proof. exact sha_name_l. Qed.
Print Assumptions C76_name.
Example C76_nonvacuous : exists h o, new_sha [] 256 = Ok (h, o) /\ sha_name o = UB OutOfBounds /\
  sha_zzp_name o = [83; 72; 65; 50; 53; 54; 32; 102; 111; 114; 32; 105; 110; 116; 101; 103; 101; 114; 115; 32;
                    109; 111; 100; 117; 108; 111; 32; 112].
Proof. do 2 eexists. repeat split. Qed.

(** C77: readableDigest *)
Theorem C77_readable_digest : forall d, Forall is_byte d ->
  length (readableDigest d) = (2 * length d)%nat /\
  Forall (fun c => 48 <= c <= 57 \/ 65 <= c <= 70) (readableDigest d).
Proof. exact readable_chars_l. Qed.
Print Assumptions C77_readable_digest.
Theorem C77_readable_injective : forall d1 d2, Forall is_byte d1 -> Forall is_byte d2 ->
  readableDigest d1 = readableDigest d2 -> d1 = d2.
Proof. exact readable_inj_l. Qed.
Print Assumptions C77_readable_injective.
Example C77_nonvacuous : readableDigest [0; 171; 255] = [48; 48; 65; 66; 70; 70].
Proof. reflexivity. Qed.

(** C78: storage of the generators *)
Theorem C78_generator_returns_its_storage : forall dig h0 us,
  digest_sizes dig -> Forall use_ok us ->
  exists h g h1 g1 h2, new_gen h0 = Ok (h, g) /\ gen_uses dig h g us = Ok (h1, g1) /\
    destroy_gen h1 g1 = Ok h2 /\ all_returned h0 h2.
Proof. exact gen_life_l. Qed.
Print Assumptions C78_generator_returns_its_storage.

Theorem C78_shared_generator : forall dig h0 us ops h a h1 a1 h2 z h3 a3 z3,
  new_gen h0 = Ok (h, a) -> gen_uses dig h a us = Ok (h1, a1) ->
  new_zgen_from h1 a1 = Ok (h2, z) -> pair_ops dig h2 a1 z ops = Ok (h3, a3, z3) ->
  (forall h4, destroy_zgen h3 z3 = Ok h4 -> exists w, destroy_gen h4 a3 = UB w) /\
  (forall h4, destroy_gen h3 a3 = Ok h4 ->
     (exists w, destroy_zgen h4 z3 = UB w) /\
     forall n i, use_ok (n, i) -> exists w, gen_use dig h4 (zg_prf z3) n i = UB w).
Proof. exact shared_l. Qed.
Print Assumptions C78_shared_generator.

Definition ex_in : list Z := [1; 2; 3; 4; 5; 6; 7; 8].
Example C78_nonvacuous :
  exists h a h1 a1 h2 z h3 a3 z3 h4,
    new_gen [] = Ok (h, a) /\ gen_uses ex_dig h a [(4, ex_in); (9, ex_in)] = Ok (h1, a1) /\
    new_zgen_from h1 a1 = Ok (h2, z) /\
    pair_ops ex_dig h2 a1 z [UseA 3 ex_in; UseZ 5 ex_in] = Ok (h3, a3, z3) /\
    destroy_zgen h3 z3 = Ok h4 /\ destroy_gen h4 a3 = UB Dangling.
Proof. do 10 eexists. repeat split. Qed.

(** C91: one hash object, any sequence of calls and of changes of the flavour *)
Theorem C91_hash_object_life : forall dig h0 fl ops,
  digest_sizes dig ->
  Forall (fun p => match p with Call c => call_ok c | Flavour f => 0 <= f end) ops -> 0 <= fl ->
  exists h o h1 o1 ds h2 t,
    new_sha h0 fl = Ok (h, o) /\ life dig h o ops = Ok (h1, o1, ds) /\
    life_digests dig fl ops ds /\
    hashSize o1 = digest_len (last_flavour fl ops) /\
    decimal (last_flavour fl ops) t /\
    sha_zzp_name o1 = [83; 72; 65] ++ t ++ [32; 102; 111; 114; 32; 105; 110; 116; 101; 103; 101; 114; 115; 32;
                                            109; 111; 100; 117; 108; 111; 32; 112] /\
    destroy_sha h1 o1 = Ok h2 /\ all_returned h0 h2.
Proof.
  intros dig h0 fl ops HD F P.
  destruct (life_l dig HD h0 fl ops) as [h [o [h1 [o1 [ds [h2 [E1 [E2 [D [S [N [E3 A]]]]]]]]]]]].
  { eapply Forall_impl; [|exact F]. intros [c|f]; auto. }
  exists h, o, h1, o1, ds, h2, (dec_text (last_flavour fl ops)).
  assert (0 <= last_flavour fl ops).
  { clear - F P. revert fl P. induction ops as [|[c|f] ops IH]; intros fl P; inversion F; subst; cbn [last_flavour]; auto. }
  split; [exact E1|]. split; [exact E2|]. split; [exact D|]. split; [exact S|].
  split; [apply dec_text_decimal; assumption|]. split; [unfold sha_zzp_name; rewrite N; reflexivity|]. auto.
Qed.
Print Assumptions C91_hash_object_life.
Example C91_nonvacuous :
  exists h o h1 o1 ds h2, new_sha [] 0 = Ok (h, o) /\
    life ex_dig h o [Call (CStr [65; 66] 0); Flavour 256; Call (CZZp 10 0); Call (CZZp 123 2)] = Ok (h1, o1, ds) /\
    ds = [repeat 2 20; repeat 3 32; repeat 3 32] /\ destroy_sha h1 o1 = Ok h2 /\ h2 = repeat Gone 4.
Proof. do 6 eexists. repeat split. Qed.

(** C76 for every flavour: a suffix of the literal for 0..3, out of bounds otherwise *)
Theorem C76_name_all : forall h0 fl h o, new_sha h0 fl = Ok (h, o) ->
  sha_name o = if (0 <=? fl) && (fl <=? 3) then Ok (skipn (Z.to_nat fl) [83; 72; 65]) else UB OutOfBounds.
Proof. exact sha_name_all. Qed.
Print Assumptions C76_name_all.

(** C77: two digits per byte, the high one first *)
Theorem C77_hexadecimal : forall d i b, Forall is_byte d -> nth_error d i = Some b ->
  exists x y, nth_error (readableDigest d) (2 * i) = Some x /\ nth_error (readableDigest d) (2 * i + 1) = Some y /\
    16 * hex_value x + hex_value y = b.
Proof. intros d i b F. exact (readable_value d F i b). Qed.
Print Assumptions C77_hexadecimal.

(** C78: a ZZpPRF with its own generator returns all its storage *)
Theorem C78_own_generator : forall dig h0 us,
  digest_sizes dig -> Forall use_ok us ->
  exists h z h1 g1 h2, new_zgen h0 = Ok (h, z) /\ gen_uses dig h (zg_prf z) us = Ok (h1, g1) /\
    destroy_zgen h1 {| zg_base := zg_base z; zg_prf := g1 |} = Ok h2 /\ all_returned h0 h2.
Proof. exact zgen_life_l. Qed.
Print Assumptions C78_own_generator.
Example C78_own_nonvacuous :
  exists h z h1 g1 h2, new_zgen [] = Ok (h, z) /\ gen_uses ex_dig h (zg_prf z) [(4, ex_in); (9, ex_in)] = Ok (h1, g1) /\
    destroy_zgen h1 {| zg_base := zg_base z; zg_prf := g1 |} = Ok h2 /\ h2 = repeat Gone 9.
Proof. do 5 eexists. repeat split. Qed.
