(** Proofs about the truncation argument of MurmurHash3::hash (murmurhash3.cpp:452-462). *)
From Verif Require Import Base Spec Lib MurmurModel MurmurSpec MurmurProofs.

(** only the first [len] bytes of the key are looked at *)
Lemma x64_ext_lt r1 r2 seed len : (forall j, (j < len)%nat -> r1 j = r2 j) -> x64_128 r1 seed len = x64_128 r2 seed len.
Proof.
  intros E. unfold x64_128, body.
  pose proof (Nat.div_mod len 16 ltac:(lia)) as DM. pose proof (Nat.mod_upper_bound len 16 ltac:(lia)) as MB.
  assert (G : forall i, (8 * i + 8 <= len)%nat -> getblock64 r1 i = getblock64 r2 i).
  { intros i Hi. unfold getblock64. f_equal.
    assert (K : forall j, In j (seq (8 * i) 8) -> r1 j = r2 j) by (intros j Hj; apply in_seq in Hj; apply E; lia).
    revert K. generalize (seq (8 * i) 8). intros l K. induction l as [|a l IH]; [reflexivity|].
    cbn [mapM]. rewrite K by (left; reflexivity). destruct (r2 a); cbn [bind]; try reflexivity.
    rewrite IH; [reflexivity|]. intros j Hj. apply K; right; exact Hj. }
  replace (for_up (len / 16) 0 (fun i h => do k1 <- getblock64 r1 (i * 2 + 0); do k2 <- getblock64 r1 (i * 2 + 1); Ok (block_step h (k1, k2))) (seed, seed))
     with (for_up (len / 16) 0 (fun i h => do k1 <- getblock64 r2 (i * 2 + 0); do k2 <- getblock64 r2 (i * 2 + 1); Ok (block_step h (k1, k2))) (seed, seed)).
  - destruct (for_up _ _ _ _) as [h| | | |]; cbn [bind]; try reflexivity.
    replace (tail r1 (len / 16) (len mod 16) h) with (tail r2 (len / 16) (len mod 16) h); [reflexivity|].
    destruct h as [h1 h2]. unfold tail.
    destruct (len mod 16)%nat as [|[|[|[|[|[|[|[|[|[|r]]]]]]]]]]; try reflexivity; rewrite E; try reflexivity; lia.
  - apply for_up_ext. intros i s Hi. rewrite !G; [reflexivity| |]; lia.
Qed.

(** murmurhash3.cpp:457: no truncation, or one beyond the text *)
Lemma trunc_none foreign seed n len : (len = 0 \/ length (dec_text n) <= len)%nat ->
  murmur_hash foreign seed n len = murmur_hash foreign seed n 0.
Proof.
  intros H. unfold murmur_hash.
  replace (Nat.ltb 0 len && Nat.ltb len (length (dec_text n))) with false; [reflexivity|].
  destruct H as [H|H]; [rewrite H; reflexivity|].
  replace (Nat.ltb len (length (dec_text n))) with false by (symmetry; apply Nat.ltb_ge; exact H).
  rewrite andb_false_r. reflexivity.
Qed.

Lemma trunc_unfold foreign seed n len : (0 < len < length (dec_text n))%nat ->
  murmur_hash foreign seed n len =
  (do h <- x64_128 (string_memory (dec_text n) foreign) seed (4 * len); Ok (digest h)).
Proof.
  intros [H1 H2]. unfold murmur_hash.
  apply Nat.ltb_lt in H1. apply Nat.ltb_lt in H2. rewrite H1, H2. reflexivity.
Qed.

Lemma trunc_total foreign seed n len : (0 < len < length (dec_text n))%nat -> (4 * len <= length (dec_text n) + 1)%nat ->
  murmur_hash foreign seed n len =
  (do h <- x64_128 (fun j => Ok (nth j (dec_text n) 0)) seed (4 * len); Ok (digest h)).
Proof.
  intros H Hs. rewrite trunc_unfold by exact H.
  rewrite (x64_ext_lt (string_memory (dec_text n) foreign) (fun j => Ok (nth j (dec_text n) 0)) seed); [reflexivity|].
  intros j Hj. unfold string_memory. destruct (Nat.ltb_spec j (length (dec_text n))); [apply aget_nth; assumption|].
  assert (Ej : j = length (dec_text n)) by lia. rewrite Ej, Nat.eqb_refl, nth_overflow by lia. reflexivity.
Qed.

Lemma mod4 len : ((4 * len) mod 16 = 4 * (len mod 4))%nat.
Proof. replace 16%nat with (4 * 4)%nat by reflexivity. rewrite Nat.mul_mod_distr_l by lia. reflexivity. Qed.
Lemma div4 len : ((4 * len) / 16 = len / 4)%nat.
Proof. replace 16%nat with (4 * 4)%nat by reflexivity. rewrite Nat.div_mul_cancel_l by lia. reflexivity. Qed.

Lemma trunc_out seed n len : (0 < len < length (dec_text n))%nat -> (length (dec_text n) + 1 < 4 * len)%nat ->
  murmur_hash no_foreign seed n len = UB OutOfBounds.
Proof.
  intros H Hs. rewrite trunc_unfold by exact H. set (t := dec_text n) in *.
  assert (E : x64_128 (string_memory t no_foreign) seed (4 * len) = UB OutOfBounds); [|rewrite E; reflexivity].
  unfold x64_128. rewrite mod4, div4.
  pose proof (Nat.div_mod len 4 ltac:(lia)) as DM. pose proof (Nat.mod_upper_bound len 4 ltac:(lia)) as MB.
  set (q := (len / 4)%nat) in *. set (r := (len mod 4)%nat) in *.
  destruct (Nat.lt_ge_cases (S (length t)) (16 * q)) as [C|C].
  - rewrite (body_fail _ OutOfBounds (S (length t))); [reflexivity|exact C| |].
    + intros j Hj. apply string_memory_in. lia.
    + rewrite string_memory_out by lia. reflexivity.
  - assert (B : exists h, body (string_memory t no_foreign) q (seed, seed) = Ok h).
    { unfold body. assert (G : forall m k h, (16 * (k + m) <= 16 * q)%nat -> exists h',
        for_up m k (fun i h => do k1 <- getblock64 (string_memory t no_foreign) (i * 2 + 0);
          do k2 <- getblock64 (string_memory t no_foreign) (i * 2 + 1); Ok (block_step h (k1, k2))) h = Ok h').
      { induction m as [|m IH]; intros k h Hk; [eexists; reflexivity|]. cbn [for_up].
        destruct (getblock64_fine (string_memory t no_foreign) (k * 2 + 0)) as [v1 E1]; [intros j Hj; apply string_memory_in; lia|].
        destruct (getblock64_fine (string_memory t no_foreign) (k * 2 + 1)) as [v2 E2]; [intros j Hj; apply string_memory_in; lia|].
        rewrite E1, E2. cbn [bind]. apply IH. lia. }
      apply G. lia. }
    destruct B as [[h1 h2] B]. rewrite B. cbn [bind]. unfold tail.
    assert (R : (r = 1 \/ r = 2 \/ r = 3)%nat) by lia.
    destruct R as [R|[R|R]]; rewrite R; cbn [Nat.mul Nat.add]; rewrite string_memory_out by lia; reflexivity.
Qed.

Lemma trunc_prefix foreign foreign' seed n n' len :
  (0 < len < length (dec_text n))%nat -> (0 < len < length (dec_text n'))%nat ->
  (4 * len <= length (dec_text n) + 1)%nat -> (4 * len <= length (dec_text n') + 1)%nat ->
  firstn (16 * (len / 4)) (dec_text n) = firstn (16 * (len / 4)) (dec_text n') ->
  murmur_hash foreign seed n len = murmur_hash foreign' seed n' len.
Proof.
  intros H H' Hs Hs' E. rewrite (trunc_total foreign seed n), (trunc_total foreign' seed n') by assumption.
  rewrite (tail_ignored_l (fun j => nth j (dec_text n) 0) (fun j => nth j (dec_text n') 0)); [reflexivity| | |].
  - intros j Hj. rewrite div4 in Hj.
    assert (K : forall l : list Z, nth j l 0 = nth j (firstn (16 * (len / 4)) l) 0).
    { intros l. symmetry. rewrite <- (firstn_skipn (16 * (len / 4)) l) at 2.
      destruct (Nat.lt_ge_cases j (length (firstn (16 * (len / 4)) l))) as [L|L].
      - rewrite app_nth1 by exact L. reflexivity.
      - rewrite nth_overflow by exact L. rewrite firstn_length in L.
        rewrite firstn_skipn, nth_overflow; [reflexivity|]. lia. }
    rewrite (K (dec_text n)), (K (dec_text n')), E. reflexivity.
  - rewrite mod4. pose proof (Nat.mod_upper_bound len 4 ltac:(lia)). lia.
  - rewrite mod4. pose proof (Nat.mod_upper_bound len 4 ltac:(lia)). lia.
Qed.

Lemma trunc_published foreign seed n len : 0 <= seed < 2 ^ 32 ->
  (0 < len < length (dec_text n))%nat -> (4 * len <= length (dec_text n) + 1)%nat -> (len mod 4 = 0)%nat ->
  murmur_hash foreign seed n len = Ok (digest (reference (fun j => nth j (dec_text n) 0) seed (4 * len))).
Proof.
  intros Hseed H Hs M. rewrite trunc_total by assumption. rewrite agrees_l; [reflexivity|exact Hseed|].
  rewrite mod4, M. lia.
Qed.
