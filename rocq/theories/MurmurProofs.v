From Verif Require Import Base Spec Lib MurmurModel MurmurSpec.

Definition u64 (x : Z) : Prop := 0 <= x < M64.

(** *** bit operations *)
Lemma lxor_u64 a b : u64 a -> u64 b -> u64 (Z.lxor a b).
Proof.
  unfold u64, M64. intros Ha Hb. split.
  - apply Z.lxor_nonneg; split; intros; lia.
  - destruct (Z.eq_dec (Z.lxor a b) 0) as [->|Hz]; [reflexivity|].
    assert (0 <= Z.lxor a b) by (apply Z.lxor_nonneg; split; intros; lia).
    apply Z.log2_lt_pow2; [lia|].
    eapply Z.le_lt_trans; [apply Z.log2_lxor; lia|].
    destruct (Z.eq_dec a 0) as [->|]; [destruct (Z.eq_dec b 0) as [->|]|].
    + reflexivity.
    + change (Z.log2 0) with 0. pose proof (Z.log2_nonneg b).
      assert (Z.log2 b < 64) by (apply Z.log2_lt_pow2; lia). lia.
    + assert (Z.log2 a < 64) by (apply Z.log2_lt_pow2; lia).
      destruct (Z.eq_dec b 0) as [->|]; [change (Z.log2 0) with 0; lia|].
      assert (Z.log2 b < 64) by (apply Z.log2_lt_pow2; lia). lia.
Qed.

Lemma lxor_inj a b c : Z.lxor a c = Z.lxor b c -> a = b.
Proof.
  intros H. apply (f_equal (fun x => Z.lxor x c)) in H.
  rewrite !Z.lxor_assoc, Z.lxor_nilpotent, !Z.lxor_0_r in H. exact H.
Qed.
Lemma lxor_inj_r a b c : Z.lxor c a = Z.lxor c b -> a = b.
Proof. rewrite !(Z.lxor_comm c). apply lxor_inj. Qed.

Lemma lor_disjoint_add a b k : 0 <= k -> 0 <= b < 2 ^ k -> Z.lor (a * 2 ^ k) b = a * 2 ^ k + b.
Proof.
  intros Hk Hb. rewrite <- Z.shiftl_mul_pow2 by exact Hk. symmetry.
  assert (Z0 : Z.land (Z.shiftl a k) b = 0); [|rewrite Z.add_nocarry_lxor, Z.lxor_lor by exact Z0; reflexivity].
  apply Z.bits_inj_iff. intros n. rewrite Z.land_spec, Z.bits_0.
  destruct (Z.ltb_spec n 0) as [Hn|Hn]; [rewrite !Z.testbit_neg_r by exact Hn; reflexivity|].
  rewrite Z.shiftl_spec by exact Hn.
  destruct (Z.ltb_spec n k) as [H|H].
  - rewrite Z.testbit_neg_r by lia. reflexivity.
  - replace (Z.testbit b n) with false; [apply andb_false_r|].
    symmetry. destruct (Z.eq_dec b 0) as [->|Hz]; [apply Z.bits_0|].
    apply Z.bits_above_log2; [lia|].
    apply Z.lt_le_trans with k; [apply Z.log2_lt_pow2; lia|exact H].
Qed.

Lemma rotl_eq x r : u64 x -> 0 < r < 64 -> rotl64 x r = rotl x r.
Proof.
  intros Hx Hr. unfold rotl64, rotl, w64.
  rewrite Z.shiftl_mul_pow2, Z.shiftr_div_pow2 by lia.
  assert (E : M64 = 2 ^ (64 - r) * 2 ^ r) by (rewrite <- Z.pow_add_r by lia; unfold M64; f_equal; lia).
  assert (0 < 2 ^ r) by (apply Z.pow_pos_nonneg; lia).
  assert (0 < 2 ^ (64 - r)) by (apply Z.pow_pos_nonneg; lia).
  rewrite E, Z.mul_mod_distr_r by lia.
  apply lor_disjoint_add; [lia|]. split; [apply Z.div_pos; unfold u64 in Hx; lia|].
  apply Z.div_lt_upper_bound; [lia|]. unfold u64 in Hx. lia.
Qed.

Lemma rotl_range x r : u64 x -> 0 < r < 64 -> u64 (rotl x r).
Proof.
  intros Hx Hr. unfold rotl, u64 in *.
  assert (E : M64 = 2 ^ (64 - r) * 2 ^ r) by (rewrite <- Z.pow_add_r by lia; unfold M64; f_equal; lia).
  assert (0 < 2 ^ r) by (apply Z.pow_pos_nonneg; lia).
  assert (Hp : 0 < 2 ^ (64 - r)) by (apply Z.pow_pos_nonneg; lia).
  assert (0 <= x / 2 ^ (64 - r) < 2 ^ r).
  { split; [apply Z.div_pos; lia|]. apply Z.div_lt_upper_bound; lia. }
  pose proof (Z.mod_pos_bound x _ Hp). nia.
Qed.

Lemma rotl_inj x y r : u64 x -> u64 y -> 0 < r < 64 -> rotl x r = rotl y r -> x = y.
Proof.
  intros Hx Hy Hr H. unfold rotl, u64 in *.
  assert (E : M64 = 2 ^ (64 - r) * 2 ^ r) by (rewrite <- Z.pow_add_r by lia; unfold M64; f_equal; lia).
  assert (0 < 2 ^ r) by (apply Z.pow_pos_nonneg; lia).
  assert (Hp : 0 < 2 ^ (64 - r)) by (apply Z.pow_pos_nonneg; lia).
  assert (0 <= x / 2 ^ (64 - r) < 2 ^ r).
  { split; [apply Z.div_pos; lia|]. apply Z.div_lt_upper_bound; lia. }
  assert (0 <= y / 2 ^ (64 - r) < 2 ^ r).
  { split; [apply Z.div_pos; lia|]. apply Z.div_lt_upper_bound; lia. }
  rewrite (Z.div_mod x (2 ^ (64 - r))), (Z.div_mod y (2 ^ (64 - r))) by lia.
  set (hx := x / 2 ^ (64 - r)) in *. set (hy := y / 2 ^ (64 - r)) in *.
  set (lx := x mod 2 ^ (64 - r)) in *. set (ly := y mod 2 ^ (64 - r)) in *.
  assert (lx = ly /\ hx = hy) as [-> ->]; [|reflexivity].
  assert (lx = ly) by nia. split; [assumption|]. subst ly. nia.
Qed.

Lemma w64_u64 x : u64 (w64 x). Proof. apply w64_range. Qed.

Lemma mul_inj c d x y : w64 (c * d) = 1 -> u64 x -> u64 y -> w64 (x * c) = w64 (y * c) -> x = y.
Proof.
  unfold w64, u64. intros Hc Hx Hy H.
  apply (f_equal (fun t => (t * d) mod M64)) in H.
  assert (G : forall t, (((t * c) mod M64) * d) mod M64 = t mod M64).
  { intros t. rewrite Z.mul_mod_idemp_l by (unfold M64; lia).
    replace (t * c * d) with (t * (c * d)) by ring.
    rewrite <- Z.mul_mod_idemp_r by (unfold M64; lia). rewrite Hc, Z.mul_1_r. reflexivity. }
  rewrite !G in H. rewrite !Z.mod_small in H by assumption. exact H.
Qed.

Lemma add_inj a x y : u64 x -> u64 y -> w64 (x + a) = w64 (y + a) -> x = y.
Proof.
  unfold w64, u64. intros Hx Hy H.
  apply (f_equal (fun t => (t - a) mod M64)) in H.
  rewrite !Zminus_mod_idemp_l in H.
  replace (x + a - a) with x in H by ring. replace (y + a - a) with y in H by ring.
  rewrite !Z.mod_small in H by assumption. exact H.
Qed.

Lemma xorshift_u64 x r : 0 <= r -> u64 x -> u64 (Z.lxor x (Z.shiftr x r)).
Proof.
  intros Hr Hx. apply lxor_u64; [exact Hx|]. unfold u64 in *. rewrite Z.shiftr_div_pow2 by lia.
  assert (0 < 2 ^ r) by (apply Z.pow_pos_nonneg; lia).
  split; [apply Z.div_pos; lia|]. apply Z.div_lt_upper_bound; [lia|]. nia.
Qed.

Lemma xorshift_inj x y r : 0 < r -> 0 <= x -> 0 <= y ->
  Z.lxor x (Z.shiftr x r) = Z.lxor y (Z.shiftr y r) -> x = y.
Proof.
  intros Hr Hx Hy H.
  assert (E : Z.lxor x y = Z.shiftr (Z.lxor x y) r).
  { rewrite Z.shiftr_lxor. apply (f_equal (fun t => Z.lxor t (Z.lxor y (Z.shiftr x r)))) in H.
    replace (Z.lxor (Z.lxor x (Z.shiftr x r)) (Z.lxor y (Z.shiftr x r))) with (Z.lxor x y) in H.
    2:{ rewrite (Z.lxor_comm y), <- Z.lxor_assoc, (Z.lxor_assoc x), Z.lxor_nilpotent, Z.lxor_0_r. reflexivity. }
    replace (Z.lxor (Z.lxor y (Z.shiftr y r)) (Z.lxor y (Z.shiftr x r))) with (Z.lxor (Z.shiftr x r) (Z.shiftr y r)) in H.
    2:{ rewrite (Z.lxor_comm y (Z.shiftr y r)), <- Z.lxor_assoc, (Z.lxor_assoc (Z.shiftr y r)), Z.lxor_nilpotent, Z.lxor_0_r.
        apply Z.lxor_comm. }
    exact H. }
  set (z := Z.lxor x y) in *.
  assert (0 <= z) by (apply Z.lxor_nonneg; split; intros; lia).
  rewrite Z.shiftr_div_pow2 in E by lia.
  assert (1 < 2 ^ r) by (apply Z.pow_gt_1; lia).
  assert (z = 0).
  { destruct (Z.eq_dec z 0); auto. pose proof (Z.div_lt z (2 ^ r) ltac:(lia) ltac:(lia)). lia. }
  apply Z.lxor_eq; assumption.
Qed.

(** *** inverses of the multipliers *)
Definition inv_c1 : Z := 0xa98409e882ce4d7d.
Definition inv_c2 : Z := 0xa81e14edd9de2c7f.
Lemma inv_c1_ok : w64 (c1 * inv_c1) = 1. Proof. reflexivity. Qed.
Lemma inv_c2_ok : w64 (c2 * inv_c2) = 1. Proof. reflexivity. Qed.
Lemma inv_f1_ok : w64 (0xff51afd7ed558ccd * 0x4f74430c22a54005) = 1. Proof. reflexivity. Qed.
Lemma inv_f2_ok : w64 (0xc4ceb9fe1a85ec53 * 0x9cb4b2f8129337db) = 1. Proof. reflexivity. Qed.
Lemma inv_5_ok : w64 (5 * 0xcccccccccccccccd) = 1. Proof. reflexivity. Qed.

(** *** fmix64 *)
Lemma fmix64_u64 x : u64 x -> u64 (fmix64 x).
Proof. intros H. unfold fmix64. apply xorshift_u64; [lia|]. apply w64_u64. Qed.

Lemma fmix64_inj x y : u64 x -> u64 y -> fmix64 x = fmix64 y -> x = y.
Proof.
  intros Hx Hy H. unfold fmix64 in H.
  apply xorshift_inj in H; [|lia|apply w64_u64|apply w64_u64].
  apply (mul_inj _ _ _ _ inv_f2_ok) in H; try (apply xorshift_u64; [lia|apply w64_u64]).
  apply xorshift_inj in H; [|lia|apply w64_u64|apply w64_u64].
  apply (mul_inj _ _ _ _ inv_f1_ok) in H; try (apply xorshift_u64; [lia|assumption]).
  apply xorshift_inj in H; [exact H|lia|apply Hx|apply Hy].
Qed.

(** xor-shift by 33 is its own inverse on 64-bit words *)
Lemma xorshift33_invol x : u64 x ->
  let y := Z.lxor x (Z.shiftr x 33) in Z.lxor y (Z.shiftr y 33) = x.
Proof.
  intros H. cbv zeta. rewrite Z.shiftr_lxor, Z.shiftr_shiftr by lia.
  assert (E : Z.shiftr x (33 + 33) = 0).
  { rewrite Z.shiftr_div_pow2 by lia. apply Z.div_small. unfold u64, M64 in H.
    split; [lia|]. eapply Z.lt_trans; [apply H|]. reflexivity. }
  rewrite E, Z.lxor_0_r, Z.lxor_assoc, Z.lxor_nilpotent, Z.lxor_0_r. reflexivity.
Qed.

Lemma mul_surj c d y : w64 (c * d) = 1 -> u64 y -> w64 (w64 (y * d) * c) = y.
Proof.
  intros Hc Hy. unfold w64 in *. rewrite Z.mul_mod_idemp_l by (unfold M64; lia).
  replace (y * d * c) with (y * (c * d)) by ring.
  rewrite <- Z.mul_mod_idemp_r by (unfold M64; lia). rewrite Hc, Z.mul_1_r.
  apply Z.mod_small; exact Hy.
Qed.

Lemma fmix64_surj y : u64 y -> exists x, u64 x /\ fmix64 x = y.
Proof.
  intros Hy.
  set (xs := fun t => Z.lxor t (Z.shiftr t 33)).
  exists (xs (w64 (xs (w64 (xs y * 0x9cb4b2f8129337db)) * 0x4f74430c22a54005))).
  split; [apply xorshift_u64; [lia|apply w64_u64]|].
  unfold fmix64.
  change (Z.lxor (xs (w64 (xs (w64 (xs y * 11291846944257947611)) * 5725274745694666757)))
       (Z.shiftr (xs (w64 (xs (w64 (xs y * 11291846944257947611)) * 5725274745694666757))) 33))
  with (xs (xs (w64 (xs (w64 (xs y * 11291846944257947611)) * 5725274745694666757)))).
  assert (I : forall t, u64 t -> xs (xs t) = t) by (intros t Ht; apply (xorshift33_invol t Ht)).
  assert (U : forall t, u64 t -> u64 (xs t)) by (intros t Ht; apply xorshift_u64; [lia|exact Ht]).
  rewrite I by apply w64_u64.
  rewrite (mul_surj _ _ _ inv_f1_ok) by (apply U, w64_u64).
  change (Z.lxor (xs (w64 (xs y * 11291846944257947611))) (Z.shiftr (xs (w64 (xs y * 11291846944257947611))) 33))
    with (xs (xs (w64 (xs y * 11291846944257947611)))).
  rewrite I by apply w64_u64.
  rewrite (mul_surj _ _ _ inv_f2_ok) by (apply U; exact Hy).
  apply (I y Hy).
Qed.

(** *** the block step *)
Lemma rotl64_u64 x r : u64 x -> 0 < r < 64 -> u64 (rotl64 x r).
Proof. intros. rewrite rotl_eq by assumption. apply rotl_range; assumption. Qed.
Lemma rotl64_inj x y r : u64 x -> u64 y -> 0 < r < 64 -> rotl64 x r = rotl64 y r -> x = y.
Proof. intros Hx Hy Hr. rewrite !rotl_eq by assumption. apply rotl_inj; assumption. Qed.

Lemma mix_k1_u64 k : u64 (mix_k1 k). Proof. apply w64_u64. Qed.
Lemma mix_k2_u64 k : u64 (mix_k2 k). Proof. apply w64_u64. Qed.
Lemma mix_k1_inj x y : u64 x -> u64 y -> mix_k1 x = mix_k1 y -> x = y.
Proof.
  intros Hx Hy H. unfold mix_k1 in H.
  apply (mul_inj _ _ _ _ inv_c2_ok) in H; try (apply rotl64_u64; [apply w64_u64|lia]).
  apply rotl64_inj in H; try apply w64_u64; [|lia].
  apply (mul_inj _ _ _ _ inv_c1_ok) in H; assumption.
Qed.
Lemma mix_k2_inj x y : u64 x -> u64 y -> mix_k2 x = mix_k2 y -> x = y.
Proof.
  intros Hx Hy H. unfold mix_k2 in H.
  apply (mul_inj _ _ _ _ inv_c1_ok) in H; try (apply rotl64_u64; [apply w64_u64|lia]).
  apply rotl64_inj in H; try apply w64_u64; [|lia].
  apply (mul_inj _ _ _ _ inv_c2_ok) in H; assumption.
Qed.

Definition u128 (h : Z * Z) : Prop := u64 (fst h) /\ u64 (snd h).

Lemma block_step_u128 h k : u128 (block_step h k).
Proof. destruct h, k. unfold block_step. split; cbn [fst snd]; apply w64_u64. Qed.

Lemma mul5_inj x y c : u64 x -> u64 y -> w64 (x * 5 + c) = w64 (y * 5 + c) -> x = y.
Proof.
  intros Hx Hy H.
  assert (G : forall t, w64 (t * 5 + c) = w64 (w64 (t * 5) + c)).
  { intros t. unfold w64. rewrite Z.add_mod_idemp_l by (unfold M64; lia). reflexivity. }
  rewrite !G in H. apply add_inj in H; try apply w64_u64.
  apply (mul_inj _ _ _ _ inv_5_ok) in H; assumption.
Qed.

(** injective in the state for a fixed block *)
Lemma block_step_inj_h h h' k : u128 h -> u128 h' -> block_step h k = block_step h' k -> h = h'.
Proof.
  destruct h as [a b], h' as [a' b'], k as [k1 k2]. unfold u128, block_step; cbn [fst snd].
  intros [Ha Hb] [Ha' Hb'] H. inversion H as [[E1 E2]]. clear H.
  rewrite E1 in E2.
  apply mul5_inj in E2; try apply w64_u64.
  apply add_inj in E2; try (apply rotl64_u64; [apply lxor_u64; [assumption|apply mix_k2_u64]|lia]).
  apply rotl64_inj in E2; try (apply lxor_u64; [assumption|apply mix_k2_u64]); [|lia].
  apply lxor_inj in E2. subst b'.
  apply mul5_inj in E1; try apply w64_u64.
  apply add_inj in E1; try (apply rotl64_u64; [apply lxor_u64; [assumption|apply mix_k1_u64]|lia]).
  apply rotl64_inj in E1; try (apply lxor_u64; [assumption|apply mix_k1_u64]); [|lia].
  apply lxor_inj in E1. subst a'. reflexivity.
Qed.

(** injective in the block for a fixed state *)
Lemma block_step_inj_k h k k' : u128 h -> u128 k -> u128 k' -> block_step h k = block_step h k' -> k = k'.
Proof.
  destruct h as [a b], k as [k1 k2], k' as [k1' k2']. unfold u128, block_step; cbn [fst snd].
  intros [Ha Hb] [Hk1 Hk2] [Hk1' Hk2'] H. inversion H as [[E1 E2]]. clear H.
  rewrite E1 in E2.
  apply mul5_inj in E2; try apply w64_u64.
  apply add_inj in E2; try (apply rotl64_u64; [apply lxor_u64; [assumption|apply mix_k2_u64]|lia]).
  apply rotl64_inj in E2; try (apply lxor_u64; [assumption|apply mix_k2_u64]); [|lia].
  apply lxor_inj_r in E2. apply mix_k2_inj in E2; try assumption. subst k2'.
  apply mul5_inj in E1; try apply w64_u64.
  apply add_inj in E1; try (apply rotl64_u64; [apply lxor_u64; [assumption|apply mix_k1_u64]|lia]).
  apply rotl64_inj in E1; try (apply lxor_u64; [assumption|apply mix_k1_u64]); [|lia].
  apply lxor_inj_r in E1. apply mix_k1_inj in E1; try assumption. subst k1'. reflexivity.
Qed.

Lemma finalise_inj h h' len : u64 len -> u128 h -> u128 h' -> finalise h len = finalise h' len -> h = h'.
Proof.
  destruct h as [a b], h' as [a' b']. unfold u128, finalise; cbn [fst snd].
  intros Hl [Ha Hb] [Ha' Hb'] H. inversion H as [[E1 E2]]. clear H. rewrite E1 in E2.
  apply add_inj in E2; try (apply fmix64_u64, w64_u64).
  rewrite E2 in E1. apply add_inj in E1; try (apply fmix64_u64, w64_u64).
  apply fmix64_inj in E1; try apply w64_u64.
  apply fmix64_inj in E2; try apply w64_u64.
  rewrite E1 in E2. apply add_inj in E2; try (apply lxor_u64; assumption).
  rewrite E2 in E1. apply add_inj in E1; try (apply lxor_u64; assumption).
  apply lxor_inj in E1. apply lxor_inj in E2. congruence.
Qed.

(** *** the whole hash over total memory *)
Lemma getblock64_total m i : getblock64 (fun j => Ok (m j)) i = Ok (word m (8 * i) 8).
Proof. unfold getblock64. rewrite (mapM_ok _ m) by (intros; reflexivity). reflexivity. Qed.

Lemma body_total m n : forall i0 h,
  for_up n i0 (fun i h =>
    do k1 <- getblock64 (fun j => Ok (m j)) (i * 2 + 0);
    do k2 <- getblock64 (fun j => Ok (m j)) (i * 2 + 1);
    Ok (block_step h (k1, k2))) h = Ok (fold_left block_step (map (key_block m) (seq i0 n)) h).
Proof.
  induction n as [|n IH]; intros i0 h; cbn [for_up]; [reflexivity|].
  rewrite !getblock64_total. cbn [bind]. rewrite IH. cbn [seq map fold_left]. do 2 f_equal.
  unfold key_block. do 2 f_equal; f_equal; lia.
Qed.

Definition tail_total (m : nat -> Z) (off r : nat) (h : Z * Z) : Z * Z :=
  match r with
  | 9%nat => (fst h, Z.lxor (snd h) (mix_k2 (m (off + 8)%nat)))
  | 1%nat => (Z.lxor (fst h) (mix_k1 (m off)), snd h)
  | _ => h
  end.

Lemma tail_is_total m nb r h : tail (fun j => Ok (m j)) nb r h = Ok (tail_total m (nb * 16) r h).
Proof.
  destruct h as [h1 h2]. unfold tail, tail_total.
  destruct r as [|[|[|[|[|[|[|[|[|[|r]]]]]]]]]]; cbn [bind fst snd]; try reflexivity.
  rewrite Nat.add_0_r. reflexivity.
Qed.

Lemma x64_total m seed len :
  x64_128 (fun j => Ok (m j)) seed len =
  Ok (finalise (tail_total m (len / 16 * 16) (len mod 16)
        (fold_left block_step (map (key_block m) (seq 0 (len / 16))) (seed, seed))) (Z.of_nat len)).
Proof. unfold x64_128, body. rewrite body_total. cbn [bind]. rewrite tail_is_total. reflexivity. Qed.

Lemma fold_block_u128 ks h : u128 h -> u128 (fold_left block_step ks h).
Proof. revert h; induction ks as [|k ks IH]; intros h H; cbn [fold_left]; auto. apply IH, block_step_u128. Qed.

Lemma fold_block_inj ks : forall h h', u128 h -> u128 h' ->
  fold_left block_step ks h = fold_left block_step ks h' -> h = h'.
Proof.
  induction ks as [|k ks IH]; intros h h' H H' E; cbn [fold_left] in E; auto.
  apply IH in E; try apply block_step_u128. eapply block_step_inj_h; eauto.
Qed.

Lemma word_u64 m off : (forall i, is_byte (m i)) -> u64 (word m off 8).
Proof.
  intros H. unfold word, u64.
  assert (F : Forall is_byte (map m (seq off 8))) by (apply Forall_forall; intros x Hx; apply in_map_iff in Hx; destruct Hx as [i [<- _]]; apply H).
  apply le_val_range in F. rewrite map_length, seq_length in F. exact F.
Qed.
Lemma key_block_u128 m i : (forall i, is_byte (m i)) -> u128 (key_block m i).
Proof. intros H. split; apply word_u64; exact H. Qed.

Lemma word_ext m m' off n : (forall i, (off <= i < off + n)%nat -> m i = m' i) -> word m off n = word m' off n.
Proof.
  intros H. unfold word. f_equal. apply map_ext_in. intros i Hi. apply in_seq in Hi. apply H; lia.
Qed.
Lemma word_inj m m' off n : (forall i, is_byte (m i)) -> (forall i, is_byte (m' i)) ->
  word m off n = word m' off n -> forall i, (off <= i < off + n)%nat -> m i = m' i.
Proof.
  intros Hm Hm' E i Hi. unfold word in E. apply le_val_inj in E.
  - assert (E2 : nth_error (map m (seq off n)) (i - off) = nth_error (map m' (seq off n)) (i - off)) by congruence.
    rewrite !nth_error_map in E2. rewrite (nth_error_nth' _ 0%nat) in E2 by (rewrite seq_length; lia).
    rewrite seq_nth in E2 by lia. cbn in E2. inversion E2 as [E3].
    replace (off + (i - off))%nat with i in E3 by lia. exact E3.
  - apply Forall_forall; intros x Hx; apply in_map_iff in Hx; destruct Hx as [j [<- _]]; apply Hm.
  - apply Forall_forall; intros x Hx; apply in_map_iff in Hx; destruct Hx as [j [<- _]]; apply Hm'.
  - rewrite !map_length; reflexivity.
Qed.

Lemma key_block_ext m m' i : (forall j, (16 * i <= j < 16 * i + 16)%nat -> m j = m' j) -> key_block m i = key_block m' i.
Proof. intros H. unfold key_block. f_equal; apply word_ext; intros; apply H; lia. Qed.
Lemma key_block_inj m m' i : (forall i, is_byte (m i)) -> (forall i, is_byte (m' i)) ->
  key_block m i = key_block m' i -> forall j, (16 * i <= j < 16 * i + 16)%nat -> m j = m' j.
Proof.
  intros Hm Hm' E j Hj. unfold key_block in E. inversion E as [[E1 E2]].
  destruct (Nat.lt_ge_cases j (16 * i + 8)).
  - apply (word_inj m m' (16 * i) 8 Hm Hm' E1); lia.
  - apply (word_inj m m' (16 * i + 8) 8 Hm Hm' E2); lia.
Qed.

(** difference in exactly one block survives *)
Lemma one_block_differs m m' n b h :
  (forall i, is_byte (m i)) -> (forall i, is_byte (m' i)) -> u128 h -> (b < n)%nat ->
  (forall j, (j < 16 * n)%nat -> (j < 16 * b \/ 16 * b + 16 <= j)%nat -> m j = m' j) ->
  (exists j, (16 * b <= j < 16 * b + 16)%nat /\ m j <> m' j) ->
  fold_left block_step (map (key_block m) (seq 0 n)) h <> fold_left block_step (map (key_block m') (seq 0 n)) h.
Proof.
  intros Hm Hm' Hh Hb Hsame [j [Hj Hne]] E.
  replace n with (b + S (n - b - 1))%nat in E by lia.
  rewrite seq_app in E. rewrite !map_app, !fold_left_app in E. cbn [seq map fold_left Nat.add] in E.
  assert (P1 : map (key_block m) (seq 0 b) = map (key_block m') (seq 0 b)).
  { apply map_ext_in. intros i Hi. apply in_seq in Hi. apply key_block_ext. intros k Hk. apply Hsame; lia. }
  assert (P2 : map (key_block m) (seq (S b) (n - b - 1)) = map (key_block m') (seq (S b) (n - b - 1))).
  { apply map_ext_in. intros i Hi. apply in_seq in Hi. apply key_block_ext. intros k Hk. apply Hsame; lia. }
  rewrite P1, P2 in E. apply fold_block_inj in E; try apply block_step_u128.
  apply block_step_inj_k in E; try (apply key_block_u128; assumption).
  - apply Hne. eapply key_block_inj; eauto.
  - apply fold_block_u128; exact Hh.
Qed.

Lemma tail_total_u128 m off r h : u128 h -> u128 (tail_total m off r h).
Proof.
  intros [H1 H2]. unfold tail_total.
  destruct r as [|[|[|[|[|[|[|[|[|[|r]]]]]]]]]]; split; cbn [fst snd]; auto;
  apply lxor_u64; auto using mix_k1_u64, mix_k2_u64.
Qed.

Lemma tail_total_inj m off r h h' : tail_total m off r h = tail_total m off r h' -> h = h'.
Proof.
  destruct h as [a b], h' as [a' b']. unfold tail_total.
  destruct r as [|[|[|[|[|[|[|[|[|[|r]]]]]]]]]]; cbn [fst snd]; auto; intros H; inversion H as [[E1 E2]]; subst; f_equal; eauto using lxor_inj.
Qed.
Lemma tail_total_ext m m' off r h : m off = m' off -> m (off + 8)%nat = m' (off + 8)%nat ->
  tail_total m off r h = tail_total m' off r h.
Proof.
  intros E1 E2. unfold tail_total. destruct r as [|[|[|[|[|[|[|[|[|[|r]]]]]]]]]]; rewrite ?E1, ?E2; reflexivity.
Qed.

(** C24 *)
Lemma one_block_digest_l m m' seed len b h h' :
  (forall i, is_byte (m i)) -> (forall i, is_byte (m' i)) -> 0 <= seed < 2 ^ 32 ->
  Z.of_nat len < 2 ^ 31 -> (b < len / 16)%nat ->
  (forall j, (j < len)%nat -> (j < 16 * b \/ 16 * b + 16 <= j)%nat -> m j = m' j) ->
  (exists j, (16 * b <= j < 16 * b + 16)%nat /\ m j <> m' j) ->
  x64_128 (fun j => Ok (m j)) seed len = Ok h -> x64_128 (fun j => Ok (m' j)) seed len = Ok h' ->
  h <> h'.
Proof.
  intros Hm Hm' Hs Hl Hb Hsame Hdiff E E' Heq0. rewrite x64_total in E, E'.
  rewrite Heq0, <- E' in E. apply Ok_inj in E. rename E into Heq. clear E' Heq0.
  set (nb := (len / 16)%nat) in *.
  pose proof (Nat.div_mod len 16 ltac:(lia)) as DM. fold nb in DM.
  pose proof (Nat.mod_upper_bound len 16 ltac:(lia)) as MB.
  assert (S128 : u128 (seed, seed)) by (split; cbn; unfold u64, M64; lia).
  apply finalise_inj in Heq.
  - assert (T : tail_total m (nb * 16) (len mod 16) (fold_left block_step (map (key_block m) (seq 0 nb)) (seed, seed))
      = tail_total m' (nb * 16) (len mod 16) (fold_left block_step (map (key_block m) (seq 0 nb)) (seed, seed))).
    { destruct (len mod 16)%nat as [|[|[|[|[|[|[|[|[|[|r]]]]]]]]]] eqn:Er; try reflexivity; unfold tail_total.
      - rewrite (Hsame (nb * 16)%nat) by lia. reflexivity.
      - rewrite (Hsame (nb * 16 + 8)%nat) by lia. reflexivity. }
    rewrite T in Heq. apply tail_total_inj in Heq. revert Heq.
    apply one_block_differs with (b := b); auto. intros j Hj Hj'. apply Hsame; lia.
  - unfold u64, M64; lia.
  - apply tail_total_u128, fold_block_u128; exact S128.
  - apply tail_total_u128, fold_block_u128; exact S128.
Qed.

Lemma digest_inj h h' : u128 h -> u128 h' -> digest h = digest h' -> h = h'.
Proof.
  destruct h as [a b], h' as [a' b']. unfold digest, u128, u64, M64; cbn [fst snd]. intros [Ha Hb] [Ha' Hb'] E.
  assert (E1 : le_bytes 8 a = le_bytes 8 a' /\ le_bytes 8 b = le_bytes 8 b').
  { split.
    - apply (f_equal (firstn 8)) in E. rewrite !firstn_app, !le_bytes_length, !Nat.sub_diag in E.
      cbn [firstn] in E. rewrite !app_nil_r in E. exact E.
    - apply (f_equal (skipn 8)) in E. exact E. }
  destruct E1 as [E1 E2].
  apply (f_equal le_val) in E1. apply (f_equal le_val) in E2. rewrite !le_val_le_bytes in E1, E2.
  change (256 ^ Z.of_nat 8) with (2 ^ 64) in *. rewrite !Z.mod_small in E1, E2 by lia. congruence.
Qed.

(** C22: the tail *)
Lemma tail_ignored_l m m' seed len :
  (forall j, (j < len / 16 * 16)%nat -> m j = m' j) ->
  (len mod 16 = 1 -> m (len / 16 * 16) = m' (len / 16 * 16))%nat ->
  (len mod 16 = 9 -> m (len / 16 * 16 + 8) = m' (len / 16 * 16 + 8))%nat ->
  x64_128 (fun j => Ok (m j)) seed len = x64_128 (fun j => Ok (m' j)) seed len.
Proof.
  intros Hb H1 H9. rewrite !x64_total. do 2 f_equal.
  set (nb := (len / 16)%nat) in *.
  assert (P : map (key_block m) (seq 0 nb) = map (key_block m') (seq 0 nb)).
  { apply map_ext_in. intros i Hi. apply in_seq in Hi. apply key_block_ext. intros k Hk. apply Hb; lia. }
  rewrite P. unfold tail_total.
  destruct (len mod 16)%nat as [|[|[|[|[|[|[|[|[|[|r]]]]]]]]]]; try reflexivity.
  - rewrite H1 by reflexivity. reflexivity.
  - rewrite H9 by reflexivity. reflexivity.
Qed.

(** *** against the published algorithm *)
Lemma m64_w64 x : m64 x = w64 x. Proof. reflexivity. Qed.
Lemma ref_k1_eq k : ref_k1 k = mix_k1 k.
Proof. unfold ref_k1, mix_k1, ref_c1, ref_c2. rewrite <- rotl_eq; [reflexivity|apply w64_u64|lia]. Qed.
Lemma ref_k2_eq k : ref_k2 k = mix_k2 k.
Proof. unfold ref_k2, mix_k2, ref_c1, ref_c2. rewrite <- rotl_eq; [reflexivity|apply w64_u64|lia]. Qed.
Lemma ref_block_eq h k : u128 h -> ref_block h k = block_step h k.
Proof.
  destruct h as [a b], k as [k1 k2]. intros [Ha Hb]; cbn [fst snd] in *. unfold ref_block, block_step; cbn [fst snd].
  rewrite ref_k1_eq, ref_k2_eq.
  rewrite <- !rotl_eq; try lia; try (apply lxor_u64; [assumption|auto using mix_k1_u64, mix_k2_u64]). reflexivity.
Qed.
Lemma ref_fmix_eq k : ref_fmix k = fmix64 k.
Proof. unfold ref_fmix, fmix64. cbv zeta. rewrite !Z.shiftr_div_pow2 by lia. reflexivity. Qed.
Lemma ref_final_eq h len : ref_final h len = finalise h len.
Proof. destruct h as [a b]. unfold ref_final, finalise; cbn [fst snd]. rewrite !ref_fmix_eq. reflexivity. Qed.
Lemma ref_fold_eq ks : forall h, u128 h -> fold_left ref_block ks h = fold_left block_step ks h.
Proof.
  induction ks as [|k ks IH]; intros h H; cbn [fold_left]; [reflexivity|].
  rewrite ref_block_eq by exact H. apply IH, block_step_u128.
Qed.

Lemma reference_eq m seed len : 0 <= seed < 2 ^ 32 ->
  reference m seed len =
  finalise (ref_tail m (16 * (len / 16)) (len mod 16) (fold_left block_step (map (key_block m) (seq 0 (len / 16))) (seed, seed))) (Z.of_nat len).
Proof.
  intros Hs. unfold reference. rewrite ref_final_eq, ref_fold_eq; [reflexivity|].
  split; cbn; unfold u64, M64; lia.
Qed.

Lemma agrees_l m seed len : 0 <= seed < 2 ^ 32 -> (len mod 16 <= 1)%nat ->
  x64_128 (fun j => Ok (m j)) seed len = Ok (reference m seed len).
Proof.
  intros Hs Hr. rewrite x64_total, reference_eq by exact Hs. do 2 f_equal.
  replace (16 * (len / 16))%nat with (len / 16 * 16)%nat by lia.
  destruct (fold_left block_step _ _) as [a b].
  destruct (len mod 16)%nat as [|[|r]]; [reflexivity| |lia].
  unfold tail_total, ref_tail. cbn [Nat.ltb Nat.leb Nat.min fst snd].
  rewrite ref_k1_eq. unfold word; cbn [seq map le_val]. do 3 f_equal. lia.
Qed.

(** at every other residue the two differ on some key of that length (in fact
    one of two keys that agree except for one tail byte) *)
Lemma differs_l seed len : 0 <= seed < 2 ^ 32 -> Z.of_nat len < 2 ^ 31 -> (2 <= len mod 16)%nat ->
  exists m, (forall i, is_byte (m i)) /\
    x64_128 (fun j => Ok (m j)) seed len <> Ok (reference m seed len).
Proof.
  intros Hs Hl Hr.
  set (m0 := fun _ : nat => 0). set (off := (len / 16 * 16)%nat).
  set (m1 := fun i : nat => if Nat.eqb i off then 1 else 0).
  pose proof (Nat.mod_upper_bound len 16 ltac:(lia)) as MB.
  assert (B0 : forall i, is_byte (m0 i)) by (intros; unfold m0, is_byte; lia).
  assert (B1 : forall i, is_byte (m1 i)) by (intros i; unfold m1, is_byte; destruct (Nat.eqb i off); lia).
  assert (Same : x64_128 (fun j => Ok (m0 j)) seed len = x64_128 (fun j => Ok (m1 j)) seed len).
  { apply tail_ignored_l; fold off.
    - intros j Hj. unfold m0, m1. destruct (Nat.eqb_spec j off); [lia|reflexivity].
    - lia.
    - intros _. unfold m0, m1. destruct (Nat.eqb_spec (off + 8) off); [lia|reflexivity]. }
  assert (Diff : reference m0 seed len <> reference m1 seed len).
  { rewrite !reference_eq by exact Hs. intros E.
    replace (16 * (len / 16))%nat with off in E by (unfold off; lia).
    assert (P : map (key_block m0) (seq 0 (len / 16)) = map (key_block m1) (seq 0 (len / 16))).
    { apply map_ext_in. intros i Hi. apply in_seq in Hi. apply key_block_ext. intros k Hk.
      unfold m0, m1. destruct (Nat.eqb_spec k off); [unfold off in *; lia|reflexivity]. }
    rewrite <- P in E.
    assert (U : u128 (fold_left block_step (map (key_block m0) (seq 0 (len / 16))) (seed, seed))).
    { apply fold_block_u128. split; cbn; unfold u64, M64; lia. }
    destruct (fold_left block_step (map (key_block m0) (seq 0 (len / 16))) (seed, seed)) as [a b].
    assert (UT : forall m, u128 (ref_tail m off (len mod 16) (a, b))).
    { intros m. unfold ref_tail. destruct U as [Ua Ub]; cbn [fst snd] in *. rewrite ref_k1_eq, ref_k2_eq.
      split; cbn [fst snd]; [destruct (Nat.ltb 0 _)|destruct (Nat.ltb 8 _)]; auto using lxor_u64, mix_k1_u64, mix_k2_u64. }
    apply finalise_inj in E; auto; [|unfold u64, M64; lia].
    unfold ref_tail in E. cbn [fst snd] in E. apply (f_equal fst) in E. cbn [fst] in E. rename E into E1.
    destruct (Nat.ltb_spec 0 (len mod 16)); [|lia].
    apply lxor_inj_r in E1. rewrite !ref_k1_eq in E1.
    set (q := Nat.min (len mod 16) 8) in *.
    assert (W : forall m, (forall i, is_byte (m i)) -> u64 (word m off q)).
    { intros m Hm. unfold word, u64.
      assert (F : Forall is_byte (map m (seq off q))) by (apply Forall_forall; intros x Hx; apply in_map_iff in Hx; destruct Hx as [i [<- _]]; apply Hm).
      apply le_val_range in F. rewrite map_length, seq_length in F.
      split; [lia|]. eapply Z.lt_le_trans; [apply F|].
      change M64 with (256 ^ 8). apply Z.pow_le_mono_r; lia. }
    apply mix_k1_inj in E1; auto.
    pose proof (word_inj m0 m1 off q B0 B1 E1 off ltac:(lia)) as C. unfold m0, m1 in C. rewrite Nat.eqb_refl in C. lia. }
  assert (D : exists h0, x64_128 (fun j => Ok (m0 j)) seed len = Ok h0) by (rewrite x64_total; eexists; reflexivity).
  destruct D as [h0 E0].
  assert (D : {h0 = reference m0 seed len} + {h0 <> reference m0 seed len}).
  { destruct h0 as [a b], (reference m0 seed len) as [a' b'].
    destruct (Z.eq_dec a a'); destruct (Z.eq_dec b b'); try (right; congruence). left; congruence. }
  destruct D as [D|D].
  - exists m1. split; [exact B1|]. rewrite <- Same, E0. intros C. apply Ok_inj in C. congruence.
  - exists m0. split; [exact B0|]. rewrite E0. intros C. apply Ok_inj in C. congruence.
Qed.
Lemma finalise_u128 h len : u128 (finalise h len).
Proof. destruct h as [a b]. unfold finalise. split; apply w64_u64. Qed.

(** *** C21, C23: the library's use of the hash *)
Lemma dec_digits_length : forall fuel n acc,
  0 <= n -> n < 10 ^ Z.of_nat fuel ->
  exists d, length (dec_digits fuel n acc) = (d + length acc)%nat /\ (d <= fuel)%nat /\
    n < 10 ^ Z.of_nat d /\ (n <> 0 -> 10 ^ (Z.of_nat d - 1) <= n) /\ (n = 0 -> (d <= 1)%nat) /\ ((0 < fuel)%nat -> (1 <= d)%nat).
Proof.
  induction fuel as [|f IH]; intros n acc Hn Hlt.
  - exists 0%nat. cbn [dec_digits]. cbn in Hlt. repeat split; lia.
  - cbn [dec_digits]. destruct (Z.eqb_spec (n / 10) 0) as [E|E].
    + exists 1%nat. repeat split; try (cbn; lia).
    + destruct (IH (n / 10) ((48 + n mod 10) :: acc)) as [d [L [Hd [A [B _]]]]]; [lia| |].
      { rewrite Nat2Z.inj_succ, Z.pow_succ_r in Hlt by lia. lia. }
      exists (S d). rewrite L. cbn [length].
      assert (Hd1 : (1 <= d)%nat) by (destruct d; [cbn in A; lia|lia]).
      specialize (B E).
      replace (Z.of_nat (S d) - 1) with (Z.succ (Z.of_nat d - 1)) by lia.
      rewrite Nat2Z.inj_succ, !Z.pow_succ_r by lia.
      set (t := 10 ^ (Z.of_nat d - 1)) in *. set (u := 10 ^ Z.of_nat d) in *. repeat split; lia.
Qed.

(** [dec_text n] has d digits when 10^(d-1) <= n < 10^d (one digit for 0) *)
Lemma dec_text_length n : 0 <= n ->
  let d := length (dec_text n) in
  (1 <= d)%nat /\ n < 10 ^ Z.of_nat d /\ (n <> 0 -> 10 ^ (Z.of_nat d - 1) <= n) /\ (n = 0 -> d = 1%nat).
Proof.
  intros Hn d. unfold d, dec_text.
  pose proof (num_bits_nonneg n) as NB. pose proof (num_bits_spec n) as NS.
  destruct (dec_digits_length (S (Z.to_nat (num_bits n))) n [] Hn) as [d' [L [_ [A [B [C D]]]]]].
  { rewrite Z.abs_eq in NS by lia.
    eapply Z.lt_le_trans; [exact NS|].
    eapply Z.le_trans; [apply Z.pow_le_mono_l with (b := 10); lia|apply Z.pow_le_mono_r; lia]. }
  rewrite L. cbn [length]. rewrite Nat.add_0_r. specialize (D ltac:(lia)).
  repeat split; auto. intros E0. specialize (C E0). lia.
Qed.
Lemma dec_text_length_unique n d : (1 <= d)%nat -> 0 <= n -> (d = 1%nat \/ 10 ^ (Z.of_nat d - 1) <= n) -> n < 10 ^ Z.of_nat d ->
  length (dec_text n) = d.
Proof.
  intros Hd Hn Hlo Hhi. destruct (dec_text_length n Hn) as [A [B [C D]]].
  set (e := length (dec_text n)) in *.
  destruct (Z.eq_dec n 0) as [->|N0].
  - rewrite D by reflexivity. destruct Hlo as [->|Hlo]; [reflexivity|]. pose proof (Z.pow_pos_nonneg 10 (Z.of_nat d - 1)). lia.
  - specialize (C N0).
    assert (Hlo' : 10 ^ (Z.of_nat d - 1) <= n) by (destruct Hlo as [->|Hlo]; [cbn; lia|exact Hlo]).
    assert (P : forall a b, (1 <= a)%nat -> (1 <= b)%nat -> 10 ^ (Z.of_nat a - 1) <= n -> n < 10 ^ Z.of_nat b -> (a <= b)%nat).
    { intros a b Ha Hb H1 H2. destruct (Nat.le_gt_cases a b); [assumption|].
      assert (10 ^ Z.of_nat b <= 10 ^ (Z.of_nat a - 1)) by (apply Z.pow_le_mono_r; lia). lia. }
    apply Nat.le_antisymm; apply P; auto.
Qed.

Lemma mapM_seq_fail {A} (f : nat -> res A) w i : forall n k, (k <= i < k + n)%nat ->
  (forall j, (k <= j < i)%nat -> exists a, f j = Ok a) -> f i = UB w -> mapM f (seq k n) = UB w.
Proof.
  induction n as [|n IH]; intros k Hi Hok Hf; [lia|]. cbn [seq mapM].
  destruct (Nat.eq_dec i k) as [->|N].
  - rewrite Hf. reflexivity.
  - destruct (Hok k ltac:(lia)) as [a ->]. cbn [bind].
    rewrite (IH (S k)); [reflexivity|lia| |exact Hf]. intros j Hj. apply Hok; lia.
Qed.

(** reads in order: the first forbidden address decides *)
Lemma getblock64_fail rd w i k : (8 * k <= i < 8 * k + 8)%nat ->
  (forall j, (j < i)%nat -> exists a, rd j = Ok a) -> rd i = UB w -> getblock64 rd k = UB w.
Proof.
  intros H Hok Hf. unfold getblock64. rewrite (mapM_seq_fail rd w i 8 (8 * k)); [reflexivity|exact H| |exact Hf].
  intros j Hj. apply Hok; lia.
Qed.
Lemma getblock64_fine rd k : (forall j, (8 * k <= j < 8 * k + 8)%nat -> exists a, rd j = Ok a) -> exists v, getblock64 rd k = Ok v.
Proof.
  intros H. unfold getblock64.
  assert (G : exists l, mapM rd (seq (8 * k) 8) = Ok l).
  { assert (G : forall m o, (forall j, (o <= j < o + m)%nat -> exists a, rd j = Ok a) -> exists l, mapM rd (seq o m) = Ok l).
    { induction m as [|m IH]; intros o Ho; [eexists; reflexivity|].
      cbn [seq mapM]. destruct (Ho o ltac:(lia)) as [a ->]. destruct (IH (S o)) as [l ->]; [intros j Hj; apply Ho; lia|].
      eexists; reflexivity. }
    apply G, H. }
  destruct G as [l ->]. eexists; reflexivity.
Qed.
Lemma body_fail rd w i : forall n h, (i < 16 * n)%nat ->
  (forall j, (j < i)%nat -> exists a, rd j = Ok a) -> rd i = UB w -> body rd n h = UB w.
Proof.
  intros n h Hi Hok Hf. unfold body.
  assert (G : forall n k h, (16 * k <= i < 16 * (k + n))%nat ->
     for_up n k (fun i h => do k1 <- getblock64 rd (i * 2 + 0); do k2 <- getblock64 rd (i * 2 + 1); Ok (block_step h (k1, k2))) h = UB w).
  { clear n h Hi. induction n as [|n IH]; intros k h Hi; [lia|]. cbn [for_up].
    destruct (Nat.lt_ge_cases i (16 * k + 8)).
    - rewrite (getblock64_fail rd w i (k * 2 + 0)); [reflexivity|lia|exact Hok|exact Hf].
    - destruct (getblock64_fine rd (k * 2 + 0)) as [v1 ->]; [intros j Hj; apply Hok; lia|]. cbn [bind].
      destruct (Nat.lt_ge_cases i (16 * k + 16)).
      + rewrite (getblock64_fail rd w i (k * 2 + 1)); [reflexivity|lia|exact Hok|exact Hf].
      + destruct (getblock64_fine rd (k * 2 + 1)) as [v2 ->]; [intros j Hj; apply Hok; lia|]. cbn [bind].
        apply IH. lia. }
  apply G. lia.
Qed.

Lemma string_memory_in text foreign j : (j <= length text)%nat -> exists a, string_memory text foreign j = Ok a.
Proof.
  intros H. unfold string_memory. destruct (Nat.ltb_spec j (length text)).
  - destruct (aget_lt text j) as [a [-> _]]; [assumption|]. eexists; reflexivity.
  - replace j with (length text) by lia. rewrite Nat.eqb_refl. eexists; reflexivity.
Qed.
Lemma string_memory_out text foreign j : (length text < j)%nat -> string_memory text foreign j = foreign j.
Proof.
  intros H. unfold string_memory. destruct (Nat.ltb_spec j (length text)); [lia|].
  destruct (Nat.eqb_spec j (length text)); [lia|reflexivity].
Qed.

Lemma hash_out_of_bounds_l seed n : 0 <= n -> murmur_hash no_foreign seed n 0 = UB OutOfBounds.
Proof.
  intros Hn. unfold murmur_hash. cbn [Nat.ltb Nat.leb andb].
  destruct (dec_text_length n Hn) as [Hd _]. set (t := dec_text n) in *.
  assert (E : x64_128 (string_memory t no_foreign) seed (4 * length t) = UB OutOfBounds); [|rewrite E; reflexivity].
  unfold x64_128.
  destruct (Nat.le_gt_cases 4 (length t)) as [H4|H4].
  - rewrite (body_fail _ OutOfBounds (S (length t))); [reflexivity| | |].
    + pose proof (Nat.div_mod (4 * length t) 16 ltac:(lia)). pose proof (Nat.mod_upper_bound (4 * length t) 16 ltac:(lia)).
      set (q := (4 * length t / 16)%nat) in *. set (r := ((4 * length t) mod 16)%nat) in *. lia.
    + intros j Hj. apply string_memory_in. lia.
    + rewrite string_memory_out by lia. reflexivity.
  - assert (C : (length t = 1 \/ length t = 2 \/ length t = 3)%nat) by lia.
    destruct C as [C|[C|C]]; rewrite C; cbn [Nat.mul Nat.add Nat.div Nat.modulo Nat.divmod fst snd Nat.sub body for_up bind tail];
      rewrite string_memory_out by lia; reflexivity.
Qed.

(** on a machine where the foreign bytes exist, the digest depends on them *)
Lemma string_memory_total text f : exists m, (forall j, string_memory text (some_foreign f) j = Ok (m j)) /\
  (forall j, (length text < j)%nat -> m j = f j) /\ (forall j, (j <= length text)%nat -> m j = nth j text 0).
Proof.
  exists (fun j => if Nat.ltb (length text) j then f j else nth j text 0). repeat split.
  - intros j. destruct (Nat.ltb_spec (length text) j).
    + rewrite string_memory_out by assumption. reflexivity.
    + unfold string_memory. destruct (Nat.ltb_spec j (length text)); [apply aget_nth; assumption|].
      replace j with (length text) by lia. rewrite Nat.eqb_refl, nth_overflow by lia. reflexivity.
  - intros j Hj. destruct (Nat.ltb_spec (length text) j); [reflexivity|lia].
  - intros j Hj. destruct (Nat.ltb_spec (length text) j); [lia|reflexivity].
Qed.
Lemma x64_ext r1 r2 seed len : (forall j, r1 j = r2 j) -> x64_128 r1 seed len = x64_128 r2 seed len.
Proof.
  intros E. unfold x64_128, body.
  assert (G : forall i, getblock64 r1 i = getblock64 r2 i).
  { intros i. unfold getblock64. f_equal. generalize (seq (8 * i) 8). intros l. induction l as [|a l IH]; [reflexivity|].
    cbn [mapM]. rewrite E. destruct (r2 a); cbn [bind]; try reflexivity. rewrite IH. reflexivity. }
  replace (for_up (len / 16) 0 (fun i h => do k1 <- getblock64 r1 (i * 2 + 0); do k2 <- getblock64 r1 (i * 2 + 1); Ok (block_step h (k1, k2))) (seed, seed))
     with (for_up (len / 16) 0 (fun i h => do k1 <- getblock64 r2 (i * 2 + 0); do k2 <- getblock64 r2 (i * 2 + 1); Ok (block_step h (k1, k2))) (seed, seed)).
  - destruct (for_up _ _ _ _) as [h| | | |]; cbn [bind]; try reflexivity.
    replace (tail r1 (len / 16) (len mod 16) h) with (tail r2 (len / 16) (len mod 16) h); [reflexivity|].
    destruct h as [h1 h2]. unfold tail.
    destruct (len mod 16)%nat as [|[|[|[|[|[|[|[|[|[|r]]]]]]]]]]; rewrite ?E; reflexivity.
  - apply for_up_ext. intros i s _. rewrite !G. reflexivity.
Qed.

Lemma dec_digits_byte : forall fuel n acc, 0 <= n -> Forall is_byte acc -> Forall is_byte (dec_digits fuel n acc).
Proof.
  induction fuel as [|f IH]; intros n acc Hn Ha; [exact Ha|]. cbn [dec_digits].
  assert (is_byte (48 + n mod 10)) by (unfold is_byte; lia).
  destruct (n / 10 =? 0); [constructor; assumption|]. apply IH; [lia|constructor; assumption].
Qed.

Lemma foreign_matters_l seed n : 0 <= seed < 2 ^ 32 -> 1000 <= n -> Z.of_nat (4 * length (dec_text n)) < 2 ^ 31 ->
  exists f f' d d', (forall i, is_byte (f i)) /\ (forall i, is_byte (f' i)) /\
    murmur_hash (some_foreign f) seed n 0 = Ok d /\ murmur_hash (some_foreign f') seed n 0 = Ok d' /\ d <> d'.
Proof.
  intros Hs Hn Hl. destruct (dec_text_length n ltac:(lia)) as [Hd [Hhi [Hlo _]]].
  assert (H4 : (4 <= length (dec_text n))%nat).
  { destruct (Nat.le_gt_cases 4 (length (dec_text n))); [assumption|].
    assert (10 ^ Z.of_nat (length (dec_text n)) <= 10 ^ 3) by (apply Z.pow_le_mono_r; lia). lia. }
  unfold murmur_hash. cbn [Nat.ltb Nat.leb andb].
  assert (BT : Forall is_byte (dec_text n)) by (apply dec_digits_byte; [lia|constructor]).
  set (t := dec_text n) in *. clearbody t.
  set (len := (4 * length t)%nat) in *.
  pose proof (Nat.div_mod len 16 ltac:(lia)) as DM. pose proof (Nat.mod_upper_bound len 16 ltac:(lia)) as MB.
  set (nb := (len / 16)%nat) in *. set (r := (len mod 16)%nat) in *.
  assert (Hnb : (1 <= nb)%nat) by lia.
  set (b := (nb - 1)%nat). set (pos := (16 * nb - 1)%nat).
  exists (fun _ => 0), (fun i => if Nat.eqb i pos then 1 else 0).
  destruct (string_memory_total t (fun _ => 0)) as [m0 [M0 [F0 I0]]].
  destruct (string_memory_total t (fun i => if Nat.eqb i pos then 1 else 0)) as [m1 [M1 [F1 I1]]].
  rewrite (x64_ext _ (fun j => Ok (m0 j)) seed len M0), (x64_ext _ (fun j => Ok (m1 j)) seed len M1).
  rewrite !x64_total. cbn [bind].
  eexists _, _. split; [intros; unfold is_byte; lia|]. split; [intros i; unfold is_byte; destruct (Nat.eqb i pos); lia|].
  split; [reflexivity|]. split; [reflexivity|].
  assert (BN : forall j, is_byte (nth j t 0)).
  { intros j. destruct (Nat.lt_ge_cases j (length t)).
    - rewrite Forall_forall in BT. apply BT, nth_In; assumption.
    - rewrite nth_overflow by assumption. unfold is_byte; lia. }
  assert (B0 : forall j, is_byte (m0 j)).
  { intros j. destruct (Nat.le_gt_cases j (length t)); [rewrite I0 by assumption; apply BN|rewrite F0 by assumption; unfold is_byte; lia]. }
  assert (B1 : forall j, is_byte (m1 j)).
  { intros j. destruct (Nat.le_gt_cases j (length t)); [rewrite I1 by assumption; apply BN|rewrite F1 by assumption].
    unfold is_byte; destruct (Nat.eqb j pos); lia. }
  intros E.
  pose proof (x64_total m0 seed len) as X0. pose proof (x64_total m1 seed len) as X1.
  apply digest_inj in E; [|apply finalise_u128|apply finalise_u128].
  refine (one_block_digest_l m0 m1 seed len b _ _ _ _ _ _ _ _ _ X0 X1 E); auto.
  - unfold b. fold nb. lia.
  - intros j Hj Hout. destruct (Nat.le_gt_cases j (length t)).
    + rewrite I0, I1 by assumption. reflexivity.
    + rewrite F0, F1 by assumption. destruct (Nat.eqb_spec j pos); [unfold pos, b in *; lia|reflexivity].
  - exists pos. split; [unfold pos, b; lia|]. rewrite F0, F1 by (unfold pos; lia). rewrite Nat.eqb_refl. discriminate.
Qed.

(** C23 *)
Lemma short_collide_l foreign seed n n' d : (1 <= d <= 3)%nat ->
  length (dec_text n) = d -> length (dec_text n') = d ->
  (forall i, exists v, foreign i = Ok v) ->
  exists g, murmur_hash foreign seed n 0 = Ok g /\ murmur_hash foreign seed n' 0 = Ok g.
Proof.
  intros Hd L L' F. unfold murmur_hash. cbn [Nat.ltb Nat.leb andb]. rewrite L, L'.
  assert (G : exists h, forall t, length t = d -> x64_128 (string_memory t foreign) seed (4 * d) = Ok h).
  { assert (C : (d = 1 \/ d = 2 \/ d = 3)%nat) by lia.
    clear L L'; destruct C as [C|[C|C]]; subst d; eexists; intros t Lt; unfold x64_128;
    cbn [Nat.mul Nat.add Nat.div Nat.modulo Nat.divmod fst snd Nat.sub body for_up bind tail];
    rewrite string_memory_out by lia; [destruct (F 3%nat) as [v ->] |destruct (F 7%nat) as [v ->] |destruct (F 11%nat) as [v ->]]; cbn [bind]; reflexivity. }
  destruct G as [h G]. exists (digest h). rewrite !G by assumption. split; reflexivity.
Qed.

Lemma dec_digits_value : forall fuel n acc, 0 <= n -> n < 10 ^ Z.of_nat fuel ->
  exists l, dec_digits fuel n acc = l ++ acc /\ fold_left (fun v c => 10 * v + (c - 48)) l 0 = n /\ Forall (fun c => 48 <= c <= 57) l.
Proof.
  induction fuel as [|f IH]; intros n acc Hn Hlt.
  - exists []. change (10 ^ Z.of_nat 0) with 1 in Hlt. split; [reflexivity|]. split; [cbn [fold_left]; lia|constructor].
  - cbn [dec_digits]. destruct (Z.eqb_spec (n / 10) 0) as [E|E].
    + exists [48 + n mod 10]. split; [reflexivity|]. cbn [fold_left]. split; [lia|]. repeat constructor; lia.
    + destruct (IH (n / 10) ((48 + n mod 10) :: acc)) as [l [L [V F]]]; [lia| |].
      { rewrite Nat2Z.inj_succ, Z.pow_succ_r in Hlt by lia. lia. }
      exists (l ++ [48 + n mod 10]). rewrite L, <- app_assoc. split; [reflexivity|].
      rewrite fold_left_app, V. cbn [fold_left]. split; [lia|]. apply Forall_app. split; [exact F|]. repeat constructor; lia.
Qed.
Lemma dec_text_value n : 0 <= n ->
  fold_left (fun v c => 10 * v + (c - 48)) (dec_text n) 0 = n /\ Forall (fun c => 48 <= c <= 57) (dec_text n).
Proof.
  intros Hn. unfold dec_text. pose proof (num_bits_nonneg n) as NB. pose proof (num_bits_spec n) as NS.
  destruct (dec_digits_value (S (Z.to_nat (num_bits n))) n [] Hn) as [l [L [V F]]].
  { rewrite Z.abs_eq in NS by lia. eapply Z.lt_le_trans; [exact NS|].
    eapply Z.le_trans; [apply Z.pow_le_mono_l with (b := 10); lia|apply Z.pow_le_mono_r; lia]. }
  rewrite L, app_nil_r. auto.
Qed.
