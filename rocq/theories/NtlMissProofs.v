From Verif Require Import Base Spec Lib NtlMiss.

Lemma blocks_least_l bits k :
  0 <= bits -> 0 < k -> bits + k - 1 < 2 ^ 64 ->
  exists n, blocks bits k = Ok n /\ least (fun n => bits <= n * k) n.
Proof.
  intros Hb Hk Hw. unfold blocks. destruct (Z.eqb_spec k 0); [lia|].
  rewrite w64_small by (unfold M64; lia).
  eexists; split; [reflexivity|].
  pose proof (Z.div_mod (bits + k - 1) k ltac:(lia)) as E.
  pose proof (Z.mod_pos_bound (bits + k - 1) k Hk) as M.
  set (q := (bits + k - 1) / k) in *. set (r := (bits + k - 1) mod k) in *.
  assert (0 <= q) by (apply Z.div_pos; lia).
  split; [lia|]. split; [nia|].
  intros m Hm Hle. destruct (Z_le_gt_dec q m); [lia|exfalso]. nia.
Qed.

Lemma blocks_wrap_l bits k :
  0 <= bits < 2 ^ 64 -> 0 < k < 2 ^ 64 -> 2 ^ 64 <= bits + k - 1 ->
  exists n, blocks bits k = Ok n /\ n * k < bits.
Proof.
  intros Hb Hk Hw. unfold blocks. destruct (Z.eqb_spec k 0); [lia|].
  eexists; split; [reflexivity|].
  assert (E : w64 (bits + k - 1) = bits + k - 1 - 2^64).
  { unfold w64. change M64 with (2^64). symmetry; apply Z.mod_unique with (q := 1); lia. }
  rewrite E.
  pose proof (Z.mul_div_le (bits + k - 1 - 2^64) k ltac:(lia)). nia.
Qed.

Lemma blocks_zero_l bits : blocks bits 0 = UB DivByZero.
Proof. reflexivity. Qed.

Lemma bytes_of_zz_least_l z : least (fun n => Z.abs z < 256 ^ n) (bytes_of_zz z).
Proof.
  unfold bytes_of_zz. pose proof (num_bits_nonneg z) as Hn.
  assert (P : forall n, 0 <= n -> 256 ^ n = 2 ^ (8 * n)).
  { intros n H. change 256 with (2 ^ 8). rewrite <- Z.pow_mul_r; lia. }
  split; [lia|]. split.
  - rewrite P by lia. eapply Z.lt_le_trans; [apply num_bits_spec|].
    apply Z.pow_le_mono_r; lia.
  - intros m Hm Hlt. rewrite P in Hlt by lia.
    apply num_bits_le in Hlt; lia.
Qed.

Lemma shr1_pos z : 0 <= z -> ntl_shr z 1 = z / 2.
Proof. intros H. rewrite ntl_shr_pos by lia. change (2^1) with 2. apply Z.quot_div_nonneg; lia. Qed.

Lemma log2_loop_spec n : forall z l2,
  0 < z < 2 ^ Z.of_nat (S n) -> 0 <= l2 -> l2 + Z.of_nat (S n) < M64 ->
  forall fuel, (S n <= fuel)%nat ->
  log2_loop fuel z l2 = Ok (l2 + Z.log2 z).
Proof.
  induction n as [|n IH]; intros z l2 Hz Hl Hm fuel Hf; (destruct fuel as [|fuel]; [lia|]); cbn [log2_loop].
  - change (2 ^ Z.of_nat 1) with 2 in Hz. assert (z = 1) by lia. subst z. simpl. f_equal; lia.
  - destruct (Z.ltb_spec 1 z) as [H1|H1].
    + rewrite shr1_pos by lia. rewrite w64_small by lia.
      rewrite IH.
      * f_equal. replace (z / 2) with (Z.shiftr z 1) by (rewrite Z.shiftr_div_pow2 by lia; reflexivity).
        rewrite Z.log2_shiftr by lia. pose proof (Z.log2_le_mono 2 z ltac:(lia)) as HL.
        change (Z.log2 2) with 1 in HL. lia.
      * rewrite Nat2Z.inj_succ, Z.pow_succ_r in Hz by lia. lia.
      * lia.
      * lia.
      * lia.
    + assert (z = 1) by lia. subst z. simpl. f_equal; lia.
Qed.

Lemma log2_floor_l z :
  1 <= z -> num_bits z < 2 ^ 64 ->
  exists N, forall fuel, (N <= fuel)%nat ->
  exists l, log2 fuel z = Ok l /\ 2 ^ l <= z < 2 ^ (l + 1).
Proof.
  intros Hz Hb. exists (Z.to_nat (num_bits z)). intros fuel Hf.
  exists (Z.log2 z). unfold log2.
  pose proof (num_bits_pos z ltac:(lia)) as Hp.
  rewrite (log2_loop_spec (Z.to_nat (num_bits z) - 1)).
  - split; [f_equal; lia|]. apply Z.log2_spec; lia.
  - split; [lia|]. eapply Z.le_lt_trans; [|apply Z.lt_le_trans with (m := 2 ^ num_bits z)].
    + apply Z.le_refl.
    + pose proof (num_bits_spec z). lia.
    + apply Z.pow_le_mono_r; lia.
  - lia.
  - change M64 with (2^64). lia.
  - lia.
Qed.

Lemma log2_small_l z fuel : z <= 1 -> log2 (S fuel) z = Ok 0.
Proof. intros H. unfold log2. cbn [log2_loop]. destruct (Z.ltb_spec 1 z); [lia|reflexivity]. Qed.

Lemma zeroPad_mul_l z k : 0 <= k < 2 ^ 63 -> zeroPad z k = z * 2 ^ k.
Proof.
  intros H. unfold zeroPad. destruct (Z.ltb_spec 0 k).
  - rewrite s64_small by lia. apply ntl_shl_pos; lia.
  - assert (k = 0) by lia. subst. change (2^0) with 1. lia.
Qed.

Lemma zeroPad_roundtrip_l z k :
  z <> 0 -> 0 <= k < 2 ^ 63 ->
  ntl_shr (zeroPad z k) k = z /\ k <= countLeadingZeros (zeroPad z k).
Proof.
  intros Hz Hk. rewrite zeroPad_mul_l by exact Hk.
  assert (0 < 2 ^ k) by (apply Z.pow_pos_nonneg; lia).
  split.
  - rewrite ntl_shr_pos by lia. apply Z.quot_mul; lia.
  - unfold countLeadingZeros. apply num_twos_ge; [nia|lia|]. exists z; reflexivity.
Qed.

Lemma zeroPad_inj_l z1 z2 k :
  0 <= k < 2 ^ 63 -> zeroPad z1 k = zeroPad z2 k -> z1 = z2.
Proof.
  intros Hk. rewrite !zeroPad_mul_l by exact Hk. intros E.
  apply Z.mul_reg_r in E; [exact E|]. apply Z.pow_nonzero; lia.
Qed.

Lemma zeroPad_zero_l k : zeroPad 0 k = 0.
Proof.
  unfold zeroPad. destruct (0 <? k); [|reflexivity]. unfold ntl_shl.
  destruct (0 <=? s64 k) eqn:E; [reflexivity|]. apply Z.quot_0_l. apply Z.pow_nonzero; lia.
Qed.

Lemma zeroPadTo_exact_l z padsize :
  z <> 0 -> num_bits z < padsize -> padsize < 2 ^ 32 ->
  (exists e, 0 <= e /\ zeroPadTo z padsize = z * 2 ^ e) /\
  num_bits (zeroPadTo z padsize) = padsize - 1.
Proof.
  intros Hz H1 H2. pose proof (num_bits_pos z Hz) as Hp.
  assert (E : zeroPadTo z padsize = z * 2 ^ (padsize - num_bits z - 1)).
  { unfold zeroPadTo. rewrite (w32_small (num_bits z)) by lia.
    destruct (Z.ltb_spec (num_bits z) padsize); [|lia].
    rewrite w64_small by (unfold M64; lia). rewrite (w32_small (padsize - num_bits z)) by lia.
    destruct (Z.ltb_spec 0 (padsize - num_bits z)); [|lia].
    rewrite w32_small by lia. apply ntl_shl_pos; lia. }
  split.
  - exists (padsize - num_bits z - 1). split; [lia|exact E].
  - rewrite E. set (e := padsize - num_bits z - 1) in *.
    assert (He : 0 <= e) by lia. assert (0 < 2 ^ e) by (apply Z.pow_pos_nonneg; lia).
    pose proof (num_bits_spec z) as Hu. pose proof (num_bits_lower z Hz) as Hl.
    assert (E2 : Z.abs (z * 2 ^ e) = Z.abs z * 2 ^ e) by (rewrite Z.abs_mul; f_equal; lia).
    destruct (Z.eq_dec (padsize - 1) 0) as [E0|E0]; [lia|].
    apply num_bits_unique; [lia|]. rewrite E2.
    replace (padsize - 1 - 1) with ((num_bits z - 1) + e) by lia.
    replace (padsize - 1) with (num_bits z + e) by lia.
    rewrite !Z.pow_add_r by lia. nia.
Qed.

Lemma zeroPadTo_same_l z padsize :
  0 <= padsize < 2 ^ 32 -> num_bits z < 2 ^ 32 -> (z = 0 \/ padsize <= num_bits z) -> zeroPadTo z padsize = z.
Proof.
  intros Hpos Hb [->|H].
  - unfold zeroPadTo. change (w32 (num_bits 0)) with 0.
    destruct (0 <? _) eqn:E; [|reflexivity]. unfold ntl_shl.
    destruct (0 <=? _) eqn:E2; [reflexivity|]. apply Z.quot_0_l, Z.pow_nonzero; lia.
  - unfold zeroPadTo. rewrite (w32_small (num_bits z)) by (pose proof (num_bits_nonneg z); lia).
    destruct (Z.ltb_spec (num_bits z) padsize); [lia|reflexivity].
Qed.

(** above 2^32 the 32-bit truncation of the shift makes the result too short *)
Lemma zeroPadTo_trunc_l :
  zeroPadTo 1 (2 ^ 32 + 2) = 1.
Proof. reflexivity. Qed.

(** * Copies to vec_ZZ_p *)
Lemma nth_error_firstn_lt {A} (l : list A) n i :
  (i < n)%nat -> nth_error (firstn n l) i = nth_error l i.
Proof.
  revert n i; induction l as [|x l IH]; intros [|n] [|i] H; simpl; try reflexivity; try lia.
  apply IH; lia.
Qed.
Lemma nth_ext_error {A} (l1 : list A) : forall l2,
  (forall j, nth_error l1 j = nth_error l2 j) -> l1 = l2.
Proof.
  induction l1 as [|x l1 IH]; intros [|y l2] H; [reflexivity|specialize (H 0%nat); discriminate H|specialize (H 0%nat); discriminate H|].
  f_equal; [specialize (H 0%nat); cbn in H; congruence|].
  apply IH. intros j. exact (H (S j)).
Qed.
Lemma copy_cells_ok (zp v : list Z) n :
  length zp = n -> (n <= length v)%nat -> copy_cells zp v n = Ok (firstn n v).
Proof.
  intros HL HV. unfold copy_cells.
  destruct (for_up_inv (fun i (z : list Z) => length z = n /\ forall j, (j < i)%nat -> nth_error z j = nth_error v j)
              n 0 (fun i zp => do x <- aget v i; aset zp i x) zp) as [z [E [L I]]].
  - split; [exact HL|intros j Hj; lia].
  - intros i z Hi [L I]. destruct (aget_lt v i) as [a [E1 E2]]; [lia|]. rewrite E1. cbn [bind].
    rewrite aset_ok by lia. eexists; split; [reflexivity|]. rewrite upd_length. split; [exact L|].
    intros j Hj. rewrite upd_nth. destruct (Nat.eqb_spec j i) as [->|N].
    + destruct (nth_error z i) eqn:En; [symmetry; exact E2|apply nth_error_None in En; lia].
    + apply I; lia.
  - rewrite E. f_equal. apply nth_ext_error. intros j.
    destruct (Nat.lt_ge_cases j n) as [Lt|Ge].
    + rewrite I by lia. symmetry. apply nth_error_firstn_lt; exact Lt.
    + rewrite (proj2 (nth_error_None z j)) by lia.
      rewrite (proj2 (nth_error_None (firstn n v) j)); [reflexivity|]. rewrite firstn_length_le; lia.
Qed.
Lemma copy_cells_short (v : list Z) n : forall m i0 (zp : list Z),
  length zp = n -> (i0 <= length v < i0 + m)%nat -> (i0 + m = n)%nat ->
  for_up m i0 (fun i zp => do x <- aget v i; aset zp i x) zp = UB OutOfBounds.
Proof.
  induction m as [|m IH]; intros i0 zp L H H2; [lia|].
  cbn [for_up]. unfold aget at 1.
  destruct (nth_error v i0) eqn:E; [|reflexivity].
  assert (i0 < length v)%nat by (apply nth_error_Some; congruence).
  cbn [bind]. rewrite aset_ok by lia. cbn [bind]. apply IH; [rewrite upd_length; exact L|lia|lia].
Qed.
Lemma set_length_length zp n : length (set_length zp n) = n.
Proof. unfold set_length. rewrite app_length, repeat_length, firstn_length. lia. Qed.
Lemma vector2VecZZp_eq v : vector2VecZZp v = Ok v.
Proof.
  unfold vector2VecZZp. rewrite copy_cells_ok; [|apply set_length_length|lia].
  rewrite firstn_all. reflexivity.
Qed.
Lemma vector2VecZZp_copy_l zp v : vector2VecZZp_into zp v = Ok v /\ vector2VecZZp v = Ok v.
Proof. split; [exact (vector2VecZZp_eq v)|exact (vector2VecZZp_eq v)]. Qed.
Lemma array2VecZZp_copy_l zp a dim :
  (dim <= length a)%nat ->
  exists v, array2VecZZp_into zp (Some a) dim = Ok v /\ array2VecZZp (Some a) dim = Ok v /\
            length v = dim /\ forall i, (i < dim)%nat -> nth_error v i = nth_error a i.
Proof.
  intros H. exists (firstn dim a). unfold array2VecZZp, array2VecZZp_into.
  rewrite copy_cells_ok; [|apply set_length_length|exact H].
  repeat split; [apply firstn_length_le; exact H|].
  intros i Hi. apply nth_error_firstn_lt; exact Hi.
Qed.
Lemma array2VecZZp_short_l zp a dim :
  (length a < dim)%nat ->
  array2VecZZp_into zp (Some a) dim = UB OutOfBounds /\ array2VecZZp (Some a) dim = UB OutOfBounds.
Proof.
  intros H. unfold array2VecZZp_into, array2VecZZp, copy_cells.
  rewrite (copy_cells_short a dim dim 0) by (try apply set_length_length; lia). split; reflexivity.
Qed.
Lemma array2VecZZp_null_l zp dim :
  array2VecZZp_into zp None dim = Ok zp /\ array2VecZZp None dim = Ok [].
Proof. split; reflexivity. Qed.
