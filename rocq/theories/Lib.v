(** Generic lemmas about the vocabulary of Base.v *)
From Verif Require Import Base Spec.
From Coq Require Export Lia ZifyBool.
Ltac Zify.zify_post_hook ::= Z.div_mod_to_equations.

Lemma M64_pos : 0 < M64. Proof. reflexivity. Qed.
Lemma w64_small z : 0 <= z < M64 -> w64 z = z.
Proof. intros H; unfold w64; apply Z.mod_small; exact H. Qed.
Lemma w64_range z : 0 <= w64 z < M64.
Proof. unfold w64; apply Z.mod_pos_bound; reflexivity. Qed.
Lemma w32_small z : 0 <= z < 2^32 -> w32 z = z.
Proof. intros H; unfold w32; apply Z.mod_small; exact H. Qed.

(** *** bind *)
Lemma Ok_inj {A} (a b : A) : Ok a = Ok b -> a = b.
Proof. congruence. Qed.
Lemma bind_ok {A B} (x : res A) (f : A -> res B) b :
  bind x f = Ok b -> exists a, x = Ok a /\ f a = Ok b.
Proof. destruct x; simpl; intros H; try discriminate; eauto. Qed.

Ltac inv_bind H :=
  let a := fresh "a" in let H1 := fresh "Hb" in
  apply bind_ok in H; destruct H as [a [H1 H]].

(** *** arrays *)
Lemma upd_length {A} (l : list A) i v : length (upd l i v) = length l.
Proof. revert i; induction l as [|h t IH]; intros [|i]; simpl; auto. Qed.

Lemma upd_nth {A} (l : list A) i v j :
  nth_error (upd l i v) j =
  if Nat.eqb j i then match nth_error l i with Some _ => Some v | None => None end
  else nth_error l j.
Proof.
  revert i j; induction l as [|h t IH]; intros [|i] [|j]; simpl; auto.
  destruct (Nat.eqb j i); reflexivity.
Qed.

Lemma upd_nth_same {A} (l : list A) i v :
  (i < length l)%nat -> nth_error (upd l i v) i = Some v.
Proof.
  intros H. rewrite upd_nth, Nat.eqb_refl.
  destruct (nth_error l i) eqn:E; auto.
  apply nth_error_None in E; lia.
Qed.

Lemma upd_nth_other {A} (l : list A) i v j :
  j <> i -> nth_error (upd l i v) j = nth_error l j.
Proof. intros H. rewrite upd_nth. destruct (Nat.eqb_spec j i); congruence. Qed.

Lemma upd_app_r {A} (l1 l2 : list A) i v :
  upd (l1 ++ l2) (length l1 + i) v = l1 ++ upd l2 i v.
Proof. induction l1; simpl; congruence. Qed.

Lemma upd_mid {A} (l1 l2 : list A) x v :
  upd (l1 ++ x :: l2) (length l1) v = l1 ++ v :: l2.
Proof. induction l1; simpl; congruence. Qed.

Lemma aget_ok {A} (l : list A) i a : aget l i = Ok a <-> nth_error l i = Some a.
Proof. unfold aget; destruct (nth_error l i); split; congruence. Qed.
Lemma aget_lt {A} (l : list A) i : (i < length l)%nat -> exists a, aget l i = Ok a /\ nth_error l i = Some a.
Proof.
  intros H. unfold aget. destruct (nth_error l i) eqn:E; eauto.
  apply nth_error_None in E; lia.
Qed.
Lemma aget_nth {A} (d : A) l i : (i < length l)%nat -> aget l i = Ok (nth i l d).
Proof. intros H. unfold aget. rewrite (nth_error_nth' _ d H). reflexivity. Qed.
Lemma aset_ok {A} (l : list A) i v : (i < length l)%nat -> aset l i v = Ok (upd l i v).
Proof. intros H; unfold aset; destruct (Nat.ltb_spec i (length l)); [reflexivity|lia]. Qed.
Lemma aset_inv {A} (l : list A) i v l' : aset l i v = Ok l' -> l' = upd l i v /\ (i < length l)%nat.
Proof. unfold aset; destruct (Nat.ltb_spec i (length l)); [split; congruence|discriminate]. Qed.

Lemma nth_upd {A} (d : A) l i v j :
  (i < length l)%nat -> nth j (upd l i v) d = if Nat.eqb j i then v else nth j l d.
Proof.
  revert i j; induction l as [|h t IH]; intros [|i] [|j] H; simpl in *; try lia; auto.
  apply IH; lia.
Qed.

(** *** loops *)
Lemma for_up_app {S} n m i0 (body : nat -> S -> res S) s :
  for_up (n + m) i0 body s = do s1 <- for_up n i0 body s; for_up m (i0 + n) body s1.
Proof.
  revert i0 s; induction n as [|n IH]; intros i0 s; simpl.
  - rewrite Nat.add_0_r. reflexivity.
  - destruct (body i0 s); simpl; auto. rewrite IH.
    replace (Datatypes.S i0 + n)%nat with (i0 + Datatypes.S n)%nat by lia. reflexivity.
Qed.

(** invariant rule for loops: total correctness *)
Lemma for_up_inv {S} (I : nat -> S -> Prop) n i0 (body : nat -> S -> res S) s :
  I i0 s ->
  (forall i s, (i0 <= i < i0 + n)%nat -> I i s -> exists s1, body i s = Ok s1 /\ I (Datatypes.S i) s1) ->
  exists s1, for_up n i0 body s = Ok s1 /\ I (i0 + n)%nat s1.
Proof.
  revert i0 s; induction n as [|n IH]; intros i0 s H0 Hs; simpl.
  - rewrite Nat.add_0_r; eauto.
  - destruct (Hs i0 s ltac:(lia) H0) as [s1 [E H1]]. rewrite E; simpl.
    destruct (IH (Datatypes.S i0) s1 H1) as [s2 [E2 H2]].
    { intros i s' Hi Hi'. apply Hs; [lia|exact Hi']. }
    exists s2; split; [exact E2|].
    replace (i0 + Datatypes.S n)%nat with (Datatypes.S i0 + n)%nat by lia. exact H2.
Qed.

Lemma for_up_ext {S} n i0 (b1 b2 : nat -> S -> res S) s :
  (forall i s, (i0 <= i < i0 + n)%nat -> b1 i s = b2 i s) -> for_up n i0 b1 s = for_up n i0 b2 s.
Proof.
  revert i0 s; induction n as [|n IH]; intros i0 s H; simpl; auto.
  rewrite (H i0 s) by lia. destruct (b2 i0 s); simpl; auto.
  apply IH. intros; apply H; lia.
Qed.

(** *** mapM *)
Lemma mapM_length {A B} (f : A -> res B) l l' : mapM f l = Ok l' -> length l' = length l.
Proof.
  revert l'; induction l as [|a l IH]; simpl; intros l' H; [inversion H; reflexivity|].
  inv_bind H. inv_bind H. inversion H; subst; simpl. f_equal; auto.
Qed.
Lemma mapM_ok {A B} (f : A -> res B) (g : A -> B) l :
  (forall a, In a l -> f a = Ok (g a)) -> mapM f l = Ok (map g l).
Proof.
  induction l as [|a l IH]; simpl; intros H; auto.
  rewrite H by auto; simpl. rewrite IH by auto; reflexivity.
Qed.
Lemma mapM_nth {A B} (f : A -> res B) l l' i a :
  mapM f l = Ok l' -> nth_error l i = Some a -> exists b, f a = Ok b /\ nth_error l' i = Some b.
Proof.
  revert l' i; induction l as [|x l IH]; simpl; intros l' i H Hi.
  - destruct i; discriminate.
  - inv_bind H. inv_bind H. inversion H; subst. destruct i; simpl in *.
    + inversion Hi; subst; eauto.
    + eauto.
Qed.
Lemma mapM_aget {A} (l : list A) n : (n <= length l)%nat -> mapM (aget l) (seq 0 n) = Ok (firstn n l).
Proof.
  intros H.
  destruct l as [|d l0]. { simpl in H; assert (n = 0)%nat by lia; subst; reflexivity. }
  set (l := d :: l0) in *.
  rewrite (mapM_ok _ (fun i => nth i l d)).
  - f_equal. apply nth_ext with (d := d) (d' := d).
    + rewrite map_length, seq_length, firstn_length; lia.
    + intros i Hi. rewrite map_length, seq_length in Hi.
      rewrite nth_indep with (d' := nth 0 l d) by (rewrite map_length, seq_length; lia).
      rewrite (map_nth (fun i => nth i l d)), seq_nth by lia.
      rewrite <- (firstn_skipn n l) at 1. rewrite app_nth1; [reflexivity|].
      rewrite firstn_length; lia.
  - intros i Hi. apply in_seq in Hi. apply aget_nth; lia.
Qed.

(** *** bits *)
Lemma num_bits_nonneg z : 0 <= num_bits z.
Proof. unfold num_bits; destruct (Z.eqb_spec z 0); [lia|]. pose proof (Z.log2_nonneg (Z.abs z)); lia. Qed.
Lemma num_bits_spec z : Z.abs z < 2 ^ num_bits z.
Proof.
  unfold num_bits; destruct (Z.eqb_spec z 0) as [->|H]; [reflexivity|].
  replace (Z.log2 (Z.abs z) + 1) with (Z.succ (Z.log2 (Z.abs z))) by lia.
  apply Z.log2_spec; lia.
Qed.
Lemma num_bits_lower z : z <> 0 -> 2 ^ (num_bits z - 1) <= Z.abs z.
Proof.
  intros H; unfold num_bits; destruct (Z.eqb_spec z 0) as [->|_]; [congruence|].
  replace (Z.log2 (Z.abs z) + 1 - 1) with (Z.log2 (Z.abs z)) by lia.
  apply Z.log2_spec; lia.
Qed.
Lemma num_bits_le z n : 0 <= n -> Z.abs z < 2 ^ n -> num_bits z <= n.
Proof.
  intros Hn H. unfold num_bits; destruct (Z.eqb_spec z 0) as [->|Hz]; [lia|].
  assert (Z.log2 (Z.abs z) < n) by (apply Z.log2_lt_pow2; lia). lia.
Qed.
Lemma num_bits_unique z n : 0 < n -> 2 ^ (n - 1) <= Z.abs z < 2 ^ n -> num_bits z = n.
Proof.
  intros Hn [H1 H2].
  assert (0 < 2 ^ (n-1)) by (apply Z.pow_pos_nonneg; lia).
  unfold num_bits; destruct (Z.eqb_spec z 0) as [->|Hz]; [simpl in *; lia|].
  rewrite (Z.log2_unique (Z.abs z) (n - 1)); try lia.
  replace (Z.succ (n-1)) with n by lia. lia.
Qed.
Lemma num_bits_pos z : z <> 0 -> 0 < num_bits z.
Proof. intros H; unfold num_bits; destruct (Z.eqb_spec z 0); [congruence|]. pose proof (Z.log2_nonneg (Z.abs z)); lia. Qed.

(** *** NumTwos *)
Lemma pos_twos_nonneg p : 0 <= pos_twos p.
Proof. induction p; cbn [pos_twos]; lia. Qed.
Lemma num_twos_nonneg z : 0 <= num_twos z.
Proof. destruct z; simpl; try lia; apply pos_twos_nonneg. Qed.

Lemma pos_twos_spec p : exists q, Zpos p = (2 * q + 1) * 2 ^ pos_twos p.
Proof.
  induction p as [p IH|p IH|].
  - exists (Zpos p). change (pos_twos p~1) with 0. lia.
  - destruct IH as [q Hq]. exists q. change (pos_twos p~0) with (1 + pos_twos p).
    rewrite Z.pow_add_r; [|lia|apply pos_twos_nonneg]. rewrite Pos2Z.inj_xO, Hq. ring.
  - exists 0. reflexivity.
Qed.
Lemma num_twos_spec z : z <> 0 -> exists q, z = (2 * q + 1) * 2 ^ num_twos z.
Proof.
  intros H; destruct z as [|p|p]; [congruence| |]; simpl num_twos.
  - apply pos_twos_spec.
  - destruct (pos_twos_spec p) as [q Hq]. exists (- q - 1).
    change (Zneg p) with (- Zpos p). rewrite Hq at 1. ring.
Qed.

Lemma num_twos_ge z k : z <> 0 -> 0 <= k -> (k <= num_twos z <-> (2 ^ k | z)).
Proof.
  intros Hz Hk. destruct (num_twos_spec z Hz) as [q Hq]. split.
  - intros H. exists ((2 * q + 1) * 2 ^ (num_twos z - k)).
    rewrite Hq at 1. rewrite <- Z.mul_assoc, <- Z.pow_add_r by lia. do 2 f_equal. lia.
  - intros [x Hx].
    destruct (Z_le_gt_dec k (num_twos z)) as [|Hgt]; [assumption|exfalso].
    pose proof (num_twos_nonneg z) as Hn.
    assert (E : 2 * q + 1 = 2 * (x * 2 ^ (k - num_twos z - 1))).
    { apply Z.mul_reg_r with (2 ^ num_twos z); [apply Z.pow_nonzero; lia|].
      transitivity z; [symmetry; exact Hq|]. rewrite Hx at 1.
      assert (Ek : 2 ^ k = 2 * 2 ^ (k - num_twos z - 1) * 2 ^ num_twos z).
      { rewrite <- Z.pow_succ_r, <- Z.pow_add_r by lia. f_equal; lia. }
      rewrite Ek. ring. }
    clear - E. generalize dependent (x * 2 ^ (k - num_twos z - 1)). intros y E. lia.
Qed.

(** *** shifts *)
Lemma ntl_shl_pos z k : 0 <= k -> ntl_shl z k = z * 2 ^ k.
Proof. intros H; unfold ntl_shl; destruct (Z.leb_spec 0 k); [reflexivity|lia]. Qed.
Lemma ntl_shr_pos z k : 0 <= k -> ntl_shr z k = Z.quot z (2 ^ k).
Proof.
  intros H; unfold ntl_shr, ntl_shl. destruct (Z.leb_spec 0 (- k)).
  - assert (k = 0) by lia; subst. simpl. rewrite Z.quot_1_r. lia.
  - rewrite Z.opp_involutive; reflexivity.
Qed.
Lemma s64_small z : 0 <= z < 2^63 -> s64 z = z.
Proof.
  intros H. unfold s64, M64. rewrite Z.mod_small by lia. destruct (Z.ltb_spec z (2^63)); lia.
Qed.

(** *** little endian *)
Lemma le_val_app a b : le_val (a ++ b) = le_val a + 256 ^ Z.of_nat (length a) * le_val b.
Proof.
  induction a as [|x a IH]; cbn [le_val length app].
  - change (Z.of_nat 0) with 0. rewrite Z.pow_0_r; lia.
  - rewrite Nat2Z.inj_succ, Z.pow_succ_r by lia. rewrite IH. ring.
Qed.
Lemma le_val_range l : Forall is_byte l -> 0 <= le_val l < 256 ^ Z.of_nat (length l).
Proof.
  induction 1 as [|x l Hx Hl IH]; cbn [le_val length]; [simpl; lia|].
  rewrite Nat2Z.inj_succ, Z.pow_succ_r by lia. unfold is_byte in Hx. lia.
Qed.
Lemma le_bytes_length n z : length (le_bytes n z) = n.
Proof. revert z; induction n; intros; simpl; auto. Qed.
Lemma le_bytes_is_byte n z : Forall is_byte (le_bytes n z).
Proof. revert z; induction n; intros; simpl; constructor; auto. unfold is_byte; lia. Qed.
Lemma le_val_le_bytes n z : le_val (le_bytes n z) = z mod 256 ^ Z.of_nat n.
Proof.
  revert z; induction n as [|n IH]; intros z.
  - simpl. rewrite Z.mod_1_r; reflexivity.
  - cbn [le_bytes le_val]. rewrite IH.
    rewrite Nat2Z.inj_succ, Z.pow_succ_r by lia.
    rewrite Z.rem_mul_r by (try lia; apply Z.pow_pos_nonneg; lia). reflexivity.
Qed.
Lemma le_bytes_le_val l : Forall is_byte l -> le_bytes (length l) (le_val l) = l.
Proof.
  induction 1 as [|x l Hx Hl IH]; simpl length; [reflexivity|].
  cbn [le_bytes le_val]. unfold is_byte in Hx.
  replace ((x + 256 * le_val l) / 256) with (le_val l) by lia. rewrite IH. f_equal. lia.
Qed.
Lemma le_val_inj a b : Forall is_byte a -> Forall is_byte b -> length a = length b ->
  le_val a = le_val b -> a = b.
Proof. intros Ha Hb HL E. rewrite <- (le_bytes_le_val a Ha), <- (le_bytes_le_val b Hb), HL, E. reflexivity. Qed.

Lemma LE_gen l i : sum_z (map (fun p => snd p * 256 ^ Z.of_nat (fst p)) (combine (seq i (length l)) l))
  = 256 ^ Z.of_nat i * le_val l.
Proof.
  revert i; induction l as [|x l IH]; intros i; [simpl; lia|].
  cbn [length seq combine map sum_z fold_right fst snd le_val].
  fold (sum_z (map (fun p => snd p * 256 ^ Z.of_nat (fst p)) (combine (seq (S i) (length l)) l))).
  rewrite IH. rewrite Nat2Z.inj_succ, Z.pow_succ_r by lia. ring.
Qed.
Lemma LE_le_val l : LE l = le_val l.
Proof. unfold LE. rewrite LE_gen. simpl Z.of_nat. rewrite Z.pow_0_r. lia. Qed.
