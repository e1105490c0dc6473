From Verif Require Import Base Spec Lib StrIntSpec StrIntModel.

(** *** sums over index ranges *)
Fixpoint nsum (f : nat -> Z) (n : nat) : Z :=
  match n with O => 0 | S m => nsum f m + f m end.

Lemma nsum_ext f g n : (forall i, (i < n)%nat -> f i = g i) -> nsum f n = nsum g n.
Proof. induction n as [|n IH]; cbn [nsum]; intros H; auto. rewrite IH, (H n) by (intros; auto with arith); auto. Qed.
Lemma nsum_add f g n : nsum (fun i => f i + g i) n = nsum f n + nsum g n.
Proof. induction n; cbn [nsum]; lia. Qed.
Lemma nsum_app f n m : nsum f (n + m) = nsum f n + nsum (fun i => f (n + i)%nat) m.
Proof.
  induction m as [|m IH]; cbn [nsum].
  - rewrite Nat.add_0_r; lia.
  - rewrite Nat.add_succ_r. cbn [nsum]. rewrite IH. lia.
Qed.

Lemma nsum_le_val l : nsum (fun i => nth i l 0 * 2 ^ (8 * Z.of_nat i)) (length l) = le_val l.
Proof.
  induction l as [|x l IH] using rev_ind; [reflexivity|].
  rewrite app_length; cbn [length]. rewrite Nat.add_comm; cbn [Nat.add nsum].
  rewrite app_nth2 by lia. rewrite Nat.sub_diag; cbn [nth].
  rewrite le_val_app. cbn [le_val].
  rewrite (nsum_ext _ (fun i => nth i l 0 * 2 ^ (8 * Z.of_nat i))).
  - rewrite IH. change 256 with (2 ^ 8). rewrite <- Z.pow_mul_r by lia. ring.
  - intros i Hi. rewrite app_nth1 by lia. reflexivity.
Qed.

(** *** one round of the tree *)
Definition cells (b : list Z) (i : nat) : Z := nth i b 0.

Lemma fold_half_ok j b :
  (2 * (j / 2) <= length b)%nat ->
  exists b1, fold_half j b = Ok b1 /\ length b1 = length b /\
    forall m, cells b1 m = if Nat.ltb m (j / 2) then cells b m + cells b (j / 2 + m) else cells b m.
Proof.
  intros HL. unfold fold_half.
  destruct (for_up_inv (fun i b' => length b' = length b /\
      forall m, cells b' m = if Nat.ltb m i then cells b m + cells b (j / 2 + m) else cells b m)
      (j / 2) 0
      (fun i b => do x <- aget b i; do y <- aget b (j / 2 + i); aset b i (x + y)) b)
    as [b1 [E [L C]]].
  - split; auto.
  - intros i b' Hi [L C]. cbn beta.
    rewrite (aget_nth 0) by lia; cbn [bind]. rewrite (aget_nth 0) by lia; cbn [bind].
    rewrite aset_ok by lia. eexists; split; [reflexivity|].
    split; [rewrite upd_length; exact L|].
    intros m. unfold cells in *. rewrite nth_upd by lia. rewrite !C.
    destruct (Nat.eqb_spec m i) as [->|Hne].
    + destruct (Nat.ltb_spec i (S i)); [|lia].
      destruct (Nat.ltb_spec i i); [lia|].
      destruct (Nat.ltb_spec (j/2 + i) i); [lia|]. reflexivity.
    + destruct (Nat.ltb_spec m i); destruct (Nat.ltb_spec m (S i)); try lia; reflexivity.
  - exists b1. auto.
Qed.

Lemma tree_round_ok j b :
  (1 < j <= length b)%nat ->
  exists b1, tree_round j b = Ok b1 /\ length b1 = length b /\
    nsum (cells b1) ((j + 1) / 2) = nsum (cells b) j.
Proof.
  intros HL. pose proof (Nat.div_mod j 2 ltac:(lia)) as E.
  pose proof (Nat.mod_upper_bound j 2 ltac:(lia)) as M.
  set (h := (j / 2)%nat) in *.
  destruct (fold_half_ok j b ltac:(fold h; lia)) as [b1 [E1 [L1 C1]]]. fold h in C1.
  unfold tree_round. rewrite E1; cbn [bind].
  assert (S0 : nsum (cells b1) h = nsum (cells b) (h + h)).
  { rewrite nsum_app, <- nsum_add. apply nsum_ext. intros i Hi. rewrite C1.
    destruct (Nat.ltb_spec i h); [reflexivity|lia]. }
  destruct (Nat.eqb_spec (j mod 2) 1) as [O|O].
  - rewrite (aget_nth 0) by lia; cbn [bind]. fold h.
    rewrite aset_ok by lia. eexists; split; [reflexivity|]. split; [rewrite upd_length; auto|].
    replace ((j + 1) / 2)%nat with (S h).
    2:{ replace (j + 1)%nat with ((S h) * 2)%nat by lia. rewrite Nat.div_mul; lia. }
    cbn [nsum].
    rewrite (nsum_ext _ (cells b1)).
    2:{ intros i Hi. unfold cells. rewrite nth_upd by lia. destruct (Nat.eqb_spec i h); [lia|reflexivity]. }
    rewrite S0. unfold cells at 2. rewrite nth_upd by lia. rewrite Nat.eqb_refl.
    change (nth (j - 1) b1 0) with (cells b1 (j - 1)). rewrite C1.
    destruct (Nat.ltb_spec (j - 1) h); [lia|].
    replace (nsum (cells b) j) with (nsum (cells b) (S (j - 1))) by (f_equal; lia). cbn [nsum].
    replace (j - 1)%nat with (h + h)%nat by lia. reflexivity.
  - exists b1. split; [reflexivity|]. split; [exact L1|].
    replace ((j + 1) / 2)%nat with h.
    2:{ apply Nat.div_unique with (r := 1%nat); lia. }
    rewrite S0. f_equal; lia.
Qed.

Lemma tree_sum_ok fuel : forall j b,
  (1 <= j <= length b)%nat -> (j <= fuel)%nat ->
  exists b1, tree_sum fuel j b = Ok b1 /\ length b1 = length b /\
    cells b1 0 = nsum (cells b) j.
Proof.
  induction fuel as [|f IH]; intros j b HL Hf; [lia|]. cbn [tree_sum].
  destruct (Nat.ltb_spec 1 j) as [H1|H1].
  - destruct (tree_round_ok j b ltac:(lia)) as [b1 [E1 [L1 S1]]].
    rewrite E1; cbn [bind].
    assert (1 <= (j + 1) / 2 /\ (j + 1) / 2 < j)%nat as [A1 A2].
    { pose proof (Nat.div_mod (j + 1) 2 ltac:(lia)).
      pose proof (Nat.mod_upper_bound (j + 1) 2 ltac:(lia)). lia. }
    destruct (IH ((j + 1) / 2)%nat b1 ltac:(lia) ltac:(lia)) as [b2 [E2 [L2 S2]]].
    exists b2. split; [exact E2|]. split; [congruence|]. congruence.
  - exists b. assert (j = 1)%nat by lia. subst. split; [reflexivity|]. split; auto.
Qed.

(** *** set *)
Definition pows (n : nat) : list Z := map (fun i => 2 ^ (8 * Z.of_nat i)) (seq 0 n).

(** reachable objects *)
Definition wf (s : strint) : Prop :=
  (1 <= si_len s)%nat /\ length (si_b s) = si_len s /\ si_pow2 s = pows (si_len s).

Lemma pows_nth n i : (i < n)%nat -> aget (pows n) i = Ok (2 ^ (8 * Z.of_nat i)).
Proof.
  intros H. apply aget_ok. unfold pows. rewrite nth_error_map.
  rewrite (nth_error_nth' _ 0%nat) by (rewrite seq_length; exact H).
  rewrite seq_nth by exact H. reflexivity.
Qed.

Lemma fill_cells_ok dim n b L :
  (dim <= length n)%nat -> (dim <= L)%nat -> length b = L ->
  exists b1, fill_cells dim n (pows L) b = Ok b1 /\ length b1 = length b /\
    forall m, cells b1 m = if Nat.ltb m dim then nth m n 0 * 2 ^ (8 * Z.of_nat m) else cells b m.
Proof.
  intros Hn HL Hb. unfold fill_cells.
  destruct (for_up_inv (fun i b' => length b' = length b /\
      forall m, cells b' m = if Nat.ltb m i then nth m n 0 * 2 ^ (8 * Z.of_nat m) else cells b m)
      dim 0
      (fun i b => do x <- aget n i; do p <- aget (pows L) i; aset b i (x * p)) b)
    as [b1 [E [L1 C]]].
  - split; auto.
  - intros i b' Hi [L' C]. cbn beta.
    rewrite (aget_nth 0) by lia; cbn [bind]. rewrite pows_nth by lia; cbn [bind].
    rewrite aset_ok by lia. eexists; split; [reflexivity|].
    split; [rewrite upd_length; exact L'|].
    intros m. unfold cells in *. rewrite nth_upd by lia. rewrite C.
    destruct (Nat.eqb_spec m i) as [->|Hne].
    + destruct (Nat.ltb_spec i (S i)); [|lia]. reflexivity.
    + destruct (Nat.ltb_spec m i); destruct (Nat.ltb_spec m (S i)); try lia; reflexivity.
  - exists b1. auto.
Qed.

Lemma set_bytes_ok s n len :
  wf s -> (1 <= len)%nat -> (Nat.min len (si_len s) <= length n)%nat ->
  exists s1, set_bytes s n len = Ok s1 /\ wf s1 /\ si_len s1 = si_len s /\
    si_z s1 = LE (firstn (Nat.min len (si_len s)) n) /\
    nth_error (si_b s1) 0 = Some (si_z s1).
Proof.
  intros [W1 [W2 W3]] Hlen Hn. unfold set_bytes. set (dim := Nat.min len (si_len s)) in *.
  rewrite W3.
  destruct (fill_cells_ok dim n (si_b s) (si_len s)) as [b1 [E1 [L1 C1]]]; try lia.
  rewrite E1; cbn [bind].
  destruct (tree_sum_ok (S dim) dim b1) as [b2 [E2 [L2 C2]]]; try lia.
  rewrite E2; cbn [bind].
  rewrite (aget_nth 0) by lia; cbn [bind].
  eexists; split; [reflexivity|]. cbn [si_z si_b si_len si_pow2].
  split; [unfold wf; cbn; repeat split; auto; lia|]. split; [reflexivity|].
  split.
  - change (nth 0 b2 0) with (cells b2 0). rewrite C2, LE_le_val, <- nsum_le_val.
    rewrite firstn_length. rewrite Nat.min_l by lia.
    apply nsum_ext. intros i Hi. rewrite C1. destruct (Nat.ltb_spec i dim); [|lia].
    f_equal. rewrite <- (firstn_skipn dim n) at 1. rewrite app_nth1; [reflexivity|].
    rewrite firstn_length; lia.
  - apply nth_error_nth'. lia.
Qed.

Lemma set_bytes_zero s n :
  wf s -> exists b0, nth_error (si_b s) 0 = Some b0 /\
  set_bytes s n 0 = Ok (mkStrInt (si_b s) b0 (si_pow2 s) (si_len s)).
Proof.
  intros [W1 [W2 W3]]. destruct (aget_lt (si_b s) 0 ltac:(lia)) as [b0 [E1 E2]].
  exists b0. split; [exact E2|].
  unfold set_bytes. cbn [Nat.min]. unfold fill_cells. cbn [for_up bind tree_sum Nat.ltb Nat.leb].
  rewrite E1. reflexivity.
Qed.

Lemma new_strint_fresh bytes : exists s, new_strint bytes None 0 = Ok s /\ wf s /\
  si_z s = 0 /\ nth_error (si_b s) 0 = Some 0 /\ si_len s = Nat.max 1 bytes.
Proof.
  unfold new_strint. set (L := match bytes with O => 1%nat | _ => bytes end).
  assert (HL : (L = Nat.max 1 bytes)%nat) by (subst L; destruct bytes; simpl; lia).
  assert (W : wf (mkStrInt (repeat 0 L) 0 (map (fun i => 2 ^ (8 * Z.of_nat i)) (seq 0 L)) L)).
  { unfold wf; cbn. rewrite repeat_length. repeat split; auto; lia. }
  destruct (set_bytes_zero _ (repeat 0 0) W) as [b0 [E1 E2]]. rewrite E2. cbn [si_b] in E1.
  assert (b0 = 0). { destruct L; simpl in E1; [lia|congruence]. } subst b0.
  eexists; split; [reflexivity|]. repeat split; cbn; auto; try lia. rewrite repeat_length; auto.
Qed.

Definition rel (L : nat) (s : strint) (a : Z * Z) : Prop :=
  wf s /\ si_len s = L /\ si_z s = fst a /\ nth_error (si_b s) 0 = Some (snd a).

Lemma step_refines L s a o : rel L s a -> op_valid o ->
  exists s1, apply_op s o = Ok s1 /\ rel L s1 (abs_step L a o).
Proof.
  intros [W [HL [Hz Hb]]] V. pose proof W as [W1 [W2 W3]].
  destruct o as [v|n len| |v]; cbn [apply_op abs_step].
  - eexists; split; [reflexivity|]. unfold rel, wf, set_ulong; cbn. repeat split; auto.
  - cbn in V. destruct len as [|len].
    + destruct (set_bytes_zero s n W) as [b0 [E1 E2]]. rewrite E2.
      eexists; split; [reflexivity|].
      assert (b0 = snd a) by congruence. subst b0. unfold rel, wf; cbn. repeat split; auto.
    + destruct (set_bytes_ok s n (S len) W ltac:(lia) ltac:(lia)) as [s1 [E [W' [L' [Z' B']]]]].
      exists s1. split; [exact E|]. rewrite HL in Z'. unfold rel. cbn [fst snd].
      repeat split; try apply W'; auto; congruence.
  - unfold inc. rewrite W3, pows_nth by lia. cbn [bind].
    eexists; split; [reflexivity|]. unfold rel, wf; cbn [si_len si_b si_pow2 si_z fst snd]. repeat split; auto.
    change (2 ^ (8 * Z.of_nat 0)) with 1. lia.
  - unfold add. rewrite aset_ok by lia. cbn [bind].
    eexists; split; [reflexivity|]. unfold rel, wf; cbn [si_len si_b si_pow2 si_z fst snd].
    rewrite upd_length. repeat split; auto; try lia. apply upd_nth_same; lia.
Qed.

Lemma run_refines L l : forall s a, rel L s a -> Forall op_valid l ->
  exists s1, run s l = Ok s1 /\ rel L s1 (fold_left (abs_step L) l a).
Proof.
  induction l as [|o l IH]; intros s a R V; cbn [run fold_left].
  - eauto.
  - inversion V; subst. destruct (step_refines L s a o R) as [s1 [E R1]]; auto.
    rewrite E; cbn [bind]. apply IH; auto.
Qed.

Lemma history_l bytes l : Forall op_valid l ->
  exists s0 s1, new_strint bytes None 0 = Ok s0 /\ run s0 l = Ok s1 /\
    let L := Nat.max 1 bytes in
    let a := fold_left (abs_step L) l (0, 0) in
    (forall d, 0 < d -> rem s1 d = Ok (fst a mod d)) /\
    si_z s1 = fst a /\ lsb s1 = Ok (snd a mod (2 ^ 64 - 1)).
Proof.
  intros V. destruct (new_strint_fresh bytes) as [s0 [E0 [W [Z0 [B0 L0]]]]].
  destruct (run_refines (Nat.max 1 bytes) l s0 (0, 0)) as [s1 [E1 [W1 [L1 [Z1 B1]]]]]; auto.
  { unfold rel; auto. }
  exists s0, s1. split; [exact E0|]. split; [exact E1|]. cbv zeta. split; [|split].
  - intros d Hd. unfold rem. destruct (Z.eqb_spec d 0); [lia|]. rewrite Z1. reflexivity.
  - exact Z1.
  - unfold lsb. rewrite (proj2 (aget_ok _ _ _) B1). reflexivity.
Qed.

Lemma abs_value L l : Forall nonempty_op l -> forall a,
  fst (fold_left (abs_step L) l a) = fold_left (value_step L) l (fst a).
Proof.
  induction 1 as [|o l Ho Hl IH]; intros a; cbn [fold_left]; [reflexivity|].
  rewrite IH. f_equal. destruct o as [v|n [|len]| |v]; cbn in *; try reflexivity. lia.
Qed.

Lemma history_value_l bytes l d : Forall op_valid l -> Forall nonempty_op l -> 0 < d ->
  exists s0 s1, new_strint bytes None 0 = Ok s0 /\ run s0 l = Ok s1 /\
    rem s1 d = Ok (fold_left (value_step (Nat.max 1 bytes)) l 0 mod d).
Proof.
  intros V N Hd. destruct (history_l bytes l V) as [s0 [s1 [E0 [E1 H]]]]. cbv zeta in H.
  exists s0, s1. split; [exact E0|]. split; [exact E1|].
  destruct H as [H _]. rewrite H by exact Hd. rewrite abs_value by exact N. reflexivity.
Qed.

Lemma new_strint_data bytes n len :
  (0 < bytes)%nat -> (1 <= len <= length n)%nat -> Z.of_nat len * Z.of_nat bytes < 2 ^ 64 ->
  exists s, new_strint bytes (Some n) len = Ok s /\ si_z s = LE (firstn (Nat.min len bytes) n).
Proof.
  intros Hb Hl Hw. unfold new_strint.
  rewrite w64_small by (unfold M64; nia).
  destruct (Z.ltb_spec 0 (Z.of_nat len * Z.of_nat bytes)); [|nia].
  destruct bytes as [|bytes]; [lia|]. cbv iota.
  match goal with |- exists s, set_bytes ?s0 _ _ = _ /\ _ =>
    destruct (set_bytes_ok s0 n len) as [s1 [E1 [_ [_ [Z1 _]]]]]
  end.
  - unfold wf; cbn [si_len si_b si_pow2]. rewrite repeat_length. repeat split; auto; lia.
  - lia.
  - cbn [si_len]. lia.
  - exists s1. split; [exact E1|exact Z1].
Qed.

Lemma LE_zeros k : LE (repeat 0 k) = 0.
Proof. rewrite LE_le_val. induction k as [|k IH]; [reflexivity|]. cbn [repeat le_val]. rewrite IH. reflexivity. Qed.
Lemma firstn_repeat {A} (a : A) k m : firstn k (repeat a m) = repeat a (Nat.min k m).
Proof. revert m; induction k as [|k IH]; intros [|m]; cbn; auto. f_equal. apply IH. Qed.

Lemma new_strint_zero bytes n len : n = None \/ bytes = O ->
  exists s, new_strint bytes n len = Ok s /\ si_z s = 0.
Proof.
  intros H.
  assert (E : exists s, set_bytes (mkStrInt (repeat 0 (match bytes with O => 1%nat | _ => bytes end)) 0
     (map (fun i => 2 ^ (8 * Z.of_nat i)) (seq 0 (match bytes with O => 1%nat | _ => bytes end)))
     (match bytes with O => 1%nat | _ => bytes end)) (repeat 0 len) len = Ok s /\ si_z s = 0).
  { set (L := match bytes with O => 1%nat | _ => bytes end).
    assert (W : wf (mkStrInt (repeat 0 L) 0 (map (fun i => 2 ^ (8 * Z.of_nat i)) (seq 0 L)) L)).
    { unfold wf; cbn. rewrite repeat_length. subst L; destruct bytes; repeat split; auto; lia. }
    destruct len as [|len].
    - destruct (set_bytes_zero _ (repeat 0 0) W) as [b0 [E1 E2]]. rewrite E2. eexists; split; [reflexivity|]. cbn [si_z si_b] in *.
      destruct L; cbn in E1; congruence.
    - destruct (set_bytes_ok _ (repeat 0 (S len)) (S len) W ltac:(lia)) as [s1 [E2 [_ [_ [Z1 _]]]]]; [rewrite repeat_length; lia|].
      exists s1. split; [exact E2|]. rewrite Z1, firstn_repeat, LE_zeros. reflexivity. }
  unfold new_strint. destruct n as [buf|]; [|exact E].
  destruct H as [H|H]; [discriminate|]. subst bytes. rewrite Z.mul_0_r. exact E.
Qed.

(** lsb against the documented low 64 bits *)
Lemma lsb_small v : 0 <= v < 2 ^ 64 - 1 -> v mod (2 ^ 64 - 1) = v mod 2 ^ 64.
Proof. intros H. rewrite !Z.mod_small; lia. Qed.

Lemma abs_snd_setB L n len a : (1 <= len)%nat ->
  abs_step L a (SetB n len) = (LE (firstn (Nat.min len L) n), LE (firstn (Nat.min len L) n)).
Proof. intros H. destruct len; [lia|reflexivity]. Qed.

Lemma lsb_after_set_l bytes l n len :
  Forall op_valid l -> (1 <= len <= length n)%nat ->
  exists s, (exists s0, new_strint bytes None 0 = Ok s0 /\ run s0 (l ++ [SetB n len]) = Ok s) /\
    let v := LE (firstn (Nat.min len (Nat.max 1 bytes)) n) in
    si_z s = v /\ lsb s = Ok (v mod (2 ^ 64 - 1)) /\
    (0 <= v < 2 ^ 64 - 1 -> lsb s = Ok (v mod 2 ^ 64)) /\
    (v = 2 ^ 64 - 1 -> lsb s = Ok 0).
Proof.
  intros V H. destruct (history_l bytes (l ++ [SetB n len])) as [s0 [s1 [E0 [E1 [_ [Z1 B1]]]]]].
  { apply Forall_app; split; [exact V|]. repeat constructor; cbn; lia. }
  rewrite fold_left_app in Z1, B1. cbn [fold_left] in Z1, B1. rewrite abs_snd_setB in Z1, B1 by lia.
  cbn [fst snd] in Z1, B1.
  exists s1. split; [exists s0; auto|]. cbv zeta.
  set (v := LE (firstn (Nat.min len (Nat.max 1 bytes)) n)) in *.
  split; [exact Z1|]. split; [exact B1|]. split.
  - intros Hv. rewrite B1, lsb_small by exact Hv. reflexivity.
  - intros Hv. rewrite B1, Hv. reflexivity.
Qed.

(** *** toBytes *)
Lemma overwrite_ok ws : forall buf, (length ws <= length buf)%nat ->
  overwrite buf ws = Ok (map Some ws ++ skipn (length ws) buf).
Proof.
  induction ws as [|w ws IH]; intros [|x buf] H; simpl in *; try reflexivity; try lia.
  rewrite IH by lia. reflexivity.
Qed.

Lemma export_words_length z : Z.of_nat (length (export_words z)) = (num_bits z + 7) / 8.
Proof. unfold export_words. rewrite rev_length, le_bytes_length. pose proof (num_bits_nonneg z). lia. Qed.

Lemma overwrite_short ws : forall buf, (length buf < length ws)%nat -> overwrite buf ws = UB OutOfBounds.
Proof.
  induction ws as [|w ws IH]; intros [|x buf] H; simpl in *; try reflexivity; try lia.
  rewrite IH by lia. reflexivity.
Qed.
Lemma export_words_short z n : 0 <= z -> (n < length (export_words z))%nat <-> 2 ^ (8 * Z.of_nat n) <= z.
Proof.
  intros Hz. pose proof (export_words_length z) as L. pose proof (num_bits_nonneg z) as N. split; intros H.
  - destruct (Z.lt_ge_cases z (2 ^ (8 * Z.of_nat n))) as [C|C]; [|exact C]. exfalso.
    assert (num_bits z <= 8 * Z.of_nat n) by (apply num_bits_le; [lia|rewrite Z.abs_eq by lia; exact C]). lia.
  - pose proof (num_bits_spec z) as U. rewrite Z.abs_eq in U by lia.
    assert (8 * Z.of_nat n < num_bits z) by (apply (Z.pow_lt_mono_r_iff 2); lia). lia.
Qed.
Lemma toBytes_overrun_l s buf : 2 ^ (8 * Z.of_nat (length buf)) <= si_z s ->
  toBytes s (Some buf) (Some (getByteSize s)) = UB OutOfBounds /\ toBytes s (Some buf) None = UB OutOfBounds.
Proof.
  intros H. assert (0 <= si_z s) by (pose proof (Z.pow_nonneg 2 (8 * Z.of_nat (length buf))); lia).
  unfold toBytes. rewrite Z.eqb_refl. cbv zeta. rewrite overwrite_short by (apply export_words_short; assumption). split; reflexivity.
Qed.
Lemma toBytes_nolen_l s barr : 0 <= si_z s -> match barr with Some buf => si_z s < 2 ^ (8 * Z.of_nat (length buf)) | None => True end ->
  toBytes s barr None = UB NullDeref.
Proof.
  intros Hz H. unfold toBytes. destruct barr as [buf|]; [|reflexivity]. rewrite overwrite_ok; [reflexivity|].
  destruct (Nat.le_gt_cases (length (export_words (si_z s))) (length buf)) as [C|C]; [exact C|]. apply export_words_short in C; lia.
Qed.

(** the caller's buffer has the length it claims *)
Definition buf_valid (barr : option (list (option Z))) (n : Z) : Prop :=
  match barr with Some buf => n <= Z.of_nat (length buf) | None => True end.

Lemma num_bits_ge2 z : 2 <= z -> 2 <= num_bits z.
Proof.
  intros H. unfold num_bits. destruct (Z.eqb_spec z 0); [lia|].
  pose proof (Z.log2_le_mono 2 (Z.abs z) ltac:(lia)) as HL. change (Z.log2 2) with 1 in HL. lia.
Qed.

Lemma toBytes_big_l s barr n :
  2 <= si_z s -> buf_valid barr n -> toBytes s barr (Some n) = Exit 2.
Proof.
  intros Hz Hv. unfold toBytes.
  pose proof (num_bits_ge2 _ Hz) as Hb.
  pose proof (export_words_length (si_z s)) as HW.
  assert (EL : getByteSize s = num_bits (si_z s)).
  { unfold getByteSize. destruct (Z.eqb_spec (si_z s) 0); [lia|]. rewrite Z.div_1_r. lia. }
  rewrite EL.
  assert (E1 : exists r, match (match barr with Some _ => if n =? num_bits (si_z s) then barr else Some (repeat None (Z.to_nat (num_bits (si_z s)))) | None => barr end) with
              | Some buf => do r <- overwrite buf (export_words (si_z s)); Ok (Some r)
              | None => Ok None end = Ok r).
  { destruct barr as [buf|].
    - cbn in Hv. destruct (Z.eqb_spec n (num_bits (si_z s))).
      + rewrite overwrite_ok by lia. cbn [bind]. eauto.
      + rewrite overwrite_ok by (rewrite repeat_length; lia). cbn [bind]. eauto.
    - eauto. }
  destruct E1 as [r E1]. rewrite E1. cbn [bind].
  destruct (Z.eqb_spec (Z.of_nat (length (export_words (si_z s)))) 0); [lia|]. cbn [andb bind].
  destruct (Z.eqb_spec (Z.of_nat (length (export_words (si_z s)))) (num_bits (si_z s))); [lia|reflexivity].
Qed.

Lemma toBytes_small_l s buf n v :
  si_z s = v -> v = 0 \/ v = 1 -> buf_valid (Some buf) n -> 
  exists rest, toBytes s (Some buf) (Some n) = Ok (mkBytesOut (Some (Some v :: rest)) 1).
Proof.
  intros Ez Hv Hb. cbn in Hb. unfold toBytes, getByteSize. rewrite Ez.
  assert (C : n <> 1 \/ exists x b, buf = x :: b).
  { destruct (Z.eq_dec n 1); [right|left; assumption]. destruct buf; [simpl in Hb; lia|eauto]. }
  destruct Hv as [-> | ->].
  - change (if 0 =? 0 then 1 else num_bits 0) with 1. change ((1 + 1 - 1) / 1) with 1.
    change (export_words 0) with (@nil Z).
    destruct (Z.eqb_spec n 1) as [E|E].
    + destruct C as [C|[x [b ->]]]; [congruence|]. eexists; reflexivity.
    + exists []. reflexivity.
  - change ((if 1 =? 0 then 1 else num_bits 1) + 1 - 1) with 1. change (1 / 1) with 1.
    change (export_words 1) with [1].
    destruct (Z.eqb_spec n 1) as [E|E].
    + destruct C as [C|[x [b ->]]]; [congruence|]. exists b; reflexivity.
    + exists []. reflexivity.
Qed.

Lemma toBytes_null_zero_l s n : si_z s = 0 -> toBytes s None (Some n) = UB NullDeref.
Proof. intros E. unfold toBytes, getByteSize. rewrite E. reflexivity. Qed.
Lemma toBytes_null_one_l s n : si_z s = 1 -> toBytes s None (Some n) = Ok (mkBytesOut None 1).
Proof. intros E. unfold toBytes, getByteSize. rewrite E. reflexivity. Qed.

(** *** any constructor call *)
Lemma run_app_l l1 : forall s l2, run s (l1 ++ l2) = bind (run s l1) (fun s1 => run s1 l2).
Proof. induction l1 as [|o l1 IH]; intros s l2; [reflexivity|]. cbn [app run]. destruct (apply_op s o); cbn [bind]; auto. Qed.
Lemma new_strint_empty bytes :
  let L := match bytes with O => 1%nat | _ => bytes end in
  new_strint bytes None 0 = Ok (mkStrInt (repeat 0 L) 0 (map (fun i => 2 ^ (8 * Z.of_nat i)) (seq 0 L)) L).
Proof. destruct bytes as [|b]; reflexivity. Qed.
Lemma new_strint_as_set bytes n len s0 : (0 < bytes)%nat -> (1 <= len)%nat -> Z.of_nat len * Z.of_nat bytes < 2 ^ 64 ->
  new_strint bytes None 0 = Ok s0 -> new_strint bytes (Some n) len = run s0 [SetB n len].
Proof.
  intros Hb Hl Hw E. rewrite new_strint_empty in E. apply Ok_inj in E. subst s0. unfold new_strint.
  rewrite w64_small by (unfold M64; nia). destruct (Z.ltb_spec 0 (Z.of_nat len * Z.of_nat bytes)); [|nia].
  cbn [run apply_op]. destruct (set_bytes _ n len); reflexivity.
Qed.
Lemma history_data_l bytes n len l d : (0 < bytes)%nat -> (1 <= len <= length n)%nat -> Z.of_nat len * Z.of_nat bytes < 2 ^ 64 ->
  Forall op_valid l -> Forall nonempty_op l -> 0 < d ->
  exists s0 s1, new_strint bytes (Some n) len = Ok s0 /\ run s0 l = Ok s1 /\
    rem s1 d = Ok (fold_left (value_step bytes) l (LE (firstn (Nat.min len bytes) n)) mod d).
Proof.
  intros Hb Hl Hw V N Hd.
  destruct (history_value_l bytes (SetB n len :: l) d) as [s [s1 [E0 [E1 R]]]]; [constructor; [cbn; lia|exact V]|constructor; [cbn; lia|exact N]|exact Hd|].
  change (SetB n len :: l) with ([SetB n len] ++ l) in E1. rewrite run_app_l in E1. rewrite <- (new_strint_as_set bytes n len s Hb (proj1 Hl) Hw E0) in E1.
  apply bind_ok in E1. destruct E1 as [s2 [E2 E1]]. exists s2, s1. split; [exact E2|]. split; [exact E1|].
  rewrite R. cbn [fold_left value_step]. replace (Nat.max 1 bytes) with bytes by lia. reflexivity.
Qed.
