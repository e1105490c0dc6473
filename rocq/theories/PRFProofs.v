(** Proofs about the PRF model. *)
From Verif Require Import Base Spec Lib NtlMiss NtlMissProofs PRFModel PRFSpec.
From Coq Require Import Lia.

Lemma skipn_skipn {A} x y (l : list A) : skipn x (skipn y l) = skipn (x + y) l.
Proof.
  revert l. induction y as [|y IH]; intros l; [rewrite Nat.add_0_r; reflexivity|].
  replace (x + S y)%nat with (S (x + y)) by lia. destruct l as [|a l]; [rewrite !skipn_nil; reflexivity|]. cbn [skipn]. apply IH.
Qed.
(** *** arrays of cells *)
Lemma zset_mid {A} (a c d : list A) x v off : Z.of_nat (length a) = off ->
  zset (a ++ x :: d) off v = Ok (a ++ v :: d).
Proof.
  intros <-. unfold zset. destruct (Z.ltb_spec (Z.of_nat (length a)) 0); [lia|]. rewrite Nat2Z.id.
  rewrite aset_ok by (rewrite app_length; cbn [length]; lia). f_equal. apply upd_mid.
Qed.
Lemma write_at_mid : forall bs a c d off, Z.of_nat (length a) = off -> length c = length bs ->
  write_at (a ++ c ++ d) off bs = Ok (a ++ map Some bs ++ d).
Proof.
  induction bs as [|b bs IH]; intros a c d off Ho Hc.
  - destruct c; [reflexivity|discriminate].
  - destruct c as [|x c]; [discriminate|]. cbn [write_at app map].
    rewrite (zset_mid a c (c ++ d) x (Some b) off Ho). cbn [bind].
    specialize (IH (a ++ [Some b]) c d (off + 1)).
    rewrite <- !app_assoc in IH. cbn [app] in IH. apply IH; [rewrite app_length; cbn [length]; lia|cbn [length] in Hc; lia].
Qed.
Lemma write_at_ok bs buf (off : Z) : 0 <= off -> off + Z.of_nat (length bs) <= Z.of_nat (length buf) ->
  write_at buf off bs = Ok (firstn (Z.to_nat off) buf ++ map Some bs ++ skipn (Z.to_nat off + length bs) buf).
Proof.
  intros H0 H1. set (o := Z.to_nat off). assert (Eo : off = Z.of_nat o) by lia.
  replace buf with (firstn o buf ++ firstn (length bs) (skipn o buf) ++ skipn (o + length bs) buf) at 1.
  - apply write_at_mid; [rewrite firstn_length; lia|rewrite firstn_length, skipn_length; lia].
  - replace (skipn (o + length bs) buf) with (skipn (length bs) (skipn o buf)).
    + rewrite firstn_skipn. apply firstn_skipn.
    + clear. rewrite skipn_skipn. f_equal. lia.
Qed.

Lemma read_cell_at a x d i : Z.of_nat (length a) = i -> read_cell (a ++ Some x :: d) i = Ok x.
Proof.
  intros <-. unfold read_cell, zget. destruct (Z.ltb_spec (Z.of_nat (length a)) 0); [lia|].
  rewrite Nat2Z.id. unfold aget. rewrite nth_error_app2, Nat.sub_diag by lia. reflexivity.
Qed.
Lemma read_prefix_some bs d n : Z.of_nat (length bs) = n -> read_prefix (map Some bs ++ d) n = Ok bs.
Proof.
  intros <-. unfold read_prefix. rewrite Nat2Z.id.
  assert (G : forall bs a d, mapM (fun i => read_cell (map Some a ++ map Some bs ++ d) (Z.of_nat i)) (seq (length a) (length bs)) = Ok bs).
  { clear. induction bs as [|b bs IH]; intros a d; [reflexivity|]. cbn [map app seq length mapM].
    rewrite read_cell_at by (rewrite map_length; reflexivity). cbn [bind].
    replace (map Some a ++ Some b :: map Some bs ++ d) with (map Some (a ++ [b]) ++ map Some bs ++ d)
      by (rewrite map_app, <- app_assoc; reflexivity).
    replace (S (length a)) with (length (a ++ [b])) by (rewrite app_length; cbn [length]; lia).
    rewrite IH. reflexivity. }
  apply (G bs [] d).
Qed.

Section S.
Variable sha : list Z -> list Z.
Hypothesis Hsha : is_sha sha.

(** *** the chain *)
Lemma chain_length x m : length (chain sha x m) = (20 * m)%nat.
Proof.
  revert x. induction m as [|m IH]; intros x; [reflexivity|]. cbn [chain]. rewrite app_length, IH.
  destruct (Hsha x) as [-> _]. lia.
Qed.
Lemma chain_bytes x m : Forall is_byte (chain sha x m).
Proof.
  revert x. induction m as [|m IH]; intros x; [constructor|]. cbn [chain]. apply Forall_app.
  split; [apply Hsha|apply IH].
Qed.
Lemma chain_firstn : forall m m' x k, (k <= 20 * m)%nat -> (k <= 20 * m')%nat ->
  firstn k (chain sha x m) = firstn k (chain sha x m').
Proof.
  induction m as [|m IH]; intros m' x k H H'.
  - replace k with 0%nat by lia. reflexivity.
  - destruct m' as [|m']; [replace k with 0%nat by lia; reflexivity|].
    cbn [chain]. rewrite !firstn_app. destruct (Hsha x) as [-> _]. f_equal. apply IH; lia.
Qed.

Lemma sha_nonempty x : exists b t, sha x = b :: t.
Proof. destruct (Hsha x) as [L _]. destruct (sha x) as [|b t]; [discriminate|]. eauto. Qed.

Lemma fill_ok : forall fuel (done : list Z) rest n r x,
  (Z.to_nat r < fuel)%nat -> 0 < r -> n < M64 -> Z.of_nat (length done) = n - r ->
  r <= Z.of_nat (length rest) -> x <> [] ->
  fill sha fuel (map Some done ++ rest) n r x =
    Ok (map Some (done ++ firstn (Z.to_nat r) (chain sha x (Z.to_nat r))) ++ skipn (Z.to_nat r) rest).
Proof.
  induction fuel as [|f IH]; intros done rest n r x Hf Hr Hn Hd Hrest Hx; [lia|].
  cbn [fill]. unfold sha_bytes. destruct x as [|x0 xt]; [congruence|]. cbn [bind]. set (x := x0 :: xt) in *.
  set (k := if r <? hash_size then r else hash_size).
  assert (Hk : 0 < k <= r /\ k <= 20 /\ (k = r \/ k = 20)).
  { unfold k, hash_size. destruct (Z.ltb_spec r 20); lia. }
  destruct (Hsha x) as [LS _].
  rewrite w64_small by (split; lia).
  replace (map Some done ++ rest) with (map Some done ++ firstn (Z.to_nat k) rest ++ skipn (Z.to_nat k) rest)
    by (rewrite firstn_skipn; reflexivity).
  rewrite write_at_mid; [|rewrite map_length; lia|rewrite !firstn_length; lia]. cbn [bind].
  replace (map Some done ++ map Some (firstn (Z.to_nat k) (sha x)) ++ skipn (Z.to_nat k) rest)
     with (map Some (done ++ firstn (Z.to_nat k) (sha x)) ++ skipn (Z.to_nat k) rest) by (rewrite map_app, app_assoc; reflexivity).
  destruct (Z.ltb_spec 0 (r - k)) as [H|H].
  - assert (Ek : k = 20) by lia. rewrite Ek in *.
    rewrite IH; [| | |lia| | | ].
    + f_equal. f_equal; [|rewrite skipn_skipn; f_equal; lia]. f_equal. rewrite <- app_assoc. f_equal.
      rewrite (chain_firstn (Z.to_nat r) (S (Z.to_nat (r - 20))) x (Z.to_nat r)) by lia.
      cbn [chain]. rewrite firstn_app, LS. rewrite !firstn_all2 with (l := sha x) by lia.
      f_equal. f_equal. lia.
    + lia.
    + lia.
    + rewrite app_length, firstn_length, LS. lia.
    + rewrite skipn_length. lia.
    + destruct (sha_nonempty x) as [b [t ->]]. discriminate.
  - assert (Ek : k = r) by lia. rewrite Ek. f_equal. f_equal. f_equal. f_equal.
    destruct (Z.to_nat r) as [|m] eqn:Em; [lia|]. cbn [chain]. rewrite firstn_app, LS.
    replace (S m - 20)%nat with 0%nat by lia. rewrite app_nil_r. reflexivity.
Qed.

Variable rand : nat -> Z.
(** *** cutting bits *)
Lemma cut_bits_mod b r : is_byte b -> 0 <= r <= 8 -> cut_bits b r = Ok (b mod 2 ^ (8 - r)).
Proof.
  intros Hb Hr. unfold cut_bits. destruct (Z.ltb_spec r 32); [|lia]. f_equal.
  rewrite Z.shiftl_mul_pow2, Z.shiftr_div_pow2 by lia. unfold w8.
  replace 256 with (2 ^ (8 - r) * 2 ^ r) at 1 by (rewrite <- Z.pow_add_r by lia; change 256 with (2 ^ 8); f_equal; lia).
  assert (P1 : 0 < 2 ^ (8 - r)) by (apply Z.pow_pos_nonneg; lia).
  assert (P2 : 0 < 2 ^ r) by (apply Z.pow_pos_nonneg; lia).
  rewrite Z.mul_mod_distr_r by lia. rewrite Z.div_mul by lia.
  apply Z.mod_small. pose proof (Z.mod_pos_bound b (2 ^ (8 - r)) P1). unfold is_byte in Hb.
  assert (2 ^ (8 - r) <= 2 ^ 8) by (apply Z.pow_le_mono_r; lia). change (2 ^ 8) with 256 in *. lia.
Qed.
Lemma cut_bits_big b r : 32 <= r -> cut_bits b r = UB BadShift.
Proof. intros H. unfold cut_bits. destruct (Z.ltb_spec r 32); [lia|reflexivity]. Qed.
Lemma cut_bits_zero b r : is_byte b -> 8 <= r < 32 -> cut_bits b r = Ok 0.
Proof.
  intros Hb Hr. unfold cut_bits. destruct (Z.ltb_spec r 32); [|lia]. f_equal.
  rewrite Z.shiftl_mul_pow2 by lia. unfold w8.
  replace (b * 2 ^ r) with (b * 2 ^ (r - 8) * 256).
  - rewrite Z.mod_mul by lia. rewrite Z.shiftr_0_l. reflexivity.
  - change 256 with (2 ^ 8). rewrite <- Z.mul_assoc, <- Z.pow_add_r by lia. do 2 f_equal. lia.
Qed.

Definition wf (st : prf) : Prop :=
  Z.of_nat (length (p_gen st)) = p_genLength st /\ Z.of_nat (length (p_hashInput st)) = p_hashInputSize st /\
  Forall (fun c => match c with Some b => is_byte b | None => True end) (p_gen st).
Lemma new_prf_wf pos : wf (new_prf pos). Proof. repeat split. constructor. Qed.

Lemma byte_count_eq z : Z.of_nat (byte_count z) = bytes_of_zz z.
Proof. unfold byte_count, bytes_of_zz. pose proof (num_bits_nonneg z). lia. Qed.

(** common part: after the sizes are fixed *)
Definition after_n (st : prf) (seed index bits n : Z) (pos : nat) : res (prf * Z) :=
  let len := bytes_of_zz seed + 8 in
  let gen := if p_genLength st <? n then repeat None (Z.to_nat n) else p_gen st in
  let genLength := if p_genLength st <? n then n else p_genLength st in
  let hsize := if p_hashInputSize st <? len
               then (if len <? hash_size then hash_size else len) else p_hashInputSize st in
  let hin := if p_hashInputSize st <? len then repeat None (Z.to_nat hsize) else p_hashInput st in
  do hin <- write_at hin 0 (le_bytes (Z.to_nat (bytes_of_zz seed)) (Z.abs seed));
  do hin <- write_at hin (bytes_of_zz seed) (le_bytes 8 index);
  do input <- read_prefix hin len;
  do gen <- fill sha (S (Z.to_nat n)) gen n n input;
  let rbits := w64 (n * 8 - bits) in
  do b <- read_cell gen (n - 1);
  do b <- cut_bits b rbits;
  do gen <- zset gen (n - 1) (Some b);
  do bs <- read_prefix gen n;
  Ok ({| p_gen := gen; p_genLength := genLength; p_hashInput := hin; p_hashInputSize := hsize;
         p_autoIndex := p_autoIndex st; p_autoSeed := p_autoSeed st; p_pos := pos |}, le_val bs).

Lemma generate_split fuel st seed index bits :
  generate sha rand fuel st seed index bits =
  do (n, pos) <- (if bits =? 0 then
                    do (rnd, pos) <- rand_nonzero rand fuel (p_pos st);
                    do n <- bytes_of_bits rnd; Ok (n, pos)
                  else do n <- bytes_of_bits bits; Ok (n, p_pos st));
  after_n st seed index bits n pos.
Proof. reflexivity. Qed.

Lemma firstn_split_last (l : list Z) n : (n < length l)%nat ->
  firstn (S n) l = firstn n l ++ [nth n l 0].
Proof.
  revert n. induction l as [|a l IH]; intros n H; [cbn in H; lia|]. destruct n; [reflexivity|].
  change (firstn (S (S n)) (a :: l)) with (a :: firstn (S n) l).
  rewrite IH by (cbn [length] in H; lia). reflexivity.
Qed.

Lemma after_n_ok st seed index bits n pos : wf st -> 0 < n -> n < M64 ->
  let full := firstn (Z.to_nat n) (chain sha (hash_input seed index) (Z.to_nat n)) in
  let init := firstn (Z.to_nat n - 1) full in
  let last := nth (Z.to_nat n - 1) full 0 in
  length full = Z.to_nat n /\ full = init ++ [last] /\
  after_n st seed index bits n pos =
    (do b <- cut_bits last (w64 (n * 8 - bits));
     Ok ({| p_gen := map Some (init ++ [b]) ++ skipn (Z.to_nat n) (if p_genLength st <? n then repeat None (Z.to_nat n) else p_gen st);
            p_genLength := Z.max n (p_genLength st);
            p_hashInput := map Some (hash_input seed index) ++ skipn (length (hash_input seed index))
               (if p_hashInputSize st <? bytes_of_zz seed + 8 then repeat None (Z.to_nat (Z.max 20 (bytes_of_zz seed + 8))) else p_hashInput st);
            p_hashInputSize := if p_hashInputSize st <? bytes_of_zz seed + 8 then Z.max 20 (bytes_of_zz seed + 8) else p_hashInputSize st;
            p_autoIndex := p_autoIndex st; p_autoSeed := p_autoSeed st; p_pos := pos |}, le_val (init ++ [b]))).
Proof.
  intros W Hn Hn64 full init last.
  assert (LF : length full = Z.to_nat n) by (unfold full; rewrite firstn_length, chain_length; lia).
  assert (SF : full = init ++ [last]).
  { unfold init, last. rewrite <- firstn_split_last by lia. replace (S (Z.to_nat n - 1)) with (length full) by lia.
    rewrite firstn_all. reflexivity. }
  split; [exact LF|]. split; [exact SF|].
  destruct W as [W1 [W2 W3]]. unfold after_n. cbv zeta.
  pose proof (byte_count_eq seed) as BC. set (bc := byte_count seed) in *. set (bz := bytes_of_zz seed) in *.
  set (hsize := if p_hashInputSize st <? bz + 8 then (if bz + 8 <? hash_size then hash_size else bz + 8) else p_hashInputSize st).
  set (hin := if p_hashInputSize st <? bz + 8 then repeat None (Z.to_nat hsize) else p_hashInput st).
  set (gen := if p_genLength st <? n then repeat None (Z.to_nat n) else p_gen st).
  assert (Hs : hsize = if p_hashInputSize st <? bz + 8 then Z.max 20 (bz + 8) else p_hashInputSize st).
  { unfold hsize, hash_size. destruct (p_hashInputSize st <? bz + 8); [|reflexivity]. destruct (Z.ltb_spec (bz + 8) 20); lia. }
  assert (Lh : Z.of_nat (length hin) = hsize /\ bz + 8 <= hsize).
  { unfold hin, hsize, hash_size. destruct (Z.ltb_spec (p_hashInputSize st) (bz + 8)).
    - rewrite repeat_length. destruct (Z.ltb_spec (bz + 8) 20); lia.
    - lia. }
  assert (Lg : n <= Z.of_nat (length gen)).
  { unfold gen. destruct (Z.ltb_spec (p_genLength st) n); [rewrite repeat_length; lia|lia]. }
  replace (Z.to_nat bz) with bc by lia.
  (* the two writes *)
  assert (E1 : write_at hin 0 (le_bytes bc (Z.abs seed)) = Ok (map Some (le_bytes bc (Z.abs seed)) ++ skipn bc hin)).
  { rewrite write_at_ok by (rewrite ?le_bytes_length; lia). cbn [Z.to_nat firstn app Nat.add]. rewrite le_bytes_length. reflexivity. }
  rewrite E1. cbn [bind].
  assert (E2 : write_at (map Some (le_bytes bc (Z.abs seed)) ++ skipn bc hin) bz (le_bytes 8 index)
     = Ok (map Some (hash_input seed index) ++ skipn (length (hash_input seed index)) hin)).
  { replace (skipn bc hin) with (firstn 8 (skipn bc hin) ++ skipn 8 (skipn bc hin)) by apply firstn_skipn.
    rewrite write_at_mid; [|rewrite map_length, le_bytes_length; lia|rewrite firstn_length, skipn_length, le_bytes_length; lia].
    unfold hash_input. fold bc. rewrite map_app, <- app_assoc, app_length, !le_bytes_length, skipn_skipn.
    do 4 f_equal. lia. }
  rewrite E2. cbn [bind].
  assert (LI : Z.of_nat (length (hash_input seed index)) = bz + 8).
  { unfold hash_input. fold bc. rewrite app_length, !le_bytes_length. lia. }
  rewrite read_prefix_some by exact LI. cbn [bind].
  change gen with (map Some (@nil Z) ++ gen) at 1.
  rewrite fill_ok; [|lia|lia|lia|cbn [length]; lia|lia|intros C; rewrite C in LI; cbn [length] in LI; lia].
  cbn [bind app]. fold full.
  rewrite SF at 1. rewrite map_app, <- app_assoc. cbn [map app].
  assert (LI' : Z.of_nat (length init) = n - 1) by (unfold init; rewrite firstn_length; lia).
  rewrite read_cell_at by (rewrite map_length; exact LI'). cbn [bind].
  destruct (cut_bits last (w64 (n * 8 - bits))) as [b| | | |] eqn:EC; try reflexivity. cbn [bind].
  rewrite SF at 1. rewrite map_app, <- app_assoc. cbn [map app].
  rewrite (zset_mid (map Some init) [] _ (Some last) (Some b)) by (rewrite map_length; exact LI'). cbn [bind].
  replace (map Some init ++ Some b :: skipn (Z.to_nat n) gen) with (map Some (init ++ [b]) ++ skipn (Z.to_nat n) gen)
    by (rewrite map_app, <- app_assoc; reflexivity).
  rewrite read_prefix_some by (rewrite app_length; cbn [length]; lia). cbn [bind].
  do 2 f_equal. f_equal; [|unfold hin; rewrite Hs|exact Hs].
  - destruct (Z.ltb_spec (p_genLength st) n); lia.
  - destruct (p_hashInputSize st <? bz + 8); reflexivity.
Qed.

Lemma bytes_of_bits_val bits : 0 <= bits -> bits + 7 < M64 -> bytes_of_bits bits = Ok ((bits + 7) / 8).
Proof.
  intros H0 H1. unfold bytes_of_bits, blocks. cbn [Z.eqb]. f_equal. rewrite w64_small by lia. f_equal. lia.
Qed.

Lemma forall_repeat_none n : Forall (fun c : cell => match c with Some b => is_byte b | None => True end) (repeat None n).
Proof. induction n; constructor; auto. Qed.
Lemma Forall_skipn' {A} (P : A -> Prop) n l : Forall P l -> Forall P (skipn n l).
Proof. revert l; induction n; intros l H; [exact H|]. destruct l; [exact H|]. inversion H; subst. apply IHn; assumption. Qed.
Lemma Forall_firstn' {A} (P : A -> Prop) n l : Forall P l -> Forall P (firstn n l).
Proof. revert l; induction n; intros l H; [constructor|]. destruct l; [constructor|]. inversion H; subst. constructor; auto. Qed.

Lemma last_byte seed index n : is_byte (nth n (firstn (S n) (chain sha (hash_input seed index) (S n))) 0).
Proof.
  apply (proj1 (Forall_nth is_byte _) (Forall_firstn' _ _ _ (chain_bytes _ _))). rewrite firstn_length, chain_length. lia.
Qed.

Definition bits_ok (bits : Z) : Prop := 0 < bits /\ bits + 7 < M64.

Lemma generate_pos fuel st seed index bits : wf st -> bits_ok bits ->
  exists st', generate sha rand fuel st seed index bits = Ok (st', prf_value sha seed index bits) /\ wf st' /\
    p_autoIndex st' = p_autoIndex st /\ p_autoSeed st' = p_autoSeed st /\ p_pos st' = p_pos st.
Proof.
  intros W [Hb Hb64]. rewrite generate_split.
  destruct (Z.eqb_spec bits 0) as [C|_]; [lia|]. rewrite bytes_of_bits_val by lia. cbn [bind].
  set (n := (bits + 7) / 8). assert (Hn : 0 < n < M64) by (unfold n; lia).
  destruct (after_n_ok st seed index bits n (p_pos st) W (proj1 Hn) (proj2 Hn)) as [LF [SF E]].
  rewrite E. clear E.
  set (full := firstn (Z.to_nat n) (chain sha (hash_input seed index) (Z.to_nat n))) in *.
  set (init := firstn (Z.to_nat n - 1) full) in *. set (last := nth (Z.to_nat n - 1) full 0) in *.
  assert (BF : Forall is_byte full) by (unfold full; apply Forall_firstn', chain_bytes).
  assert (BI : Forall is_byte init) by (apply Forall_firstn', BF).
  assert (BL : is_byte last) by (unfold last; apply (proj1 (Forall_nth is_byte full) BF); lia).
  assert (Hr : 0 <= n * 8 - bits <= 7) by (unfold n; lia).
  rewrite w64_small by (unfold M64; lia).
  rewrite cut_bits_mod by (try exact BL; lia). cbn [bind].
  set (b' := last mod 2 ^ (8 - (n * 8 - bits))).
  assert (P8 : 0 < 2 ^ (8 - (n * 8 - bits)) <= 256).
  { split; [apply Z.pow_pos_nonneg; lia|]. change 256 with (2 ^ 8). apply Z.pow_le_mono_r; lia. }
  assert (Bb : is_byte b').
  { unfold b', is_byte. pose proof (Z.mod_pos_bound last (2 ^ (8 - (n * 8 - bits)))). lia. }
  eexists. split; [|split; [|split; [|split]]].
  - do 2 f_equal. unfold prf_value. cbv zeta. fold n. fold full. rewrite LE_le_val, SF, !le_val_app.
    cbn [le_val]. assert (LI : Z.of_nat (length init) = n - 1) by (unfold init; rewrite firstn_length; lia).
    rewrite LI. rewrite !Z.mul_0_r, !Z.add_0_r.
    pose proof (le_val_range init BI) as RI. rewrite LI in RI.
    set (A := le_val init) in *.
    change 256 with (2 ^ 8) in *. rewrite <- Z.pow_mul_r in * by lia.
    assert (Eb : bits = 8 * (n - 1) + (8 - (n * 8 - bits))) by lia.
    set (e := 8 - (n * 8 - bits)) in *. set (f := 8 * (n - 1)) in *.
    rewrite Eb, Z.pow_add_r by lia.
    assert (0 < 2 ^ f) by (apply Z.pow_pos_nonneg; lia).
    assert (0 < 2 ^ e) by (apply Z.pow_pos_nonneg; lia).
    rewrite Z.rem_mul_r by lia.
    replace (A + 2 ^ f * last) with (A + last * 2 ^ f) by lia.
    rewrite Z.mod_add, Z.div_add by lia. rewrite Z.mod_small, Z.div_small by lia.
    rewrite Z.add_0_l. unfold b'. lia.
  - destruct W as [W1 [W2 W3]]. repeat split; cbn [p_gen p_genLength p_hashInput p_hashInputSize].
    + rewrite app_length, map_length, app_length, skipn_length. cbn [length].
      assert (LI : Z.of_nat (length init) = n - 1) by (unfold init; rewrite firstn_length; lia).
      destruct (Z.ltb_spec (p_genLength st) n); [rewrite repeat_length; lia|lia].
    + rewrite app_length, map_length, skipn_length.
      assert (LI : Z.of_nat (length (hash_input seed index)) = bytes_of_zz seed + 8).
      { unfold hash_input. rewrite app_length, !le_bytes_length. rewrite <- byte_count_eq. lia. }
      destruct (Z.ltb_spec (p_hashInputSize st) (bytes_of_zz seed + 8)); [rewrite repeat_length; lia|lia].
    + apply Forall_app. split.
      * apply Forall_map, Forall_app. split; [exact BI|repeat constructor; apply Bb].
      * apply Forall_skipn'. destruct (p_genLength st <? n); [apply forall_repeat_none|exact W3].
  - reflexivity.
  - reflexivity.
  - reflexivity.
Qed.

(** *** bits = 0 *)
Lemma rand_nonzero_first : forall k fuel pos, (k < fuel)%nat -> (forall j, (j < k)%nat -> rand (pos + j) = 0) ->
  rand (pos + k)%nat <> 0 -> rand_nonzero rand fuel pos = Ok (rand (pos + k)%nat, S (pos + k)).
Proof.
  induction k as [|k IH]; intros fuel pos Hf Hz Hnz; (destruct fuel as [|f]; [lia|]); cbn [rand_nonzero].
  - rewrite Nat.add_0_r in *. destruct (Z.eqb_spec (rand pos) 0); [congruence|reflexivity].
  - specialize (Hz 0%nat ltac:(lia)) as Z0. rewrite Nat.add_0_r in Z0. rewrite Z0. cbn [Z.eqb].
    rewrite (IH f (S pos)); [f_equal; f_equal; [f_equal|]; lia|lia| |].
    + intros j Hj. rewrite <- (Hz (S j)) by lia. f_equal; lia.
    + replace (S pos + k)%nat with (pos + S k)%nat by lia. exact Hnz.
Qed.

Lemma zero_bits_ub fuel st seed index k : wf st -> (k < fuel)%nat ->
  (forall j, (j < k)%nat -> rand (p_pos st + j) = 0) -> 24 < rand (p_pos st + k)%nat < 2 ^ 31 ->
  generate sha rand fuel st seed index 0 = UB BadShift.
Proof.
  intros W Hf Hz Hr. rewrite generate_split. cbn [Z.eqb].
  rewrite (rand_nonzero_first k fuel (p_pos st) Hf Hz) by lia. cbn [bind].
  set (r := rand (p_pos st + k)%nat) in *.
  rewrite bytes_of_bits_val by (unfold M64; lia). cbn [bind].
  set (n := (r + 7) / 8). assert (Hn : 4 <= n < 2 ^ 30) by (unfold n; lia).
  destruct (after_n_ok st seed index 0 n (S (p_pos st + k)) W) as [_ [_ E]]; [lia|unfold M64; lia|].
  rewrite E. rewrite w64_small by (unfold M64; lia). rewrite cut_bits_big by lia. reflexivity.
Qed.
Lemma zero_bits_small fuel st seed index k : wf st -> (k < fuel)%nat ->
  (forall j, (j < k)%nat -> rand (p_pos st + j) = 0) -> 1 <= rand (p_pos st + k)%nat <= 24 ->
  let n := Z.to_nat ((rand (p_pos st + k)%nat + 7) / 8) in
  exists st', generate sha rand fuel st seed index 0 =
    Ok (st', LE (firstn (n - 1) (chain sha (hash_input seed index) n))) /\ wf st' /\
    p_autoIndex st' = p_autoIndex st /\ p_autoSeed st' = p_autoSeed st.
Proof.
  intros W Hf Hz Hr n0. rewrite generate_split. cbn [Z.eqb].
  rewrite (rand_nonzero_first k fuel (p_pos st) Hf Hz) by lia. cbn [bind].
  set (r := rand (p_pos st + k)%nat) in *.
  rewrite bytes_of_bits_val by (unfold M64; lia). cbn [bind].
  set (n := (r + 7) / 8) in *. assert (Hn : 1 <= n <= 3) by (unfold n; lia).
  destruct (after_n_ok st seed index 0 n (S (p_pos st + k)) W) as [LF [SF E]]; [lia|unfold M64; lia|].
  rewrite E. clear E. fold n0 in LF, SF |- *.
  set (full := firstn n0 (chain sha (hash_input seed index) n0)) in *.
  set (init := firstn (n0 - 1) full) in *. set (last := nth (n0 - 1) full 0) in *.
  assert (BF : Forall is_byte full) by (unfold full; apply Forall_firstn', chain_bytes).
  assert (BI : Forall is_byte init) by (apply Forall_firstn', BF).
  assert (BL : is_byte last) by (unfold last; apply (proj1 (Forall_nth is_byte full) BF); lia).
  rewrite w64_small by (unfold M64; lia). rewrite cut_bits_zero by (try exact BL; lia). cbn [bind].
  assert (LI : Z.of_nat (length init) = n - 1) by (unfold init; rewrite firstn_length; lia).
  eexists. split; [|split; [|split]].
  - do 2 f_equal. rewrite LE_le_val, le_val_app. cbn [le_val]. rewrite !Z.mul_0_r, Z.add_0_r. f_equal.
    unfold init, full. rewrite firstn_firstn. f_equal. lia.
  - destruct W as [W1 [W2 W3]]. repeat split; cbn [p_gen p_genLength p_hashInput p_hashInputSize].
    + rewrite app_length, map_length, app_length, skipn_length. cbn [length].
      destruct (Z.ltb_spec (p_genLength st) n); [rewrite repeat_length; lia|lia].
    + rewrite app_length, map_length, skipn_length.
      assert (LIn : Z.of_nat (length (hash_input seed index)) = bytes_of_zz seed + 8).
      { unfold hash_input. rewrite app_length, !le_bytes_length. rewrite <- byte_count_eq. lia. }
      destruct (Z.ltb_spec (p_hashInputSize st) (bytes_of_zz seed + 8)); [rewrite repeat_length; lia|lia].
    + apply Forall_app. split.
      * apply Forall_map, Forall_app. split; [exact BI|repeat constructor; cbn; lia].
      * apply Forall_skipn'. destruct (p_genLength st <? n); [apply forall_repeat_none|exact W3].
  - reflexivity.
  - reflexivity.
Qed.

(** *** histories of calls with positive widths *)
Definition call_ok (c : call) : Prop :=
  match c with Seeded _ _ b => bits_ok b | Auto _ b => bits_ok b | Next => False end.

Lemma generate_auto_pos fuel st index bits : wf st -> bits_ok bits ->
  let s0 := match p_autoSeed st with Some s => s | None => rand (p_pos st) end in
  exists st', generate_auto sha rand fuel st index bits = Ok (st', prf_value sha s0 index bits) /\ wf st' /\
    p_autoIndex st' = p_autoIndex st /\ p_autoSeed st' = Some s0 /\
    p_pos st' = (match p_autoSeed st with Some _ => p_pos st | None => S (p_pos st) end).
Proof.
  intros W B s0. unfold generate_auto, s0. destruct (p_autoSeed st) as [s|] eqn:Es.
  - destruct (generate_pos fuel st s index bits W B) as [st' [E [W' [A1 [A2 A3]]]]].
    exists st'. split; [exact E|]. split; [exact W'|]. split; [exact A1|]. split; [congruence|exact A3].
  - cbn [randomSeed p_gen p_genLength p_hashInput p_hashInputSize p_autoIndex p_autoSeed p_pos].
    match goal with |- context [generate _ _ _ ?st0 _ _ _] =>
      destruct (generate_pos fuel st0 (rand (p_pos st)) index bits) as [st' [E [W' [A1 [A2 A3]]]]]; [exact W|exact B|] end.
    exists st'. cbn [p_autoIndex p_autoSeed p_pos] in A1, A2, A3. auto 6.
Qed.

(** the value of the j-th call of a history, given the automatic seed *)
Definition call_value (s0 : Z) (c : call) : Z :=
  match c with
  | Seeded s i b => prf_value sha s i b
  | Auto i b => prf_value sha s0 i b
  | Next => 0
  end.

Lemma run_prf_values fuel : forall l st, wf st -> Forall call_ok l ->
  exists st', run_prf sha rand fuel st l =
    Ok (st', map (call_value (match p_autoSeed st with Some s => s | None => rand (p_pos st) end)) l) /\ wf st'.
Proof.
  induction l as [|c l IH]; intros st W F.
  - exists st. split; [reflexivity|exact W].
  - inversion F as [|? ? Hc F']; subst. cbn [run_prf map].
    destruct c as [s i b|i b|]; cbn [exec_call call_ok] in *; [| |contradiction].
    + destruct (generate_pos fuel st s i b W Hc) as [st1 [E [W1 [A1 [A2 A3]]]]]. rewrite E. cbn [bind].
      destruct (IH st1 W1 F') as [st2 [E2 W2]]. rewrite E2. cbn [bind]. rewrite A2, A3.
      exists st2. split; [reflexivity|exact W2].
    + destruct (generate_auto_pos fuel st i b W Hc) as [st1 [E [W1 [A1 [A2 A3]]]]]. rewrite E. cbn [bind].
      destruct (IH st1 W1 F') as [st2 [E2 W2]]. rewrite E2. cbn [bind]. rewrite A2.
      exists st2. split; [reflexivity|exact W2].
Qed.

(** any history of calls that returned (whatever widths) leaves a well-formed object *)
Lemma generate_wf fuel st seed index bits st' v : wf st -> 0 <= bits -> bits + 7 < M64 ->
  (forall k, 0 <= rand k < 2 ^ 31) ->
  generate sha rand fuel st seed index bits = Ok (st', v) -> wf st'.
Proof.
  intros W H0 H7 HR E. destruct (Z.eq_dec bits 0) as [->|N].
  - destruct (rand_nonzero rand fuel (p_pos st)) as [[r pos]| | | |] eqn:ER;
      try (rewrite generate_split in E; cbn [Z.eqb] in E; rewrite ER in E; discriminate).
    assert (X : exists k, (k < fuel)%nat /\ (forall j, (j < k)%nat -> rand (p_pos st + j) = 0) /\ rand (p_pos st + k)%nat <> 0).
    { clear - ER. revert ER. generalize (p_pos st). induction fuel as [|f IH]; intros q ER; [discriminate|].
      cbn [rand_nonzero] in ER. destruct (Z.eqb_spec (rand q) 0) as [Z0|Z0].
      - destruct (IH (S q) ER) as [k [K1 [K2 K3]]]. exists (S k). split; [lia|]. split.
        + intros j Hj. destruct j; [rewrite Nat.add_0_r; exact Z0|]. replace (q + S j)%nat with (S q + j)%nat by lia. apply K2; lia.
        + replace (q + S k)%nat with (S q + k)%nat by lia. exact K3.
      - exists 0%nat. rewrite Nat.add_0_r. repeat split; [lia|intros; lia|exact Z0]. }
    destruct X as [k [K1 [K2 K3]]]. pose proof (HR (p_pos st + k)%nat) as RR.
    destruct (Z_lt_le_dec 24 (rand (p_pos st + k)%nat)) as [L|L].
    + rewrite (zero_bits_ub fuel st seed index k W K1 K2) in E by lia. discriminate.
    + destruct (zero_bits_small fuel st seed index k W K1 K2) as [st2 [E2 [W2 _]]]; [lia|].
      rewrite E2 in E. apply Ok_inj in E. injection E as <- _. exact W2.
  - destruct (generate_pos fuel st seed index bits W) as [st2 [E2 [W2 _]]]; [split; lia|].
    rewrite E2 in E. apply Ok_inj in E. injection E as <- _. exact W2.
Qed.
Lemma generate_auto_wf fuel st index bits st' v : wf st -> 0 <= bits -> bits + 7 < M64 ->
  (forall k, 0 <= rand k < 2 ^ 31) ->
  generate_auto sha rand fuel st index bits = Ok (st', v) -> wf st'.
Proof.
  intros W H0 H7 HR E. unfold generate_auto in E. destruct (p_autoSeed st).
  - eapply generate_wf; eauto.
  - cbn [randomSeed] in E. eapply generate_wf; [|exact H0|exact H7|exact HR|exact E]. exact W.
Qed.
Definition call_width_ok (c : call) : Prop :=
  match c with Seeded _ _ b => 0 <= b /\ b + 7 < M64 | Auto _ b => 0 <= b /\ b + 7 < M64 | Next => True end.
Lemma run_prf_wf fuel : (forall k, 0 <= rand k < 2 ^ 31) -> forall l st st' vs, wf st -> Forall call_width_ok l ->
  run_prf sha rand fuel st l = Ok (st', vs) -> wf st'.
Proof.
  intros HR. induction l as [|c l IH]; intros st st' vs W F E.
  - cbn [run_prf] in E. apply Ok_inj in E. injection E as <- _. exact W.
  - inversion F as [|? ? Hc F']; subst. cbn [run_prf] in E.
    destruct (exec_call sha rand fuel st c) as [[st1 v]| | | |] eqn:E1; try discriminate. cbn [bind] in E.
    destruct (run_prf sha rand fuel st1 l) as [[st2 vs']| | | |] eqn:E2; try discriminate. cbn [bind] in E.
    apply Ok_inj in E. injection E as <- _. refine (IH st1 st2 vs' _ F' E2).
    destruct c as [s i b|i b|]; cbn [exec_call call_width_ok] in *.
    + eapply generate_wf; [exact W|apply Hc|apply Hc|exact HR|exact E1].
    + eapply generate_auto_wf; [exact W|apply Hc|apply Hc|exact HR|exact E1].
    + unfold generate_next in E1. eapply generate_auto_wf; [|reflexivity|reflexivity|exact HR|exact E1]. exact W.
Qed.

(** *** ZZpPRF *)
Variable p : Z.

Lemma gen_bits_width modulo bits : 0 <= bits -> gen_bits modulo bits = zp_width modulo bits.
Proof.
  intros H. unfold gen_bits, zp_width. destruct (Z.eqb_spec bits 0); [rewrite orb_true_r; reflexivity|].
  rewrite orb_false_r. destruct (Z.ltb_spec (num_bits modulo) bits); lia.
Qed.
Definition zp_value (modulo seed index bits : Z) : Z := prf_value sha seed index (zp_width modulo bits) mod p.
Definition mod_ok (modulo : Z) : Prop := 0 < modulo /\ num_bits modulo + 7 < M64.
Lemma zp_width_ok modulo bits : mod_ok modulo -> 0 <= bits -> bits_ok (zp_width modulo bits).
Proof.
  intros [H0 H7] Hb. assert (0 < num_bits modulo) by (apply num_bits_pos; lia).
  unfold zp_width, bits_ok. destruct (Z.eqb_spec bits 0); lia.
Qed.

Lemma zp_generate_ok fuel st seed index bits : wf (zp_prf st) -> mod_ok (zp_modulo st) -> 0 <= bits ->
  exists st', zp_generate sha rand p fuel st seed index bits = Ok (st', zp_value (zp_modulo st) seed index bits) /\
    wf (zp_prf st') /\ zp_modulo st' = zp_modulo st /\ zp_autoIndex st' = zp_autoIndex st /\
    zp_autoSeed st' = zp_autoSeed st /\ p_pos (zp_prf st') = p_pos (zp_prf st).
Proof.
  intros W M B. unfold zp_generate. rewrite gen_bits_width by exact B.
  destruct (generate_pos fuel (zp_prf st) seed index (zp_width (zp_modulo st) bits) W (zp_width_ok _ _ M B)) as [s1 [E [W1 [_ [_ A3]]]]].
  rewrite E. cbn [bind]. eexists. split; [reflexivity|]. cbn [zp_prf zp_modulo zp_autoIndex zp_autoSeed]. auto 6.
Qed.

Definition zp_call_ok (c : call) : Prop := match c with Seeded _ _ b => 0 <= b | Auto _ b => 0 <= b | Next => True end.
(** expected value of each call, [k] counting the seedless calls so far *)
Fixpoint zp_expected (modulo s0 : Z) (k : Z) (l : list call) : list Z :=
  match l with
  | [] => []
  | Seeded s i b :: t => zp_value modulo s i b :: zp_expected modulo s0 k t
  | Auto i b :: t => zp_value modulo s0 i b :: zp_expected modulo s0 k t
  | Next :: t => zp_value modulo s0 k 0 :: zp_expected modulo s0 (w64 (k + 1)) t
  end.

Lemma run_zp_ok fuel : forall l st, wf (zp_prf st) -> mod_ok (zp_modulo st) -> Forall zp_call_ok l ->
  exists st', run_zp sha rand p fuel st l =
    Ok (st', zp_expected (zp_modulo st) (match zp_autoSeed st with Some s => s | None => rand (p_pos (zp_prf st)) mod p end) (zp_autoIndex st) l).
Proof.
  assert (AUTO : forall st i b, wf (zp_prf st) -> mod_ok (zp_modulo st) -> 0 <= b ->
    let s0 := match zp_autoSeed st with Some s => s | None => rand (p_pos (zp_prf st)) mod p end in
    exists st', zp_generate_auto sha rand p fuel st i b = Ok (st', zp_value (zp_modulo st) s0 i b) /\ wf (zp_prf st') /\
      zp_modulo st' = zp_modulo st /\ zp_autoIndex st' = zp_autoIndex st /\ zp_autoSeed st' = Some s0).
  { intros st i b W M B s0. unfold zp_generate_auto, s0. destruct (zp_autoSeed st) as [s|] eqn:Es.
    - destruct (zp_generate_ok fuel st s i b W M B) as [st' [E [W' [A1 [A2 [A3 _]]]]]]. exists st'.
      split; [exact E|]. split; [exact W'|]. split; [exact A1|]. split; [exact A2|]. congruence.
    - cbn [zp_randomSeed randomSeed zp_prf zp_modulo zp_autoIndex].
      match goal with |- context [zp_generate _ _ _ _ ?st0 ?s _ _] =>
        destruct (zp_generate_ok fuel st0 s i b) as [st' [E [W' [A1 [A2 [A3 _]]]]]]; [exact W|exact M|exact B|] end.
      exists st'. cbn [zp_modulo zp_autoIndex zp_autoSeed] in *. auto. }
  induction l as [|c l IH]; intros st W M F; [eexists; reflexivity|].
  inversion F as [|? ? Hc F']; subst. cbn [run_zp].
  destruct c as [s i b|i b|]; cbn [exec_zp zp_call_ok zp_expected] in *.
  - destruct (zp_generate_ok fuel st s i b W M Hc) as [st1 [E [W1 [A1 [A2 [A3 A4]]]]]]. rewrite E. cbn [bind].
    destruct (IH st1 W1) as [st2 E2]; [congruence|exact F'|]. rewrite E2, A1, A2, A3, A4. cbn [bind]. eexists; reflexivity.
  - destruct (AUTO st i b W M Hc) as [st1 [E [W1 [A1 [A2 A3]]]]]. rewrite E. cbn [bind].
    destruct (IH st1 W1) as [st2 E2]; [congruence|exact F'|]. rewrite E2, A1, A2, A3. cbn [bind]. eexists; reflexivity.
  - unfold zp_generate_next.
    match goal with |- context [zp_generate_auto _ _ _ _ ?st0 _ _] =>
      destruct (AUTO st0 (zp_autoIndex st) 0) as [st1 [E [W1 [A1 [A2 A3]]]]]; [exact W|exact M|lia|] end.
    cbn [zp_modulo zp_prf zp_autoSeed zp_autoIndex] in *. rewrite E. cbn [bind].
    destruct (IH st1 W1) as [st2 E2]; [congruence|exact F'|]. rewrite E2, A1, A2, A3. cbn [bind]. eexists; reflexivity.
Qed.
End S.

(** *** consequences for the specification *)
Lemma prf_value_range sha seed index bits : 0 <= bits -> 0 <= prf_value sha seed index bits < 2 ^ bits.
Proof. intros H. unfold prf_value. apply Z.mod_pos_bound. apply Z.pow_pos_nonneg; lia. Qed.

Lemma le_val_firstn l k : Forall is_byte l -> le_val (firstn k l) = le_val l mod 256 ^ Z.of_nat k.
Proof.
  intros F. destruct (Nat.le_gt_cases (length l) k).
  - rewrite firstn_all2 by assumption. pose proof (le_val_range l F) as R.
    rewrite Z.mod_small; [reflexivity|]. split; [lia|]. eapply Z.lt_le_trans; [apply R|]. apply Z.pow_le_mono_r; lia.
  - rewrite <- (firstn_skipn k l) at 2. rewrite le_val_app, firstn_length, Nat.min_l by lia.
    pose proof (le_val_range (firstn k l) (Forall_firstn' _ _ _ F)) as R. rewrite firstn_length, Nat.min_l in R by lia.
    rewrite Z.mul_comm, Z.mod_add by lia. rewrite Z.mod_small by lia. reflexivity.
Qed.

Lemma prf_value_trunc sha seed index b c : is_sha sha -> 0 < b <= c ->
  prf_value sha seed index b = prf_value sha seed index c mod 2 ^ b.
Proof.
  intros H [Hb Hc]. unfold prf_value. cbv zeta. set (x := hash_input seed index).
  set (n := Z.to_nat ((b + 7) / 8)). set (m := Z.to_nat ((c + 7) / 8)).
  assert (Hnm : (n <= m)%nat) by (unfold n, m; apply Z2Nat.inj_le; lia).
  rewrite !LE_le_val.
  replace (firstn n (chain sha x n)) with (firstn n (firstn m (chain sha x m))).
  2:{ rewrite firstn_firstn, Nat.min_l by exact Hnm. apply chain_firstn; [exact H|lia|lia]. }
  rewrite le_val_firstn by (apply Forall_firstn', chain_bytes, H).
  set (v := le_val (firstn m (chain sha x m))).
  change 256 with (2 ^ 8). rewrite <- Z.pow_mul_r by lia.
  assert (Hbn : b <= 8 * Z.of_nat n) by (unfold n; lia).
  assert (MM : forall a e f, 0 <= e <= f -> (a mod 2 ^ f) mod 2 ^ e = a mod 2 ^ e).
  { intros a e f He. replace (2 ^ f) with (2 ^ e * 2 ^ (f - e)) by (rewrite <- Z.pow_add_r by lia; f_equal; lia).
    assert (0 < 2 ^ e) by (apply Z.pow_pos_nonneg; lia). assert (0 < 2 ^ (f - e)) by (apply Z.pow_pos_nonneg; lia).
    rewrite Z.rem_mul_r by lia. rewrite Z.mul_comm, Z.mod_add by lia. apply Z.mod_mod. lia. }
  rewrite MM by lia. rewrite (MM v b c) by lia. reflexivity.
Qed.

Lemma byte_count_bound z : Z.abs z < 256 ^ Z.of_nat (byte_count z).
Proof.
  unfold byte_count. pose proof (num_bits_nonneg z). pose proof (num_bits_spec z) as S.
  change 256 with (2 ^ 8). rewrite <- Z.pow_mul_r by lia. eapply Z.lt_le_trans; [exact S|]. apply Z.pow_le_mono_r; lia.
Qed.
Lemma app_inv_len {A} (a b c d : list A) : length b = length d -> a ++ b = c ++ d -> a = c /\ b = d.
Proof.
  intros L E. assert (H : length a = length c) by (apply (f_equal (@length A)) in E; rewrite !app_length in E; lia).
  clear L. revert c H E. induction a as [|x a IH]; intros [|y c] H E; try discriminate; [auto|].
  cbn [app] in E. injection E as -> E. cbn [length] in H. destruct (IH c) as [-> ->]; [lia|exact E|auto].
Qed.
Lemma hash_input_inj s s' i i' : 0 <= i < 2 ^ 64 -> 0 <= i' < 2 ^ 64 ->
  hash_input s i = hash_input s' i' -> Z.abs s = Z.abs s' /\ i = i'.
Proof.
  intros Hi Hi' E. unfold hash_input in E. apply app_inv_len in E; [|rewrite !le_bytes_length; reflexivity].
  destruct E as [E1 E2]. split.
  - assert (L : byte_count s = byte_count s') by (apply (f_equal (@length Z)) in E1; rewrite !le_bytes_length in E1; exact E1).
    rewrite <- L in E1. apply (f_equal le_val) in E1. rewrite !le_val_le_bytes in E1.
    pose proof (byte_count_bound s). pose proof (byte_count_bound s') as B'. rewrite <- L in B'.
    rewrite !Z.mod_small in E1 by lia. exact E1.
  - apply (f_equal le_val) in E2. rewrite !le_val_le_bytes in E2. change (256 ^ Z.of_nat 8) with (2 ^ 64) in E2.
    rewrite !Z.mod_small in E2 by lia. exact E2.
Qed.
Lemma hash_input_opp s i : hash_input (- s) i = hash_input s i.
Proof.
  unfold hash_input, byte_count, num_bits. rewrite Z.abs_opp.
  destruct (Z.eqb_spec s 0); destruct (Z.eqb_spec (- s) 0); try lia; reflexivity.
Qed.

Definition is_next (c : call) : bool := match c with Next => true | _ => false end.
Definition nexts (l : list call) : Z := Z.of_nat (length (filter is_next l)).
Lemma zp_expected_length sha p modulo s0 : forall l k, length (zp_expected sha p modulo s0 k l) = length l.
Proof. induction l as [|[s i b|i b|] l IH]; intros k; cbn [zp_expected length]; rewrite ?IH; reflexivity. Qed.
Lemma zp_expected_nth sha p modulo s0 : forall l k j c, 0 <= k < M64 -> nth_error l j = Some c ->
  nth_error (zp_expected sha p modulo s0 k l) j = Some (
    match c with
    | Seeded s i b => zp_value sha p modulo s i b
    | Auto i b => zp_value sha p modulo s0 i b
    | Next => zp_value sha p modulo s0 ((k + nexts (firstn j l)) mod 2 ^ 64) 0
    end).
Proof.
  induction l as [|a l IH]; intros k j c Hk E; [destruct j; discriminate|].
  destruct j as [|j].
  - cbn [nth_error] in E. injection E as ->. destruct c; cbn [zp_expected nth_error firstn]; try reflexivity.
    cbn [nexts filter length]. unfold nexts; cbn [filter length]. rewrite Z.mod_small; [|unfold M64 in Hk; lia]. do 2 f_equal. lia.
  - cbn [nth_error] in E. destruct a as [s i b|i b|]; cbn [zp_expected nth_error firstn].
    + rewrite (IH k j c Hk E). destruct c; reflexivity.
    + rewrite (IH k j c Hk E). destruct c; reflexivity.
    + rewrite (IH (w64 (k + 1)) j c (w64_range _) E). destruct c; try reflexivity.
      do 2 f_equal. unfold nexts, w64, M64. cbn [filter is_next length]. rewrite Z.add_mod_idemp_l by lia. f_equal. lia.
Qed.

(** a digest function for the examples *)
Definition demo_sha (x : list Z) : list Z :=
  map (fun i => (le_val x * 31 + 7 * Z.of_nat i + Z.of_nat (length x)) mod 256) (seq 0 20).
Lemma demo_is_sha : is_sha demo_sha.
Proof.
  intros x. split; [reflexivity|]. unfold demo_sha. apply Forall_forall. intros b Hb. apply in_map_iff in Hb.
  destruct Hb as [i [<- _]]. unfold is_byte. apply Z.mod_pos_bound. lia.
Qed.

Lemma zp_stream_l sha rand p fuel pos modulo l :
  is_sha sha -> 0 < modulo -> num_bits modulo + 7 < 2 ^ 64 -> Forall zp_call_ok l ->
  exists st vs, run_zp sha rand p fuel (new_zpprf modulo pos) l = Ok (st, vs) /\ length vs = length l /\
    forall j c, nth_error l j = Some c ->
      nth_error vs j = Some (
        let value s i b := prf_value sha s i (zp_width modulo b) mod p in
        match c with
        | Seeded s i b => value s i b
        | Auto i b => value (rand pos mod p) i b
        | Next => value (rand pos mod p) (nexts (firstn j l) mod 2 ^ 64) 0
        end).
Proof.
  intros HS H0 H7 F.
  destruct (run_zp_ok sha HS rand p fuel l (new_zpprf modulo pos)) as [st E]; [apply new_prf_wf|split; [exact H0|exact H7]|exact F|].
  exists st. eexists. split; [exact E|]. split; [apply zp_expected_length|].
  intros j c Hj. cbn [new_zpprf zp_modulo zp_autoSeed zp_prf zp_autoIndex new_prf p_pos].
  rewrite (zp_expected_nth sha p modulo _ l 0 j c) by (try exact Hj; unfold M64; lia). unfold zp_value.
  destruct c; try reflexivity.
Qed.

Lemma run_zp_inv sha (HS : is_sha sha) rand p fuel : forall l st st' vs, wf (zp_prf st) -> mod_ok (zp_modulo st) -> Forall zp_call_ok l ->
  run_zp sha rand p fuel st l = Ok (st', vs) -> wf (zp_prf st') /\ zp_modulo st' = zp_modulo st.
Proof.
  assert (G : forall st s i b st' v, wf (zp_prf st) -> mod_ok (zp_modulo st) -> 0 <= b ->
     zp_generate sha rand p fuel st s i b = Ok (st', v) -> wf (zp_prf st') /\ zp_modulo st' = zp_modulo st).
  { intros st s i b st' v W M B E. destruct (zp_generate_ok sha HS rand p fuel st s i b W M B) as [s2 [E2 [W2 [M2 _]]]].
    rewrite E2 in E. apply Ok_inj in E. injection E as <- _. auto. }
  assert (A : forall st i b st' v, wf (zp_prf st) -> mod_ok (zp_modulo st) -> 0 <= b ->
     zp_generate_auto sha rand p fuel st i b = Ok (st', v) -> wf (zp_prf st') /\ zp_modulo st' = zp_modulo st).
  { intros st i b st' v W M B E. unfold zp_generate_auto in E. destruct (zp_autoSeed st); [eapply G; eauto|].
    cbn [zp_randomSeed randomSeed] in E. refine (G _ _ _ _ _ _ _ _ B E); [exact W|exact M]. }
  induction l as [|c l IH]; intros st st' vs W M F E.
  - cbn [run_zp] in E. apply Ok_inj in E. injection E as <- _. auto.
  - inversion F as [|? ? Hc F']; subst. cbn [run_zp] in E.
    destruct (exec_zp sha rand p fuel st c) as [[st1 v]| | | |] eqn:E1; try discriminate. cbn [bind] in E.
    destruct (run_zp sha rand p fuel st1 l) as [[st2 vs']| | | |] eqn:E2; try discriminate. cbn [bind] in E.
    apply Ok_inj in E. injection E as <- _.
    assert (X : wf (zp_prf st1) /\ zp_modulo st1 = zp_modulo st).
    { destruct c as [s i b|i b|]; cbn [exec_zp zp_call_ok] in *; [eapply G; eauto|eapply A; eauto|].
      unfold zp_generate_next in E1. refine (A _ _ _ _ _ _ _ _ E1); [exact W|exact M|lia]. }
    destruct X as [W1 M1]. destruct (IH st1 st2 vs' W1) as [W2 M2]; [rewrite M1; exact M|exact F'|exact E2|].
    split; [exact W2|congruence].
Qed.

Lemma zp_range_l sha rand p fuel pos l modulo st vs seed index bits :
  is_sha sha -> 1 < p -> 0 < modulo -> num_bits modulo + 7 < 2 ^ 64 -> Forall zp_call_ok l ->
  run_zp sha rand p fuel (new_zpprf modulo pos) l = Ok (st, vs) -> 0 <= bits ->
  let width := if bits =? 0 then num_bits modulo else Z.min bits (num_bits modulo) in
  0 < width /\
  exists st', zp_generate sha rand p fuel st seed index bits = Ok (st', prf_value sha seed index width mod p) /\
    0 <= prf_value sha seed index width mod p < p.
Proof.
  intros HS Hp H0 H7 F E B width.
  destruct (run_zp_inv sha HS rand p fuel l (new_zpprf modulo pos) st vs) as [W M]; [apply new_prf_wf|split; [exact H0|exact H7]|exact F|exact E|].
  cbn [new_zpprf zp_modulo] in M.
  assert (MO : mod_ok (zp_modulo st)) by (rewrite M; split; [exact H0|exact H7]).
  split.
  - destruct (zp_width_ok modulo bits) as [A _]; [rewrite <- M; exact MO|exact B|exact A].
  - destruct (zp_generate_ok sha HS rand p fuel st seed index bits W MO B) as [st' [G _]].
    rewrite M in G. exists st'. split; [exact G|]. apply Z.mod_pos_bound. lia.
Qed.
