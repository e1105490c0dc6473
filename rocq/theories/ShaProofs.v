From Coq Require Import Lia.
From Verif Require Import Base Spec Lib NtlMiss MurmurModel ShaModel ShaSpec.

(** * Decimal text *)
Lemma dec_value_app t c : dec_value (t ++ [c]) = 10 * dec_value t + (c - 48).
Proof. unfold dec_value. rewrite fold_left_app. reflexivity. Qed.
Lemma fold_dec t : forall a,
  fold_left (fun a c => 10 * a + (c - 48)) t a = a * 10 ^ Z.of_nat (length t) + dec_value t.
Proof.
  unfold dec_value. induction t as [|c t IH]; intros a; cbn [fold_left length].
  - change (10 ^ Z.of_nat 0) with 1. lia.
  - rewrite IH. rewrite (IH (10 * 0 + (c - 48))).
    replace (Z.of_nat (S (length t))) with (1 + Z.of_nat (length t)) by lia.
    rewrite Z.pow_add_r by lia. change (10 ^ 1) with 10. ring.
Qed.
Lemma dec_digits_spec f : forall n acc,
  0 <= n -> n < 2 ^ Z.of_nat f -> Forall (fun c => 48 <= c <= 57) acc ->
  exists t, dec_digits (S f) n acc = t ++ acc /\ decimal n t.
Proof.
  induction f as [|f IH]; intros n acc H0 Hn HF.
  - assert (n = 0) by (change (2 ^ Z.of_nat 0) with 1 in Hn; lia). subst.
    exists [48]. cbn. split; [reflexivity|]. repeat split; try discriminate.
    constructor; [lia|constructor].
  - cbn [dec_digits]. fold (dec_digits (S f)). cbn zeta.
    assert (M : 0 <= n mod 10 < 10) by (apply Z.mod_pos_bound; lia).
    destruct (Z.eqb_spec (n / 10) 0) as [E|E].
    + exists [48 + n mod 10]. split; [reflexivity|].
      assert (n = n mod 10) by (rewrite (Z.div_mod n 10) at 1 by lia; lia).
      repeat split; try discriminate.
      * constructor; [lia|constructor].
      * unfold dec_value. cbn [fold_left]. lia.
      * cbn [hd]. intros Hh. rewrite Hh. reflexivity.
    + assert (n / 10 < 2 ^ Z.of_nat f).
      { replace (Z.of_nat (S f)) with (1 + Z.of_nat f) in Hn by lia.
        rewrite Z.pow_add_r in Hn by lia. change (2 ^ 1) with 2 in Hn.
        apply Z.div_lt_upper_bound; [lia|]. lia. }
      assert (0 <= n / 10) by (apply Z.div_pos; lia).
      destruct (IH (n / 10) ((48 + n mod 10) :: acc)) as [t [E1 [N [D [V L]]]]]; [lia|lia|constructor; [lia|exact HF]|].
      change (dec_digits (S f) (n / 10) ((48 + n mod 10) :: acc) = t ++ (48 + n mod 10) :: acc) in E1.
      exists (t ++ [48 + n mod 10]). rewrite <- app_assoc. split; [exact E1|].
      repeat split.
      * intros Q. apply app_eq_nil in Q. destruct Q; discriminate.
      * apply Forall_app. split; [exact D|constructor; [lia|constructor]].
      * rewrite dec_value_app, V. rewrite (Z.div_mod n 10) at 2 by lia. lia.
      * destruct t as [|c t]; [congruence|]. cbn [hd app]. intros Q. cbn [hd] in L.
        specialize (L Q). inversion L; subst. exfalso. apply E. rewrite <- V. reflexivity.
Qed.
Lemma num_bits_lt n : 0 <= n -> n < 2 ^ num_bits n.
Proof.
  intros H. unfold num_bits. destruct (Z.eqb_spec n 0) as [->|N]; [reflexivity|].
  rewrite Z.abs_eq by lia. replace (Z.log2 n + 1) with (Z.succ (Z.log2 n)) by lia.
  apply Z.log2_spec. lia.
Qed.
Lemma num_bits_nonneg n : 0 <= num_bits n.
Proof. unfold num_bits. destruct (n =? 0); [lia|]. pose proof (Z.log2_nonneg (Z.abs n)). lia. Qed.
Lemma dec_text_decimal n : 0 <= n -> decimal n (dec_text n).
Proof.
  intros H. unfold dec_text.
  destruct (dec_digits_spec (Z.to_nat (num_bits n)) n []) as [t [E D]]; [exact H| |constructor|].
  - rewrite Z2Nat.id by apply num_bits_nonneg. apply num_bits_lt; exact H.
  - rewrite E, app_nil_r. exact D.
Qed.
Lemma dec_value_bound t : Forall (fun c => 48 <= c <= 57) t -> 0 <= dec_value t < 10 ^ Z.of_nat (length t).
Proof.
  induction t as [|c t IH] using rev_ind; intros F.
  - unfold dec_value. cbn. lia.
  - apply Forall_app in F. destruct F as [F1 F2]. inversion F2; subst.
    rewrite dec_value_app, app_length. cbn [length].
    replace (Z.of_nat (length t + 1)) with (1 + Z.of_nat (length t)) by lia.
    rewrite Z.pow_add_r by lia. change (10 ^ 1) with 10. specialize (IH F1). lia.
Qed.
Lemma dec_value_lead c t :
  Forall (fun c => 48 <= c <= 57) (c :: t) -> c <> 48 -> 10 ^ Z.of_nat (length t) <= dec_value (c :: t).
Proof.
  intros F N. inversion F; subst. unfold dec_value. cbn [fold_left]. rewrite fold_dec.
  pose proof (dec_value_bound t H2). pose proof (Z.pow_pos_nonneg 10 (Z.of_nat (length t))).
  assert (1 <= 10 * 0 + (c - 48)) by lia. nia.
Qed.
Lemma dec_same_length_inj t1 : forall t2,
  length t1 = length t2 -> Forall (fun c => 48 <= c <= 57) t1 -> Forall (fun c => 48 <= c <= 57) t2 ->
  dec_value t1 = dec_value t2 -> t1 = t2.
Proof.
  induction t1 as [|c t1 IH] using rev_ind; intros t2 L F1 F2 V.
  - destruct t2; [reflexivity|discriminate].
  - destruct t2 as [|d t2 _] using rev_ind; [rewrite app_length in L; cbn in L; lia|].
    rewrite !app_length in L. cbn [length] in L.
    apply Forall_app in F1. destruct F1 as [F1 G1]. apply Forall_app in F2. destruct F2 as [F2 G2].
    inversion G1; subst. inversion G2; subst. rewrite !dec_value_app in V.
    assert (c = d) by lia. subst. rewrite (IH t2); [reflexivity|lia|assumption|assumption|lia].
Qed.
Lemma decimal_unique_l n1 n2 t1 t2 : decimal n1 t1 -> decimal n2 t2 -> (n1 = n2 <-> t1 = t2).
Proof.
  intros [N1 [F1 [V1 L1]]] [N2 [F2 [V2 L2]]]. split; [|intros ->; congruence].
  intros E.
  destruct t1 as [|c t1]; [congruence|]. destruct t2 as [|d t2]; [congruence|]. cbn [hd] in L1, L2.
  assert (W : forall (c d : Z) (t1 t2 : list Z), Forall (fun c => 48 <= c <= 57) (c :: t1) -> Forall (fun c => 48 <= c <= 57) (d :: t2) ->
            (d = 48 -> d :: t2 = [48]) -> (length t1 < length t2)%nat ->
            dec_value (c :: t1) <> dec_value (d :: t2)).
  { intros a b u v Fa Fb Lb LL Q.
    assert (b <> 48) by (intros E2; specialize (Lb E2); inversion Lb; subst; cbn in LL; lia).
    pose proof (dec_value_lead b v Fb H). pose proof (dec_value_bound _ Fa) as B. cbn [length] in B.
    assert (10 ^ Z.of_nat (S (length u)) <= 10 ^ Z.of_nat (length v)) by (apply Z.pow_le_mono_r; lia). lia. }
  destruct (Nat.lt_trichotomy (length t1) (length t2)) as [Lt|[Eq|Gt]].
  - exfalso. apply (W c d t1 t2); auto; congruence.
  - apply dec_same_length_inj; auto; [cbn; congruence|congruence].
  - exfalso. apply (W d c t2 t1); auto; congruence.
Qed.

(** * Hash objects *)
Lemma cut_eq len (s : list Z) :
  firstn (if Nat.ltb 0 len && Nat.ltb len (length s) then len else length s) s = cut len s.
Proof.
  destruct len as [|len]; cbn [cut].
  - cbn [Nat.ltb Nat.leb andb]. apply firstn_all.
  - change (Nat.ltb 0 (S len)) with true. cbn [andb].
    destruct (Nat.ltb_spec (S len) (length s)); [reflexivity|].
    rewrite firstn_all. symmetry. apply firstn_all2. exact H.
Qed.

(** an object whose pointers are live and fit its flavour *)
Definition live_sha (h : heap) (o : sha_obj) : Prop :=
  exists a b cells,
    so_sha o = Some a /\ so_last o = Some b /\ a <> b /\
    nth_error h a = Some (Hasher (if so_flavour o =? 256 then KSha256 else KSha1)) /\
    nth_error h b = Some (Arr cells) /\ length cells = Z.to_nat (so_size o) /\
    so_size o = digest_len (so_flavour o).

Lemma nth_error_mid {A} (l1 l2 : list A) x : nth_error (l1 ++ x :: l2) (length l1) = Some x.
Proof. rewrite nth_error_app2 by lia. rewrite Nat.sub_diag. reflexivity. Qed.

Definition built (h : heap) (fl : Z) : heap :=
  h ++ [Hasher (if fl =? 256 then KSha256 else KSha1); Arr (repeat None (Z.to_nat (digest_len fl)))].
Definition sha_at (n : nat) (fl : Z) : sha_obj :=
  {| so_flavour := fl; so_size := digest_len fl; so_last := Some (S n); so_sha := Some n |}.
Lemma new_sha_eq h fl : new_sha h fl = Ok (built h fl, sha_at (length h) fl).
Proof.
  unfold new_sha, setFlavour, built, sha_at, digest_len, SHA256_FLAVOUR. cbn [so_sha so_last free bind].
  destruct (fl =? 256); unfold alloc; cbn [bind]; rewrite <- app_assoc, app_length; cbn [app length];
    rewrite Nat.add_1_r; reflexivity.
Qed.
Lemma new_sha_live h fl : live_sha (built h fl) (sha_at (length h) fl).
Proof.
  exists (length h), (S (length h)), (repeat None (Z.to_nat (digest_len fl))).
  unfold built, sha_at. cbn [so_sha so_last so_flavour so_size].
  repeat split; try reflexivity; try lia.
  - rewrite nth_error_app2 by lia. rewrite Nat.sub_diag. reflexivity.
  - rewrite nth_error_app2 by lia. replace (S (length h) - length h)%nat with 1%nat by lia. reflexivity.
  - apply repeat_length.
Qed.

Section Dig.
Variable dig : kind -> list Z -> list Z.
Hypothesis HD : digest_sizes dig.

Lemma digest_of_length fl m : length (digest_of dig fl m) = Z.to_nat (digest_len fl).
Proof. unfold digest_of, digest_len. destruct (HD m). destruct (fl =? 256); assumption. Qed.

Lemma read_arr h b bs n : nth_error h b = Some (Arr (map Some bs)) -> (n <= length bs)%nat ->
  read_bytes h (Some b) n = Ok (firstn n bs).
Proof.
  intros E L. unfold read_bytes. rewrite E.
  rewrite (mapM_ok _ (fun i => nth i bs 0)).
  - f_equal. apply (nth_ext _ _ 0 0).
    + rewrite map_length, seq_length, firstn_length_le by lia. reflexivity.
    + intros i Hi. rewrite map_length, seq_length in Hi.
      rewrite (nth_indep _ 0 (nth 0 bs 0)) by (rewrite map_length, seq_length; lia).
      rewrite (map_nth (fun i => nth i bs 0) (seq 0 n) 0%nat i), seq_nth by lia. rewrite <- (firstn_skipn n bs) at 1.
      rewrite app_nth1 by (rewrite firstn_length_le; lia). reflexivity.
  - intros i Hi. apply in_seq in Hi. rewrite (aget_nth (Some 0)) by (rewrite map_length; lia). cbn [bind].
    rewrite (map_nth Some). reflexivity.
Qed.

Lemma calc_ok h o m : live_sha h o ->
  exists b, so_last o = Some b /\
    calculateDigest dig h o m = Ok (upd h b (Arr (map Some (digest_of dig (so_flavour o) m)))) /\
    live_sha (upd h b (Arr (map Some (digest_of dig (so_flavour o) m)))) o /\
    nth_error (upd h b (Arr (map Some (digest_of dig (so_flavour o) m)))) b =
      Some (Arr (map Some (digest_of dig (so_flavour o) m))).
Proof.
  intros [a [b [cells [Ea [Eb [N [Ha [Hb [L S]]]]]]]]]. exists b. split; [exact Eb|].
  assert (LB : (b < length h)%nat) by (apply nth_error_Some; congruence).
  assert (U : nth_error (upd h b (Arr (map Some (digest_of dig (so_flavour o) m)))) b =
      Some (Arr (map Some (digest_of dig (so_flavour o) m)))).
  { rewrite upd_nth, Nat.eqb_refl, Hb. reflexivity. }
  split; [|split; [|exact U]].
  - unfold calculateDigest. rewrite Ea, Ha, Eb. unfold write_bytes. rewrite Hb.
    replace (dig (if so_flavour o =? 256 then KSha256 else KSha1) m) with (digest_of dig (so_flavour o) m)
      by (unfold digest_of; destruct (so_flavour o =? 256); reflexivity).
    pose proof (digest_of_length (so_flavour o) m) as LD.
    assert (LE : length (digest_of dig (so_flavour o) m) = length cells) by congruence.
    rewrite LE, Nat.leb_refl.
    rewrite skipn_all, app_nil_r. reflexivity.
  - exists a, b, (map Some (digest_of dig (so_flavour o) m)).
    repeat split; try assumption.
    + rewrite upd_nth. destruct (Nat.eqb_spec a b); [contradiction|exact Ha].
    + rewrite map_length, digest_of_length. congruence.
Qed.

Lemma live_size h o : live_sha h o -> so_size o = digest_len (so_flavour o).
Proof. intros [a [b [cells H]]]. tauto. Qed.

(** the effect of one call *)
Lemma calc_result h o m : live_sha h o ->
  exists h1, calculateDigest dig h o m = Ok h1 /\ live_sha h1 o /\
    read_bytes h1 (so_last o) (Z.to_nat (hashSize o)) = Ok (digest_of dig (so_flavour o) m).
Proof.
  intros H. destruct (calc_ok h o m H) as [b [Eb [E [L N]]]]. eexists. split; [exact E|]. split; [exact L|].
  rewrite Eb. unfold hashSize. rewrite (live_size _ _ H).
  rewrite (read_arr _ _ _ _ N); [|rewrite digest_of_length; lia].
  rewrite <- (digest_of_length (so_flavour o) m). rewrite firstn_all. reflexivity.
Qed.
Lemma exec_call_ok h o c : live_sha h o -> call_ok c ->
  exists h1 m, exec_call dig h o c = Ok (h1, so_last o) /\ live_sha h1 o /\ call_text c m /\
    read_bytes h1 (so_last o) (Z.to_nat (hashSize o)) = Ok (digest_of dig (so_flavour o) m).
Proof.
  intros H C. destruct c as [s len|n len]; cbn [exec_call call_text call_ok] in *.
  - destruct (calc_result h o (cut len s) H) as [h1 [E [L R]]]. exists h1, (cut len s).
    unfold hash_string. cbn zeta. rewrite cut_eq, E. cbn [bind]. auto.
  - destruct (calc_result h o (cut len (dec_text n)) H) as [h1 [E [L R]]]. exists h1, (cut len (dec_text n)).
    unfold hash_zzp. cbn zeta. rewrite cut_eq, E. cbn [bind].
    split; [reflexivity|]. split; [exact L|]. split; [|exact R].
    exists (dec_text n). split; [apply dec_text_decimal; exact C|reflexivity].
Qed.

Lemma exec_calls_ok cs : forall h o, live_sha h o -> Forall call_ok cs ->
  exists h1 ps, exec_calls dig h o cs = Ok (h1, ps) /\ live_sha h1 o /\
    ps = repeat (so_last o) (length cs) /\
    forall pre c, cs = pre ++ [c] -> exists m, call_text c m /\
      read_bytes h1 (so_last o) (Z.to_nat (hashSize o)) = Ok (digest_of dig (so_flavour o) m).
Proof.
  induction cs as [|c cs IH]; intros h o H F.
  - exists h, []. repeat split; auto. intros pre c E. destruct pre; discriminate.
  - inversion F; subst. destruct (exec_call_ok h o c H H2) as [h1 [m [E [L [T R]]]]].
    destruct (IH h1 o L H3) as [h2 [ps [E2 [L2 [P2 R2]]]]].
    exists h2, (so_last o :: ps). cbn [exec_calls]. rewrite E. cbn [bind]. rewrite E2. cbn [bind].
    repeat split; auto.
    + cbn [length repeat]. congruence.
    + intros pre d Ed. destruct cs as [|c2 cs].
      * cbn [exec_calls] in E2. inversion E2; subst. destruct pre as [|x pre]; [|destruct pre; discriminate].
        inversion Ed; subst. exists m. auto.
      * destruct pre as [|x pre]; [discriminate|]. inversion Ed; subst. apply (R2 pre d). assumption.
Qed.

Lemma hash_history_l h0 fl cs :
  Forall call_ok cs ->
  exists h o h1 ps,
    new_sha h0 fl = Ok (h, o) /\ hashSize o = digest_len fl /\
    exec_calls dig h o cs = Ok (h1, ps) /\ length ps = length cs /\
    forall pre c, cs = pre ++ [c] -> exists m, call_text c m /\
      forall p, In p ps -> read_bytes h1 p (Z.to_nat (hashSize o)) = Ok (digest_of dig fl m).
Proof.
  intros F. rewrite new_sha_eq.
  destruct (exec_calls_ok cs _ _ (new_sha_live h0 fl) F) as [h1 [ps [E [L [P R]]]]].
  exists (built h0 fl), (sha_at (length h0) fl), h1, ps. split; [reflexivity|]. split; [reflexivity|].
  split; [exact E|]. split; [rewrite P; apply repeat_length|].
  intros pre c Ec. destruct (R pre c Ec) as [m [T Rd]]. exists m. split; [exact T|].
  intros p Hp. rewrite P in Hp. apply repeat_spec in Hp. subst p. exact Rd.
Qed.

(** byte arrays *)
Lemma hash_bytes_null_l h o str len : str = None \/ len = 0%nat -> hash_bytes dig h o str len = Ok (h, None).
Proof. intros [->| ->]; [reflexivity|]. unfold hash_bytes. destruct str; reflexivity. Qed.
Lemma hash_bytes_ok_l h o a len m : live_sha h o -> (0 < len)%nat -> read_bytes h (Some a) len = Ok m ->
  exists h1, hash_bytes dig h o (Some a) len = Ok (h1, so_last o) /\ live_sha h1 o /\
    read_bytes h1 (so_last o) (Z.to_nat (hashSize o)) = Ok (digest_of dig (so_flavour o) m).
Proof.
  intros H L E. destruct (calc_result h o m H) as [h1 [E1 [L1 R1]]]. exists h1.
  unfold hash_bytes. destruct (Nat.eqb_spec len 0); [lia|]. rewrite E. cbn [bind]. rewrite E1. cbn [bind]. auto.
Qed.
Lemma hash_bytes_chain_l h o a len m : live_sha h o -> (0 < len)%nat -> read_bytes h (Some a) len = Ok m ->
  exists h1 p h2 q,
    hash_bytes dig h o (Some a) len = Ok (h1, p) /\
    hash_bytes dig h1 o p (Z.to_nat (hashSize o)) = Ok (h2, q) /\
    read_bytes h2 q (Z.to_nat (hashSize o)) = Ok (digest_of dig (so_flavour o) (digest_of dig (so_flavour o) m)).
Proof.
  intros H L E. destruct (hash_bytes_ok_l h o a len m H L E) as [h1 [E1 [L1 R1]]].
  pose proof L1 as L1'. destruct L1 as [x [b [cells [_ [Eb _]]]]]. rewrite Eb in R1.
  assert (0 < Z.to_nat (hashSize o))%nat.
  { unfold hashSize. rewrite (live_size _ _ H). unfold digest_len. destruct (so_flavour o =? 256); cbn; lia. }
  destruct (hash_bytes_ok_l h1 o b _ _ L1' H0 R1) as [h2 [E2 [L2 R2]]].
  exists h1, (so_last o), h2, (so_last o). repeat split; auto. rewrite Eb at 1. exact E2.
Qed.
End Dig.

(** * Names *)
Lemma sha_name_l h0 fl h o : new_sha h0 fl = Ok (h, o) ->
  (fl = 0 -> sha_name o = Ok [83; 72; 65]) /\ (fl = 256 \/ fl = 128 -> sha_name o = UB OutOfBounds).
Proof.
  rewrite new_sha_eq. intros E. inversion E; subst. unfold sha_name, sha_at. cbn [so_flavour].
  split; [intros ->; reflexivity|]. intros [->| ->]; reflexivity.
Qed.

(** * Hexadecimal text *)
Lemma hex_digit_inj a b : 0 <= a < 16 -> 0 <= b < 16 -> hex_digit a = hex_digit b -> a = b.
Proof. unfold hex_digit. destruct (Z.ltb_spec a 10), (Z.ltb_spec b 10); lia. Qed.
Lemma hex_digit_char a : 0 <= a < 16 -> 48 <= hex_digit a <= 57 \/ 65 <= hex_digit a <= 70.
Proof. unfold hex_digit. destruct (Z.ltb_spec a 10); lia. Qed.
Lemma readable_chars_l d : Forall is_byte d ->
  length (readableDigest d) = (2 * length d)%nat /\
  Forall (fun c => 48 <= c <= 57 \/ 65 <= c <= 70) (readableDigest d).
Proof.
  induction d as [|b d IH]; intros F; [split; [reflexivity|constructor]|].
  inversion F; subst. destruct (IH H2) as [L C]. unfold is_byte in H1.
  cbn [readableDigest flat_map app length]. fold (readableDigest d). split; [lia|].
  assert (0 <= b / 16 < 16) by (split; [apply Z.div_pos; lia|apply Z.div_lt_upper_bound; lia]).
  assert (0 <= b mod 16 < 16) by (apply Z.mod_pos_bound; lia).
  constructor; [apply hex_digit_char; lia|]. constructor; [apply hex_digit_char; lia|exact C].
Qed.
Lemma readable_inj_l d1 : forall d2, Forall is_byte d1 -> Forall is_byte d2 ->
  readableDigest d1 = readableDigest d2 -> d1 = d2.
Proof.
  induction d1 as [|b d1 IH]; intros [|c d2] F1 F2 E; try discriminate; [reflexivity|].
  inversion F1; subst. inversion F2; subst. unfold is_byte in *.
  cbn [readableDigest flat_map app] in E. fold (readableDigest d1) in E. fold (readableDigest d2) in E.
  inversion E as [[E1 E2 E3]].
  assert (forall x, 0 <= x < 256 -> 0 <= x / 16 < 16) by (intros; split; [apply Z.div_pos; lia|apply Z.div_lt_upper_bound; lia]).
  assert (forall x, 0 <= x mod 16 < 16) by (intros; apply Z.mod_pos_bound; lia).
  apply hex_digit_inj in E1; auto. apply hex_digit_inj in E2; auto.
  f_equal; [|apply IH; auto].
  rewrite (Z.div_mod b 16), (Z.div_mod c 16) by lia. congruence.
Qed.
