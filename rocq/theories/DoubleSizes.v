(** Proofs about the figures of the bucket sizes computed in double. *)
From Coq Require Import Reals Lra Lia Psatz.
From Flocq Require Import Core.
From Verif Require Import Base Spec Lib NtlMissProofs HashBucketsModel HashBucketsSpec HashBucketsProofs FilesSpec FilesStats DoubleModel DoubleSpec DoubleProofs.
Open Scope R_scope.
#[local] Notation u := half_ulp.

(** one deviation *)
Lemma dev_trunc T k s : (0 < k)%Z -> (k <= 2 ^ 53)%Z -> (0 <= s <= T)%Z -> (T * k <= 2 ^ 52)%Z ->
  let mu := IZR T / IZR k in let a := rnd mu in
  exists d, to_size (rnd (Rabs (IZR s - a))) = Ok d /\ IZR d <= Rabs (IZR s - mu) < IZR d + 1 /\ (0 <= d <= T)%Z.
Proof.
  intros K K2 S H mu a.
  assert (T0 : (0 <= T)%Z) by lia. assert (TB : (T <= 2 ^ 52)%Z) by nia.
  assert (KR : 1 <= IZR k) by (apply IZR_le; lia).
  set (i := / IZR k). assert (I : 0 < i) by (apply Rinv_0_lt_compat; lra).
  assert (IK : IZR k * i = 1) by (unfold i; apply Rinv_r; lra).
  assert (TR : 0 <= IZR T) by (apply IZR_le; lia).
  assert (SR : 0 <= IZR s <= IZR T) by (split; apply IZR_le; lia).
  set (j := Z.abs (s * k - T)).
  assert (J : Rabs (IZR s - mu) = IZR j * i).
  { unfold mu, Rdiv. fold i. unfold j. rewrite abs_IZR, minus_IZR, mult_IZR.
    replace (IZR s - IZR T * i) with ((IZR s * IZR k - IZR T) * i) by (rewrite Rmult_minus_distr_r, Rmult_assoc, IK; ring).
    rewrite Rabs_mult, (Rabs_pos_eq i) by lra. reflexivity. }
  set (d := (j / k)%Z). assert (J0 : (0 <= j)%Z) by (unfold j; lia).
  assert (DJ := Z.div_mod j k ltac:(lia)). fold d in DJ. assert (MB := Z.mod_pos_bound j k K).
  assert (JT : (j <= T * k)%Z). { unfold j. nia. }
  assert (D0 : (0 <= d <= T)%Z). { unfold d. split; [apply Z.div_pos; lia|]. apply Z.div_le_upper_bound; lia. }
  assert (DR : IZR j * i = IZR d + IZR (j mod k) * i).
  { rewrite DJ at 1. rewrite plus_IZR, mult_IZR. rewrite Rmult_plus_distr_r.
    replace (IZR k * IZR d * i) with (IZR d * (IZR k * i)) by ring. rewrite IK. ring. }
  assert (DEV : IZR d <= Rabs (IZR s - mu) < IZR d + 1).
  { rewrite J, DR. assert (0 <= IZR (j mod k)) by (apply IZR_le; lia).
    assert (IZR (j mod k) < IZR k) by (apply IZR_lt; lia).
    split; [assert (0 <= IZR (j mod k) * i) by (apply Rmult_le_pos; lra); lra|].
    assert (IZR (j mod k) * i < IZR k * i) by (apply Rmult_lt_compat_r; lra). lra. }
  exists d. split; [|split; [exact DEV|exact D0]].
  assert (TZ : forall x, IZR d <= x < IZR d + 1 -> to_size x = Ok d).
  { intros x X. unfold to_size. cbv zeta. assert (E : Ztrunc x = d).
    { rewrite Ztrunc_floor by (apply Rle_trans with (2 := proj1 X); apply IZR_le; lia). apply Zfloor_imp. rewrite plus_IZR. exact X. }
    rewrite E. destruct (Z.leb_spec 0 d); [|lia]. destruct (Z.ltb_spec d (2 ^ 64)); [reflexivity|lia]. }
  apply TZ.
  destruct (Z.eq_dec (j mod k) 0) as [e|ne].
  - (* the mean is an integer *)
    assert (DV : (T mod k = 0)%Z).
    { unfold j in e. destruct (Z.abs_eq_or_opp (s * k - T)) as [X|X]; rewrite X in e.
      - replace T with (s * k - (s * k - T))%Z by ring. rewrite Zminus_mod, e, Z.mod_mul by lia. reflexivity.
      - replace T with (- (s * k - T) + s * k)%Z by ring. rewrite Z.mod_add by lia. exact e. }
    assert (TM := Z.div_mod T k ltac:(lia)). rewrite DV, Z.add_0_r in TM. set (m := (T / k)%Z) in *.
    assert (MU : mu = IZR m). { unfold mu, Rdiv. fold i. rewrite TM, mult_IZR. rewrite (Rmult_comm (IZR k)), Rmult_assoc, IK. ring. }
    assert (M0 : (0 <= m <= T)%Z). { split; [unfold m; apply Z.div_pos; lia|]. nia. }
    assert (A : a = IZR m). { unfold a. rewrite MU. apply rnd_int. lia. }
    rewrite A, <- MU. rewrite MU, <- minus_IZR, <- abs_IZR. rewrite rnd_int by lia.
    rewrite MU, <- minus_IZR, <- abs_IZR in DEV. exact DEV.
  - assert (K2' : (2 <= k)%Z). { destruct (Z.eq_dec k 1) as [-> |]; [|lia]. rewrite Z.mod_1_r in ne. lia. }
    assert (TP : (1 <= T)%Z). { destruct (Z.eq_dec T 0) as [-> |]; [|lia]. exfalso. apply ne. unfold j. assert (s = 0)%Z by lia. subst s. reflexivity. }
    assert (KT : (k <= 2 ^ 52)%Z) by nia.
    assert (MUT : 0 <= mu <= IZR T).
    { split; [apply Rmult_le_pos; [exact TR|exact (Rlt_le _ _ I)]|]. unfold mu, Rdiv. fold i. rewrite <- (Rmult_1_r (IZR T)) at 2. apply Rmult_le_compat_l; [lra|].
      rewrite <- IK. rewrite <- (Rmult_1_l i) at 1. apply Rmult_le_compat_r; lra. }
    assert (AT : 0 <= a <= IZR T). { split; [apply rnd_nonneg; lra|apply rnd_le_int; [lia|lra]]. }
    assert (AE : Rabs (a - mu) <= u * mu).
    { rewrite <- (Rabs_pos_eq mu) at 2 by lra. apply rnd_rel. apply quot_normal. lia. }
    set (w := Rabs (IZR s - a)). assert (W : 0 <= w <= IZR T).
    { unfold w. split; [apply Rabs_pos|]. unfold Rabs. destruct (Rcase_abs _); lra. }
    assert (WE := rnd_err w). rewrite (Rabs_pos_eq w) in WE by lra.
    assert (WM : Rabs (w - Rabs (IZR s - mu)) <= u * mu).
    { unfold w. eapply Rle_trans; [apply Rabs_triang_inv2|]. replace (IZR s - a - (IZR s - mu)) with (- (a - mu)) by ring. rewrite Rabs_Ropp. exact AE. }
    assert (TOT : Rabs (rnd w - Rabs (IZR s - mu)) <= u * IZR T + u * mu + tiny).
    { replace (rnd w - Rabs (IZR s - mu)) with ((rnd w - w) + (w - Rabs (IZR s - mu))) by ring.
      eapply Rle_trans; [apply Rabs_triang|]. pose proof u_pos. assert (u * w <= u * IZR T) by (apply Rmult_le_compat_l; lra). lra. }
    assert (UT : u * IZR T <= / 2 * i).
    { assert (X : IZR T * IZR k <= IZR (2 ^ 52)) by (rewrite <- mult_IZR; apply IZR_le; exact H).
      assert (Y := u_53). change (2 ^ 53)%Z with (2 * 2 ^ 52)%Z in Y. rewrite mult_IZR in Y. pose proof u_pos as U.
      assert (Z : u * (IZR T * IZR k) <= / 2) by (assert (u * (IZR T * IZR k) <= u * IZR (2 ^ 52)) by (apply Rmult_le_compat_l; lra); lra).
      replace (u * IZR T) with (u * (IZR T * IZR k) * i) by (rewrite !Rmult_assoc, IK; ring). apply Rmult_le_compat_r; lra. }
    assert (I2 : i <= / 2). { unfold i. apply Rinv_le; [lra|]. apply IZR_le. exact K2'. }
    assert (UM : u * mu <= / 4 * i).
    { unfold mu, Rdiv. fold i. rewrite <- Rmult_assoc. apply Rle_trans with (/ 2 * i * i); [apply Rmult_le_compat_r; lra|].
      apply Rle_trans with (/ 2 * i * / 2); [apply Rmult_le_compat_l; lra|]. lra. }
    assert (TN : tiny <= / 8 * i).
    { pose proof tiny_small as TS. pose proof u_pos as U. pose proof u_le as U1.
      assert (UI : u <= i). { unfold i, half_ulp. apply Rinv_le; [lra|]. apply IZR_le. lia. }
      assert (X : u * u * u * u <= / 8 * u).
      { assert (u * u <= / 8) by nra. assert (u * u * u <= / 8) by nra. nra. }
      lra. }
    assert (Q1 : 1 <= IZR (j mod k)) by (apply IZR_le; lia).
    assert (Q2 : IZR (j mod k) + 1 <= IZR k) by (rewrite <- plus_IZR; apply IZR_le; lia).
    rewrite J, DR in TOT.
    assert (L1 : i <= IZR (j mod k) * i) by (rewrite <- (Rmult_1_l i) at 1; apply Rmult_le_compat_r; lra).
    assert (L2 : IZR (j mod k) * i + i <= 1).
    { rewrite <- IK. replace (IZR (j mod k) * i + i) with ((IZR (j mod k) + 1) * i) by ring. apply Rmult_le_compat_r; lra. }
    apply Rabs_le_inv in TOT. lra.
Qed.

(** nonnegative doubles that are 0 or not too small *)
Definition lowb (x : R) : Prop := x = 0 \/ u <= x.
Lemma lowb_nonneg x : lowb x -> 0 <= x.
Proof. intros [-> |H]; [lra|]. pose proof u_pos. lra. Qed.
Lemma u_double : is_double u.
Proof. rewrite u_bpow53. exists 1%Z, (-53)%Z. rewrite powerRZ_bpow. split; [ring|]. split; [reflexivity|discriminate]. Qed.
Lemma lowb_rnd x : lowb x -> lowb (rnd x) /\ (1 - u) * x <= rnd x <= (1 + u) * x.
Proof.
  intros L. pose proof (lowb_nonneg x L) as X. split.
  - destruct L as [-> |L]; [left; apply rnd_0|right]. rewrite <- (rnd_id u u_double). apply rnd_le. exact L.
  - assert (E : Rabs (rnd x - x) <= u * Rabs x).
    { apply rnd_rel. destruct L as [-> |L]; [left; reflexivity|right]. rewrite Rabs_pos_eq by exact X. apply Rle_trans with u; [|exact L].
      rewrite u_bpow53. apply bpow_le. lia. }
    rewrite (Rabs_pos_eq x X) in E. apply Rabs_le_inv in E. lra.
Qed.
Lemma lowb_plus x y : lowb x -> lowb y -> lowb (x + y).
Proof.
  intros X Y. pose proof (lowb_nonneg x X). pose proof (lowb_nonneg y Y).
  destruct X as [-> |X]; [rewrite Rplus_0_l; exact Y|]. right. lra.
Qed.
Lemma term_size d k : (0 <= d <= 2 ^ 53)%Z -> (0 < k <= 2 ^ 53)%Z ->
  let t := ddiv (dmul (of_int d) (of_int d)) (of_int k) in
  lowb t /\ (1 - u) ^ 2 * (IZR d * IZR d / IZR k) <= t <= (1 + u) ^ 2 * (IZR d * IZR d / IZR k).
Proof.
  intros D K t. unfold t, ddiv, dmul. rewrite !of_int_ok by lia.
  pose proof u_pos as U. pose proof u_le as U1.
  assert (K1 : 1 <= IZR k) by (apply IZR_le; lia). assert (D1 : 0 <= IZR d) by (apply IZR_le; lia).
  set (q := IZR d * IZR d). assert (Q : q = 0 \/ 1 <= q).
  { unfold q. destruct (Z.eq_dec d 0) as [-> |N]; [left; ring|]. right. assert (1 <= IZR d) by (apply IZR_le; lia). nra. }
  assert (LQ : lowb q) by (destruct Q; [left; assumption|right; lra]).
  destruct (lowb_rnd q LQ) as [_ B1].
  assert (UK : u <= / IZR k) by (unfold half_ulp; apply Rinv_le; [lra|]; apply IZR_le; lia).
  assert (LD : lowb (rnd q / IZR k)).
  { destruct Q as [-> |Q]; [left; rewrite rnd_0; unfold Rdiv; ring|]. right.
    assert (R1 : 1 <= rnd q) by (apply (rnd_ge_int q 1); [discriminate|exact Q]).
    unfold Rdiv. apply Rle_trans with (1 * / IZR k); [lra|]. apply Rmult_le_compat_r; lra. }
  destruct (lowb_rnd _ LD) as [L B2]. split; [exact L|].
  unfold Rdiv in *. set (i := / IZR k) in *. assert (I : 0 < i) by lra.
  assert (C1 : (1 - u) * q * i <= rnd q * i) by (apply Rmult_le_compat_r; lra).
  assert (C2 : rnd q * i <= (1 + u) * q * i) by (apply Rmult_le_compat_r; lra).
  split.
  - apply Rle_trans with (2 := proj1 B2). replace ((1 - u) ^ 2 * (q * i)) with ((1 - u) * ((1 - u) * q * i)) by ring. apply Rmult_le_compat_l; lra.
  - apply Rle_trans with (1 := proj2 B2). replace ((1 + u) ^ 2 * (q * i)) with ((1 + u) * ((1 + u) * q * i)) by ring. apply Rmult_le_compat_l; lra.
Qed.
Lemma pow_up n : 1 <= (1 + u) ^ n /\ 0 <= (1 - u) ^ n <= 1.
Proof.
  pose proof u_pos as U. pose proof u_le as U1. induction n as [|n IH]; cbn [pow]; [lra|]. nra.
Qed.
Lemma sum_step v t e x n : lowb v -> lowb t -> 0 <= e -> 0 <= x ->
  (1 - u) ^ (n + 2) * e <= v <= (1 + u) ^ (n + 2) * e ->
  (1 - u) ^ 2 * x <= t <= (1 + u) ^ 2 * x ->
  lowb (dadd v t) /\ (1 - u) ^ (S n + 2) * (e + x) <= dadd v t <= (1 + u) ^ (S n + 2) * (e + x).
Proof.
  intros V T E X B C. destruct (lowb_rnd _ (lowb_plus v t V T)) as [L D]. split; [exact L|]. fold (dadd v t) in D.
  pose proof u_pos as U. pose proof u_le as U1. destruct (pow_up n) as [P1 P2].
  change (S n + 2)%nat with (S (n + 2)). cbn [pow]. rewrite !pow_add. rewrite !pow_add in B. set (A := (1 - u) ^ n) in *. set (A' := (1 + u) ^ n) in *.
  set (w := (1 - u) ^ 2) in *. set (w' := (1 + u) ^ 2) in *.
  assert (W : 0 <= w) by (unfold w; nra). assert (W' : 0 <= w') by (unfold w'; nra).
  assert (WX : 0 <= w * x) by (apply Rmult_le_pos; assumption). assert (WX' : 0 <= w' * x) by (apply Rmult_le_pos; assumption).
  assert (X1 : A * (w * x) <= 1 * (w * x)) by (apply Rmult_le_compat_r; [apply Rmult_le_pos; lra|lra]).
  assert (X2 : 1 * (w' * x) <= A' * (w' * x)) by (apply Rmult_le_compat_r; [apply Rmult_le_pos; lra|lra]).
  split.
  - apply Rle_trans with (2 := proj1 D). rewrite Rmult_assoc. apply Rmult_le_compat_l; [lra|].
    replace (A * w * (e + x)) with (A * w * e + A * (w * x)) by ring. lra.
  - apply Rle_trans with (1 := proj2 D). rewrite Rmult_assoc. apply Rmult_le_compat_l; [lra|].
    replace (A' * w' * (e + x)) with (A' * w' * e + A' * (w' * x)) by ring. lra.
Qed.

Section P.
Context {T : Type}.
Variable h : hb T.
Hypothesis Rh : reachable h.
Hypothesis K0 : (0 < hb_k h)%nat.
Hypothesis KB : (Z.of_nat (hb_k h) <= 2 ^ 53)%Z.
Hypothesis TK : (sum_z (sizes h) * Z.of_nat (hb_k h) <= 2 ^ 52)%Z.

Lemma sizes_k : length (sizes h) = hb_k h.
Proof. pose proof (reachable_wf h Rh) as [WL _]. unfold sizes. rewrite map_length. exact WL. Qed.
Lemma size_le s : In s (sizes h) -> (0 <= s <= sum_z (sizes h))%Z.
Proof.
  unfold sizes. clear. induction (hb_buckets h) as [|b l IH]; cbn [map In sum_z fold_right]; [contradiction|].
  assert (0 <= sum_z (map (fun b => Z.of_nat (length (mv_items b))) l))%Z.
  { clear. induction l as [|b l IH]; cbn [map sum_z fold_right]; [lia|]. unfold sum_z in IH. lia. }
  unfold sum_z in *. intros [<- |H1]; [lia|]. specialize (IH H1). lia.
Qed.
Lemma size_figures_ok : exists f, size_figures_d h = Ok f /\
  sf_avg f = rnd (mean_r (sizes h)) /\ Forall2 (int_deviation (sizes h)) (sizes h) (sf_devs f) /\
  lowb (sf_var f) /\ is_double (sf_var f) /\
  (1 - u) ^ (hb_k h + 2) * mean_square (sf_devs f) <= sf_var f <= (1 + u) ^ (hb_k h + 2) * mean_square (sf_devs f) /\
  sf_sd f = rnd (sqrt (sf_var f)) /\
  sf_percent f = ddiv (ddiv (dmul (of_int (sum_z (sizes h))) (of_int 100)) (of_int (Z.of_nat (hb_k h)))) (of_int (Z.of_nat (hb_maxload h))).
Proof.
  pose proof (reachable_wf h Rh) as [WL _].
  destruct (print_stats_l h Rh K0) as [s [ES [ET _]]]. unfold size_figures_d. rewrite ES. cbn [bind]. cbv zeta. rewrite ET, <- sum_sizes.
  set (tot := sum_z (sizes h)) in *. set (k := Z.of_nat (hb_k h)) in *.
  assert (KZ : (0 < k)%Z) by lia.
  assert (T0 : (0 <= tot)%Z) by (unfold tot; rewrite sum_sizes; lia).
  assert (TB : (tot <= 2 ^ 53)%Z) by nia.
  assert (AV : ddiv (of_int tot) (of_int k) = rnd (IZR tot / IZR k)) by (apply quot_ok; lia).
  rewrite AV. set (a := rnd (IZR tot / IZR k)).
  assert (MEAN : mean_r (sizes h) = IZR tot / IZR k) by (unfold mean_r; rewrite sizes_k, INR_IZR_INZ; reflexivity).
  set (body := fun (i : nat) '(devs, var) => do b <- aget (hb_buckets h) i;
      let s := of_int (Z.of_nat (length (mv_items b))) in
      do d <- to_size (if Rlt_bool s a then dsub a s else dsub s a);
      Ok (devs ++ [d], dadd var (ddiv (dmul (of_int d) (of_int d)) (of_int k)))).
  destruct (for_up_inv (fun i (st : list Z * R) =>
      Forall2 (int_deviation (sizes h)) (firstn i (sizes h)) (fst st) /\ lowb (snd st) /\ is_double (snd st) /\
      (1 - u) ^ (i + 2) * (sum_r (map (fun d => IZR d * IZR d) (fst st)) / IZR k) <= snd st <=
      (1 + u) ^ (i + 2) * (sum_r (map (fun d => IZR d * IZR d) (fst st)) / IZR k)) (hb_k h) 0 body ([], 0)) as [[devs var] [E [I1 [I2 [I3 I4]]]]].
  - cbn [firstn fst snd map sum_r fold_right]. split; [constructor|]. split; [left; reflexivity|]. split; [apply (int_double 0); discriminate|].
    unfold Rdiv. rewrite Rmult_0_l, !Rmult_0_r. lra.
  - intros i [devs var] Hi [J1 [J2 [J3 J4]]]. cbn [fst snd] in *.
    destruct (aget_lt (hb_buckets h) i ltac:(lia)) as [bk [E1 E2]]. unfold body. rewrite E1. cbn [bind].
    assert (N : nth_error (sizes h) i = Some (Z.of_nat (length (mv_items bk)))) by (unfold sizes; exact (map_nth_error _ _ _ E2)).
    set (sz := Z.of_nat (length (mv_items bk))) in *. cbv zeta.
    assert (SB : (0 <= sz <= tot)%Z) by (apply size_le; eapply nth_error_In; exact N).
    rewrite of_int_ok by lia.
    assert (DA : (if Rlt_bool (IZR sz) a then dsub a (IZR sz) else dsub (IZR sz) a) = rnd (Rabs (IZR sz - a))).
    { unfold dsub. destruct (Rlt_bool_spec (IZR sz) a) as [L|L]; f_equal; [|rewrite Rabs_pos_eq by lra; reflexivity].
      rewrite <- Rabs_Ropp, Rabs_pos_eq by lra. ring. }
    rewrite DA. destruct (dev_trunc tot k sz KZ KB SB TK) as [d [Ed [Dd Dr]]]. fold a in Ed. rewrite Ed. cbn [bind].
    eexists. split; [reflexivity|]. cbn [fst snd].
    assert (F : firstn (S i) (sizes h) = firstn i (sizes h) ++ [sz]).
    { apply nth_error_split in N. destruct N as [l1 [l2 [N1 N2]]]. rewrite N1, <- N2. replace (firstn (length l1) _) with l1.
      - replace (S (length l1)) with (length l1 + 1)%nat by lia. rewrite firstn_app_2. reflexivity.
      - symmetry. rewrite <- (Nat.add_0_r (length l1)), firstn_app_2. cbn [firstn]. apply app_nil_r. }
    rewrite F. destruct (term_size d k ltac:(lia) ltac:(lia)) as [L TE].
    assert (SN : forall l, 0 <= sum_r (map (fun d => IZR d * IZR d) l)).
    { induction l as [|x l IH]; cbn [map sum_r fold_right]; [lra|]. unfold sum_r in IH. pose proof (Rle_0_sqr (IZR x)) as Q. unfold Rsqr in Q. lra. }
    assert (IK : 0 < / IZR k) by (apply Rinv_0_lt_compat, IZR_lt; lia).
    destruct (sum_step var _ (sum_r (map (fun d => IZR d * IZR d) devs) / IZR k) (IZR d * IZR d / IZR k) i J2 L) as [S1 S2]; try assumption.
    { apply Rmult_le_pos; [apply SN|lra]. }
    { apply Rmult_le_pos; [apply Rle_0_sqr|lra]. }
    split; [apply Forall2_app; [exact J1|]; constructor; [|constructor]; unfold int_deviation; rewrite MEAN; exact Dd|].
    split; [exact S1|]. split; [apply rnd_double|].
    assert (SS : sum_r (map (fun d => IZR d * IZR d) (devs ++ [d])) / IZR k = sum_r (map (fun d => IZR d * IZR d) devs) / IZR k + IZR d * IZR d / IZR k).
    { rewrite map_app. cbn [map]. unfold Rdiv. rewrite <- Rmult_plus_distr_r. f_equal. unfold sum_r. rewrite fold_right_app. cbn [fold_right].
      generalize (map (fun d0 => IZR d0 * IZR d0) devs). induction l as [|x l IH]; cbn [fold_right]; [ring|]. rewrite IH. ring. }
    rewrite SS. exact S2.
  - cbn [fst snd Nat.add] in *. rewrite firstn_all2 in I1 by (rewrite sizes_k; lia).
    match goal with |- context [for_up (hb_k h) 0 ?b0 ?st] => change (for_up (hb_k h) 0 b0 st) with (for_up (hb_k h) 0 body ([], 0)) end.
    rewrite E. cbn [bind]. eexists. split; [reflexivity|]. cbn [sf_avg sf_devs sf_var sf_sd sf_percent].
    split; [rewrite MEAN; reflexivity|]. split; [exact I1|]. split; [exact I2|]. split; [exact I3|].
    split; [|split; reflexivity].
    unfold mean_square. assert (LD : length devs = hb_k h) by (rewrite <- sizes_k; symmetry; clear - I1; induction I1; cbn [length]; congruence). rewrite LD.
    rewrite INR_IZR_INZ. exact I4.
Qed.
End P.

(** the percentage of line 213 *)
Lemma percent_ok t k l : (0 < k)%Z -> (0 < l)%Z -> (k * l <= 2 ^ 45)%Z -> (0 <= t <= k * l)%Z ->
  let p := ddiv (ddiv (dmul (of_int t) (of_int 100)) (of_int k)) (of_int l) in
  let x := 100 * IZR t / IZR (k * l) in
  is_double p /\ 0 <= p <= 100 /\ (p = 100 <-> t = (k * l)%Z) /\ (p = 0 <-> t = 0%Z) /\ Rabs (p - x) <= 3 * u * x.
Proof.
  intros K L KL TT p x. assert (KB : (k <= 2 ^ 45)%Z) by nia. assert (LB : (l <= 2 ^ 45)%Z) by nia.
  pose proof u_pos as U. pose proof u_le as U1. pose proof u_53 as U53.
  unfold p, ddiv, dmul. rewrite !of_int_ok by lia. rewrite <- mult_IZR, rnd_int by lia.
  split; [apply rnd_double|].
  assert (K1 : 1 <= IZR k) by (apply IZR_le; lia). assert (L1 : 1 <= IZR l) by (apply IZR_le; lia).
  set (i := / IZR k). set (j := / IZR l).
  assert (I : 0 < i) by (apply Rinv_0_lt_compat; lra). assert (J : 0 < j) by (apply Rinv_0_lt_compat; lra).
  assert (IK : IZR k * i = 1) by (unfold i; apply Rinv_r; lra). assert (JL : IZR l * j = 1) by (unfold j; apply Rinv_r; lra).
  assert (X : x = 100 * IZR t * i * j).
  { unfold x, Rdiv. rewrite mult_IZR, Rinv_mult. fold i j. ring. }
  unfold Rdiv. fold i j. set (q := IZR (t * 100) * i).
  assert (Q : q = 100 * IZR t * i) by (unfold q; rewrite mult_IZR; ring).
  assert (UB1 : u * IZR (k * l) <= / 256).
  { assert (A : IZR (k * l) <= IZR (2 ^ 45)) by (apply IZR_le; exact KL).
    assert (B : u * IZR (k * l) <= u * IZR (2 ^ 45)) by (apply Rmult_le_compat_l; lra).
    change (2 ^ 53)%Z with (256 * 2 ^ 45)%Z in U53. rewrite mult_IZR in U53. lra. }
  assert (UIJ : u <= i * j).
  { replace u with (u * IZR (k * l) * (i * j)) by (rewrite mult_IZR; replace (u * (IZR k * IZR l) * (i * j)) with (u * (IZR k * i) * (IZR l * j)) by ring; rewrite IK, JL; ring).
    rewrite <- (Rmult_1_l (i * j)) at 2. apply Rmult_le_compat_r; [apply Rmult_le_pos; lra|lra]. }
  assert (J1 : j <= 1) by (unfold j; rewrite <- Rinv_1; apply Rinv_le; lra).
  assert (UI : u <= i). { apply Rle_trans with (1 := UIJ). rewrite <- (Rmult_1_r i) at 2. apply Rmult_le_compat_l; lra. }
  assert (T0 : 0 <= IZR t) by (apply IZR_le; lia).
  assert (IJ : 0 < i * j) by (apply Rmult_lt_0_compat; lra).
  assert (IJ1 : IZR (k * l) * (i * j) = 1).
  { rewrite mult_IZR. replace (IZR k * IZR l * (i * j)) with ((IZR k * i) * (IZR l * j)) by ring. rewrite IK, JL. ring. }
  (* the two quotients *)
  destruct (Z.eq_dec t 0) as [-> |TN].
  { assert (q = 0) as -> by (rewrite Q; ring). rewrite rnd_0, Rmult_0_l, rnd_0. rewrite X.
    split; [lra|]. split; [split; [lra|intros; nia]|]. split; [tauto|]. rewrite !Rmult_0_r, !Rmult_0_l, Rmult_0_r, Rminus_0_r, Rabs_R0. lra. }
  assert (TR : 1 <= IZR t) by (apply IZR_le; lia).
  assert (LQ : u <= q). { rewrite Q. apply Rle_trans with (1 := UI). rewrite <- (Rmult_1_l i) at 1. apply Rmult_le_compat_r; lra. }
  destruct (lowb_rnd q (or_intror LQ)) as [_ B1].
  assert (LR : u <= rnd q * j).
  { apply Rle_trans with (1 := UIJ). apply Rmult_le_compat_r; [lra|]. apply Rle_trans with (2 := proj1 B1).
    assert (100 * i <= q) by (rewrite Q; rewrite Rmult_assoc; rewrite <- (Rmult_1_l i) at 1; rewrite <- Rmult_assoc; rewrite Rmult_assoc; apply Rmult_le_compat_l; [lra|]; apply Rmult_le_compat_r; lra).
    nra. }
  destruct (lowb_rnd _ (or_intror LR)) as [B2' B2]. set (r := rnd (rnd q * j)) in *.
  assert (XQ : x = q * j) by (rewrite X, Q; reflexivity).
  assert (C1 : (1 - u) * q * j <= rnd q * j) by (apply Rmult_le_compat_r; lra).
  assert (C2 : rnd q * j <= (1 + u) * q * j) by (apply Rmult_le_compat_r; lra).
  assert (XP : 0 < x) by (rewrite XQ; apply Rmult_lt_0_compat; lra).
  assert (LO : (1 - u) * (1 - u) * x <= r).
  { apply Rle_trans with (2 := proj1 B2). rewrite XQ, Rmult_assoc. apply Rmult_le_compat_l; lra. }
  assert (HI : r <= (1 + u) * (1 + u) * x).
  { apply Rle_trans with (1 := proj2 B2). rewrite XQ, Rmult_assoc. apply Rmult_le_compat_l; lra. }
  assert (XE : x = 100 * (IZR t * (i * j))) by (rewrite X; ring).
  assert (TK : IZR t * (i * j) <= 1).
  { rewrite <- IJ1. apply Rmult_le_compat_r; [lra|]. apply IZR_le. lia. }
  split; [|split; [|split]].
  - split; [destruct B2' as [-> |]; lra|]. unfold r. apply (rnd_le_int _ 100); [discriminate|].
    assert (QL : rnd q <= IZR (100 * l)).
    { apply rnd_le_int; [lia|]. rewrite Q, mult_IZR, Rmult_assoc. apply Rmult_le_compat_l; [lra|].
      assert (IZR t <= IZR k * IZR l) by (rewrite <- mult_IZR; apply IZR_le; lia).
      apply Rle_trans with (IZR k * IZR l * i); [apply Rmult_le_compat_r; lra|]. replace (IZR k * IZR l * i) with (IZR l * (IZR k * i)) by ring. rewrite IK. lra. }
    apply Rle_trans with (IZR (100 * l) * j); [apply Rmult_le_compat_r; lra|]. rewrite mult_IZR, Rmult_assoc, JL. lra.
  - split.
    + intros R100. destruct (Z.eq_dec t (k * l)) as [e|ne]; [exact e|exfalso].
      assert (TL : IZR t <= IZR (k * l) - 1) by (rewrite <- minus_IZR; apply IZR_le; lia).
      assert (TX : IZR t * (i * j) <= 1 - i * j).
      { rewrite <- IJ1. replace (IZR (k * l) * (i * j) - i * j) with ((IZR (k * l) - 1) * (i * j)) by ring. apply Rmult_le_compat_r; lra. }
      assert (US : 4 * u <= i * j).
      { replace (4 * u) with (4 * (u * IZR (k * l)) * (i * j)) by (replace (4 * (u * IZR (k * l)) * (i * j)) with (4 * u * (IZR (k * l) * (i * j))) by ring; rewrite IJ1; ring).
        rewrite <- (Rmult_1_l (i * j)) at 2. apply Rmult_le_compat_r; lra. }
      assert (X4 : x <= 100 * (1 - 4 * u)) by lra.
      assert (H : r <= (1 + u) * (1 + u) * (100 * (1 - 4 * u))).
      { apply Rle_trans with (1 := HI). apply Rmult_le_compat_l; [nra|exact X4]. }
      clear - H R100 U U1. nra.
    + intros ->. unfold r. assert (q = IZR (100 * l)) as ->.
      { rewrite Q, !mult_IZR. replace (100 * (IZR k * IZR l) * i) with (100 * IZR l * (IZR k * i)) by ring. rewrite IK. ring. }
      rewrite (rnd_int (100 * l)) by lia. rewrite mult_IZR, Rmult_assoc, JL, Rmult_1_r. apply (rnd_int 100). discriminate.
  - split; [|intros; lia]. intros R0'. exfalso. destruct B2' as [B2'|B2']; [|lra]. nra.
  - apply Rabs_le. clear - LO HI XP U U1. split; nra.
Qed.
