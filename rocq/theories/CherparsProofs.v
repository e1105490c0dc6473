From Coq Require Import Reals Lra Lia.
From Verif Require Import Base CherparsModel CherparsSpec.
Open Scope R_scope.

(** * Finite sums *)
Definition sumR {A} (f : A -> R) (l : list A) : R := fold_right (fun a s => f a + s) 0 l.
Lemma sumR_app {A} (f : A -> R) l1 l2 : sumR f (l1 ++ l2) = sumR f l1 + sumR f l2.
Proof. induction l1 as [|a l1 IH]; cbn [sumR fold_right app]; [unfold sumR; lra|]. fold (sumR f (l1 ++ l2)). fold (sumR f l1). rewrite IH. lra. Qed.
Lemma sumR_flat_map {A B} (f : B -> R) (g : A -> list B) l : sumR f (flat_map g l) = sumR (fun a => sumR f (g a)) l.
Proof. induction l as [|a l IH]; [reflexivity|]. cbn [flat_map]. rewrite sumR_app, IH. reflexivity. Qed.
Lemma sumR_map {A B} (f : B -> R) (g : A -> B) l : sumR f (map g l) = sumR (fun a => f (g a)) l.
Proof. induction l as [|a l IH]; [reflexivity|]. cbn [map]. cbn [sumR fold_right]. fold (sumR f (map g l)). rewrite IH. reflexivity. Qed.
Lemma sumR_ext {A} (f g : A -> R) l : (forall a, In a l -> f a = g a) -> sumR f l = sumR g l.
Proof.
  induction l as [|a l IH]; intros H; [reflexivity|]. cbn [sumR fold_right]. fold (sumR f l). fold (sumR g l).
  rewrite H by (left; reflexivity). rewrite IH; [reflexivity|]. intros b Hb. apply H. right; exact Hb.
Qed.
Lemma sumR_le {A} (f g : A -> R) l : (forall a, In a l -> f a <= g a) -> sumR f l <= sumR g l.
Proof.
  induction l as [|a l IH]; intros H; [apply Rle_refl|]. cbn [sumR fold_right]. fold (sumR f l). fold (sumR g l).
  apply Rplus_le_compat; [apply H; left; reflexivity|]. apply IH. intros b Hb. apply H. right; exact Hb.
Qed.
Lemma sumR_scal {A} (f : A -> R) c l : sumR (fun a => c * f a) l = c * sumR f l.
Proof. induction l as [|a l IH]; cbn [sumR fold_right]; [lra|]. fold (sumR f l). fold (sumR (fun a => c * f a) l). rewrite IH. lra. Qed.
Lemma sumR_const {A} c (l : list A) : sumR (fun _ => c) l = INR (length l) * c.
Proof.
  induction l as [|a l IH]; cbn [sumR fold_right]; [cbn; lra|]. fold (sumR (fun _ : A => c) l). rewrite IH.
  cbn [length]. rewrite S_INR. lra.
Qed.

(** * Generating function of the load of one bucket *)
Lemma one_number x k (b : nat) h : (b < h)%nat ->
  sumR (fun c => x ^ (if Nat.eq_dec c b then S k else k)) (seq 0 h) = (INR h - 1 + x) * x ^ k.
Proof.
  intros H. replace h with (b + S (h - S b))%nat by lia. rewrite seq_app. cbn [seq Nat.add].
  rewrite sumR_app. cbn [sumR fold_right]. fold (sumR (fun c => x ^ (if Nat.eq_dec c b then S k else k)) (seq (S b) (h - S b))).
  destruct (Nat.eq_dec b b) as [_|N]; [|congruence].
  rewrite (sumR_ext _ (fun _ => x ^ k) (seq 0 b)).
  2: { intros c Hc. apply in_seq in Hc. destruct (Nat.eq_dec c b); [lia|reflexivity]. }
  rewrite (sumR_ext _ (fun _ => x ^ k) (seq (S b) (h - S b))).
  2: { intros c Hc. apply in_seq in Hc. destruct (Nat.eq_dec c b); [lia|reflexivity]. }
  rewrite !sumR_const, !seq_length, plus_INR, S_INR. cbn [pow]. ring.
Qed.
Lemma load_series x b h n : (b < h)%nat ->
  sumR (fun a => x ^ load a b) (assignments h n) = (INR h - 1 + x) ^ n.
Proof.
  intros H. induction n as [|n IH]; cbn [assignments].
  - cbn. lra.
  - rewrite sumR_flat_map.
    rewrite (sumR_ext _ (fun a => (INR h - 1 + x) * x ^ load a b)).
    + rewrite sumR_scal, IH. reflexivity.
    + intros a _. rewrite sumR_map. unfold load. cbn [count_occ]. apply one_number. exact H.
Qed.
Lemma assignments_count h n : INR (length (assignments h n)) = INR h ^ n.
Proof.
  induction n as [|n IH]; cbn [assignments]; [cbn; lra|].
  replace (length (flat_map (fun a => map (fun b => b :: a) (seq 0 h)) (assignments h n)))
    with (h * length (assignments h n))%nat.
  - rewrite mult_INR, IH. reflexivity.
  - clear IH. induction (assignments h n) as [|a l IH]; cbn [flat_map length]; [lia|].
    rewrite app_length, map_length, seq_length, <- IH. lia.
Qed.

(** * Markov and the union bound *)
Lemma markov x l b L : 1 <= x ->
  INR (length (filter (fun a => Nat.leb l (load a b)) L)) * x ^ l <= sumR (fun a => x ^ load a b) L.
Proof.
  intros Hx. induction L as [|a L IH]; cbn [filter length]; [cbn; lra|].
  cbn [sumR fold_right]. fold (sumR (fun a => x ^ load a b) L).
  assert (0 <= x ^ load a b) by (apply pow_le; lra).
  destruct (Nat.leb_spec l (load a b)) as [Le|Gt].
  - cbn [length]. rewrite S_INR. assert (x ^ l <= x ^ load a b) by (apply Rle_pow; assumption). lra.
  - lra.
Qed.
Lemma union h l L :
  INR (length (filter (crowded h l) L)) <=
  sumR (fun b => INR (length (filter (fun a => Nat.leb l (load a b)) L))) (seq 0 h).
Proof.
  induction L as [|a L IH].
  - cbn [filter length]. rewrite sumR_const. cbn. lra.
  - cbn [filter]. destruct (crowded h l a) eqn:E.
    + unfold crowded in E. apply existsb_exists in E. destruct E as [b [Hb E]].
      cbn [length]. rewrite S_INR.
      apply Rle_trans with (sumR (fun b => INR (length (filter (fun a => Nat.leb l (load a b)) L))) (seq 0 h) + 1); [lra|].
      clear IH. apply in_split in Hb. destruct Hb as [s1 [s2 Es]]. rewrite Es. rewrite !sumR_app.
      cbn [sumR fold_right]. fold (sumR (fun b0 : nat => INR (length (filter (fun a0 : list nat => (l <=? load a0 b0)%nat) L))) s2).
      fold (sumR (fun b0 : nat => INR (length (if (l <=? load a b0)%nat then a :: filter (fun a0 : list nat => (l <=? load a0 b0)%nat) L else filter (fun a0 : list nat => (l <=? load a0 b0)%nat) L))) s2).
      rewrite E. cbn [length]. rewrite S_INR.
      assert (M : forall s, sumR (fun b0 : nat => INR (length (filter (fun a0 : list nat => (l <=? load a0 b0)%nat) L))) s <=
        sumR (fun b0 : nat => INR (length (if (l <=? load a b0)%nat then a :: filter (fun a0 : list nat => (l <=? load a0 b0)%nat) L else filter (fun a0 : list nat => (l <=? load a0 b0)%nat) L))) s).
      { intros s. apply sumR_le. intros c _. destruct (l <=? load a c)%nat; cbn [length]; [rewrite S_INR; lra|lra]. }
      pose proof (M s1). pose proof (M s2). lra.
    + eapply Rle_trans; [exact IH|]. apply sumR_le. intros c _.
      destruct (Nat.leb l (load a c)); cbn [length]; [rewrite S_INR; lra|lra].
Qed.
Lemma crowded_bound h n l x : 1 <= x ->
  INR (length (filter (crowded h l) (assignments h n))) * x ^ l <= INR h * (INR h - 1 + x) ^ n.
Proof.
  intros Hx. assert (P : 0 < x ^ l) by (apply pow_lt; lra).
  apply Rle_trans with (sumR (fun b => INR (length (filter (fun a => Nat.leb l (load a b)) (assignments h n)))) (seq 0 h) * x ^ l).
  - apply Rmult_le_compat_r; [lra|]. apply union.
  - rewrite Rmult_comm, <- sumR_scal.
    apply Rle_trans with (sumR (fun _ : nat => (INR h - 1 + x) ^ n) (seq 0 h)).
    + apply sumR_le. intros b Hb. apply in_seq in Hb. rewrite Rmult_comm.
      rewrite <- (load_series x b h n) by lia. apply markov. exact Hx.
    + rewrite sumR_const, seq_length. lra.
Qed.

(** * Chernoff's bound *)
Lemma exp_pow x n : exp x ^ n = exp (INR n * x).
Proof.
  induction n as [|n IH]; [cbn; rewrite Rmult_0_l, exp_0; reflexivity|].
  cbn [pow]. rewrite IH, <- exp_plus. f_equal. rewrite S_INR. ring.
Qed.
Lemma exp_ge x : 1 + x <= exp x.
Proof. destruct (Req_dec x 0) as [->|N]; [rewrite exp_0; lra|]. left. apply exp_ineq1. exact N. Qed.
Lemma ceil_ge x : x <= IZR (ceil x).
Proof.
  unfold ceil. rewrite opp_IZR. destruct (base_Int_part (- x)). lra.
Qed.
Lemma ceil_pos x : 0 < x -> (1 <= ceil x)%Z.
Proof. intros H. pose proof (ceil_ge x). assert (0 < IZR (ceil x)) by lra. apply lt_IZR in H1. lia. Qed.

Lemma probability_bound (l n mu : nat) : (1 <= mu <= l)%nat -> (1 <= n)%nat ->
  probability (Z.to_nat (ceil (INR n / INR mu))) n l <= chernoff (INR l) (INR n) (INR mu).
Proof.
  intros Hm Hn. set (h := Z.to_nat (ceil (INR n / INR mu))).
  assert (M0 : 0 < INR mu) by (apply lt_0_INR; lia).
  assert (N0 : 0 < INR n) by (apply lt_0_INR; lia).
  assert (ML : INR mu <= INR l) by (apply le_INR; lia).
  assert (Q : 0 < INR n / INR mu) by (apply Rdiv_lt_0_compat; assumption).
  assert (HZ : (1 <= ceil (INR n / INR mu))%Z) by (apply ceil_pos; exact Q).
  assert (HE : INR h = IZR (ceil (INR n / INR mu))) by (unfold h; rewrite INR_IZR_INZ, Z2Nat.id by lia; reflexivity).
  assert (H0 : 0 < INR h) by (rewrite HE; apply IZR_lt; lia).
  set (x := INR l / INR mu).
  assert (X : 1 <= x).
  { unfold x. apply (Rmult_le_reg_r (INR mu)); [exact M0|]. unfold Rdiv. rewrite Rmult_assoc, Rinv_l by lra. lra. }
  assert (XL : 0 < x ^ l) by (apply pow_lt; lra).
  pose proof (crowded_bound h n l x X) as B.
  assert (HN : 0 < INR h ^ n) by (apply pow_lt; exact H0).
  unfold probability. rewrite assignments_count.
  (* (h - 1 + x)^n <= h^n exp (l - mu) *)
  assert (G : (INR h - 1 + x) ^ n <= INR h ^ n * exp (INR l - INR mu)).
  { replace (INR h - 1 + x) with (INR h * (1 + (x - 1) / INR h)) by (field; lra).
    rewrite Rpow_mult_distr. apply Rmult_le_compat_l; [lra|].
    apply Rle_trans with (exp ((x - 1) / INR h) ^ n).
    - apply pow_incr. split; [|apply exp_ge].
      assert (0 <= (x - 1) / INR h) by (apply Rmult_le_pos; [lra|left; apply Rinv_0_lt_compat; exact H0]). lra.
    - rewrite exp_pow.
      assert (E : INR n * ((x - 1) / INR h) <= INR l - INR mu).
      { replace (INR l - INR mu) with (INR mu * (x - 1)) by (unfold x; field; lra).
        replace (INR n * ((x - 1) / INR h)) with ((INR n / INR h) * (x - 1)) by (field; lra).
        apply Rmult_le_compat_r; [lra|].
        assert (C := ceil_ge (INR n / INR mu)). rewrite <- HE in C.
        apply (Rmult_le_reg_r (INR h)); [exact H0|]. unfold Rdiv at 1. rewrite Rmult_assoc, Rinv_l by lra.
        apply (Rmult_le_compat_l (INR mu)) in C; [|lra].
        replace (INR mu * (INR n / INR mu)) with (INR n) in C by (field; lra). lra. }
      destruct E as [E|E]; [left; apply exp_increasing; exact E|right; f_equal; exact E]. }
  unfold chernoff. rewrite <- HE. fold x.
  rewrite Rpower_pow by lra.
  apply (Rmult_le_reg_r (INR h ^ n)); [exact HN|]. unfold Rdiv at 1. rewrite Rmult_assoc, Rinv_l by lra. rewrite Rmult_1_r.
  apply (Rmult_le_reg_r (x ^ l)); [exact XL|].
  eapply Rle_trans; [exact B|].
  replace (INR h * (exp (INR l - INR mu) / x ^ l) * INR h ^ n * x ^ l)
    with (INR h * (INR h ^ n * exp (INR l - INR mu))) by (field; lra).
  apply Rmult_le_compat_l; lra.
Qed.

(** * The search *)
Lemma c_prob_chernoff l n mu : 0 < mu -> 0 < l -> c_prob l n mu = chernoff l n mu.
Proof.
  intros M L. unfold c_prob, chernoff, c_h, c_sigma. cbn zeta. f_equal.
  assert (X : 0 < l / mu) by (apply Rdiv_lt_0_compat; assumption).
  replace (1 + (l / mu - 1)) with (l / mu) by ring.
  set (x := l / mu) in *.
  assert (T : Rpower (exp 1) (x - 1) = exp (x - 1)).
  { unfold Rpower. rewrite ln_exp, Rmult_1_r. reflexivity. }
  rewrite T. unfold Rpower at 1. unfold Rdiv.
  rewrite ln_mult; [|apply exp_pos|apply Rinv_0_lt_compat; apply exp_pos].
  rewrite ln_Rinv by apply exp_pos. unfold Rpower at 1. rewrite !ln_exp.
  unfold Rpower. rewrite <- exp_Ropp, <- exp_plus. f_equal.
  unfold x. field. lra.
Qed.
Lemma Int_part_IZR z : Int_part (IZR z) = z.
Proof.
  destruct (base_Int_part (IZR z)) as [A B].
  apply le_IZR in A. assert (IZR z < IZR (Int_part (IZR z) + 1)) by (rewrite plus_IZR; lra).
  apply lt_IZR in H. lia.
Qed.
Lemma csearch_spec l n target : 0 < l -> forall m, (1 <= m)%nat ->
  exists mu, (1 <= mu <= m)%nat /\
    co_h (csearch l n target m) = ceil (n / INR mu) /\
    co_mu (csearch l n target m) = (Z.of_nat mu - 1)%Z /\
    co_sigma (csearch l n target m) = l / INR mu - 1 /\
    co_prob (csearch l n target m) = chernoff l n (INR mu) /\
    (co_prob (csearch l n target m) <= target \/ mu = 1%nat) /\
    (forall k, (mu < k <= m)%nat -> target < chernoff l n (INR k)).
Proof.
  intros L0. induction m as [|m IH]; intros H; [lia|].
  assert (P : 0 < INR (S m)) by (apply lt_0_INR; lia).
  assert (OUT : forall o, o = {| co_h := Int_part (c_h n (INR (S m))); co_mu := Z.of_nat m; co_sigma := c_sigma l (INR (S m)); co_prob := c_prob l n (INR (S m)) |} ->
    co_h o = ceil (n / INR (S m)) /\ co_mu o = (Z.of_nat (S m) - 1)%Z /\ co_sigma o = l / INR (S m) - 1 /\
    co_prob o = chernoff l n (INR (S m))).
  { intros o ->. cbn [co_h co_mu co_sigma co_prob]. unfold c_h. rewrite Int_part_IZR.
    repeat split; [lia|]. apply c_prob_chernoff; assumption. }
  destruct m as [|m'].
  - exists 1%nat. split; [lia|]. destruct (OUT (csearch l n target 1) eq_refl) as [A [B [C D]]].
    repeat split; auto. intros k Hk. lia.
  - set (m := S m') in *. change (csearch l n target (S m)) with
      (if Rgt_dec (c_prob l n (INR (S m))) target then csearch l n target m else
       {| co_h := Int_part (c_h n (INR (S m))); co_mu := Z.of_nat m; co_sigma := c_sigma l (INR (S m)); co_prob := c_prob l n (INR (S m)) |}).
    destruct (Rgt_dec (c_prob l n (INR (S m))) target) as [G|G].
    + destruct IH as [mu [A [B [C [D [E [F K]]]]]]]; [lia|]. exists mu. split; [lia|]. repeat split; auto.
      intros k Hk. destruct (Nat.eq_dec k (S m)) as [->|N]; [|apply K; lia].
      rewrite <- c_prob_chernoff by assumption. exact G.
    + exists (S m). split; [lia|].
      destruct (OUT _ eq_refl) as [A [B [C D]]].
      split; [exact A|]. split; [exact B|]. split; [exact C|]. split; [exact D|]. split.
      * left. cbn [co_prob]. lra.
      * intros k Hk. lia.
Qed.

(** * The program *)
Definition sane (c : cargs) : Prop := (1 <= ca_l c)%Z /\ (1 <= ca_n c)%Z /\ ca_p c < - epsilon.
Lemma cparse_sane os : forall c c', sane c -> cparse os c = Ok c' -> sane c'.
Proof.
  unfold sane. induction os as [|[z|z|r| |] os IH]; intros c c' S E; cbn [cparse] in E.
  - inversion E; subst; exact S.
  - destruct (Z.ltb_spec z 1); [discriminate|]. eapply IH; [|exact E]. cbn. intuition lia.
  - destruct (Z.leb_spec z 0); [discriminate|]. eapply IH; [|exact E]. cbn. intuition lia.
  - destruct (Rge_dec r (- epsilon)) as [G|G]; [discriminate|]. eapply IH; [|exact E]. cbn. intuition lra.
  - eapply IH; [|exact E]. cbn. exact S.
  - discriminate.
Qed.
Lemma sane_default : sane cdefault.
Proof. unfold sane, cdefault, epsilon. cbn. repeat split; try lia. lra. Qed.

Lemma IZR_to_nat z : (0 <= z)%Z -> INR (Z.to_nat z) = IZR z.
Proof. intros H. rewrite INR_IZR_INZ, Z2Nat.id by exact H. reflexivity. Qed.

Lemma cherpars_choice_l os c :
  cparse os cdefault = Ok c -> (ca_n c < 64)%Z ->
  exists out mu, cherpars os = Ok out /\ (1 <= mu <= ca_l c)%Z /\
    co_h out = ceil (IZR (2 ^ ca_n c) / IZR mu) /\ co_mu out = (mu - 1)%Z /\
    co_sigma out = IZR (ca_l c) / IZR mu - 1 /\
    co_prob out = chernoff (IZR (ca_l c)) (IZR (2 ^ ca_n c)) (IZR mu) /\
    (co_prob out <= Rpower 2 (ca_p c) \/ mu = 1%Z) /\
    (forall k, (mu < k <= ca_l c)%Z -> Rpower 2 (ca_p c) < chernoff (IZR (ca_l c)) (IZR (2 ^ ca_n c)) (IZR k)).
Proof.
  intros E N. destruct (cparse_sane _ _ _ sane_default E) as [SL [SN SP]].
  unfold cherpars. rewrite E. cbn [bind]. unfold to_size. destruct (Z.ltb_spec (ca_n c) 64); [|lia]. cbn [bind].
  destruct (csearch_spec (IZR (ca_l c)) (IZR (2 ^ ca_n c)) (Rpower 2 (ca_p c)) ltac:(apply IZR_lt; lia) (Z.to_nat (ca_l c)) ltac:(lia))
    as [mu [A [B [C [D [F [G K]]]]]]].
  eexists _, (Z.of_nat mu). split; [reflexivity|]. rewrite <- INR_IZR_INZ.
  split; [lia|]. split; [exact B|]. split; [exact C|]. split; [exact D|]. split; [exact F|].
  split; [destruct G as [G|G]; [left; exact G|right; subst; reflexivity]|].
  intros k Hk. specialize (K (Z.to_nat k)). rewrite IZR_to_nat in K by lia. apply K. lia.
Qed.
Lemma cherpars_sound_l os c out :
  cparse os cdefault = Ok c -> cherpars os = Ok out ->
  probability (Z.to_nat (co_h out)) (Z.to_nat (2 ^ ca_n c)) (Z.to_nat (ca_l c)) <= co_prob out.
Proof.
  intros E O. destruct (cparse_sane _ _ _ sane_default E) as [SL [SN SP]].
  assert (N : (ca_n c < 64)%Z).
  { unfold cherpars in O. rewrite E in O. cbn [bind] in O. unfold to_size in O.
    destruct (Z.ltb_spec (ca_n c) 64); [assumption|discriminate]. }
  destruct (cherpars_choice_l os c E N) as [out' [mu [O' [M [H [_ [_ [P _]]]]]]]].
  assert (out' = out) by congruence. subst out'. rewrite H, P.
  assert (T : (1 <= 2 ^ ca_n c)%Z) by (apply Z.pow_le_mono_r with (b := 0%Z) (a := 2%Z) (c := ca_n c); lia).
  pose proof (probability_bound (Z.to_nat (ca_l c)) (Z.to_nat (2 ^ ca_n c)) (Z.to_nat mu)) as B.
  rewrite !IZR_to_nat in B by lia. apply B; lia.
Qed.
Lemma cherpars_undefined_l os c : cparse os cdefault = Ok c -> (64 <= ca_n c)%Z -> cherpars os = UB BadConv.
Proof.
  intros E N. unfold cherpars. rewrite E. cbn [bind]. unfold to_size. destruct (Z.ltb_spec (ca_n c) 64); [lia|reflexivity].
Qed.
Lemma cparse_no_n os : forall c c', Forall no_n os -> cparse os c = Ok c' -> ca_n c' = ca_n c.
Proof.
  induction os as [|[z|z|r| |] os IH]; intros c c' F E; cbn [cparse] in E; try (inversion F; subst).
  - inversion E; reflexivity.
  - destruct (z <? 1)%Z; [discriminate|]. rewrite (IH _ _ H2 E). reflexivity.
  - contradiction.
  - destruct (Rge_dec r (- epsilon)); [discriminate|]. rewrite (IH _ _ H2 E). reflexivity.
  - rewrite (IH _ _ H2 E). reflexivity.
  - discriminate.
Qed.
(** capacity 1 never meets a target below 1 *)
Lemma chernoff_one n : chernoff 1 n 1 = IZR (ceil n).
Proof.
  unfold chernoff. replace (n / 1) with n by field. replace (1 - 1) with 0 by ring. replace (1 / 1) with 1 by field.
  rewrite exp_0. unfold Rpower. rewrite ln_1, Rmult_0_r, exp_0. field.
Qed.
Lemma ceil_IZR z : ceil (IZR z) = z.
Proof. unfold ceil. rewrite <- opp_IZR, Int_part_IZR. lia. Qed.
Lemma cherpars_fallback_l os c :
  cparse os cdefault = Ok c -> (ca_n c < 64)%Z -> ca_l c = 1%Z ->
  exists out, cherpars os = Ok out /\ co_h out = (2 ^ ca_n c)%Z /\ co_mu out = 0%Z /\
    co_prob out = IZR (2 ^ ca_n c) /\ Rpower 2 (ca_p c) < 1 < co_prob out.
Proof.
  intros E N L. destruct (cparse_sane _ _ _ sane_default E) as [SL [SN SP]].
  destruct (cherpars_choice_l os c E N) as [out [mu [O [M [H [Q [_ [P _]]]]]]]].
  assert (mu = 1%Z) by lia. subst mu. rewrite L in P.
  exists out. split; [exact O|].
  replace (IZR (2 ^ ca_n c) / 1) with (IZR (2 ^ ca_n c)) in H by field. rewrite ceil_IZR in H.
  rewrite chernoff_one, ceil_IZR in P.
  split; [exact H|]. split; [rewrite Q; lia|]. split; [exact P|]. rewrite P. split.
  - rewrite <- (Rpower_O 2) by lra. apply Rpower_lt; [lra|]. unfold epsilon in SP. lra.
  - apply (IZR_lt 1). apply Z.lt_le_trans with (2 ^ 1)%Z; [lia|]. apply Z.pow_le_mono_r; lia.
Qed.
Lemma cparse_refused os : forall c,
  (Exists refused os -> cparse os c = Exit 1) /\ (~ Exists refused os -> exists c', cparse os c = Ok c').
Proof.
  induction os as [|[z|z|r| |] os IH]; intros c; cbn [cparse]; split; intros H.
  - inversion H.
  - eauto.
  - destruct (Z.ltb_spec z 1) as [A|A]; [reflexivity|]. inversion H; subst; [cbn in H1; lia|apply IH; assumption].
  - destruct (Z.ltb_spec z 1) as [A|A]; [exfalso; apply H; left; exact A|]. apply IH. intros Q. apply H. right; exact Q.
  - destruct (Z.leb_spec z 0) as [A|A]; [reflexivity|]. inversion H; subst; [cbn in H1; lia|apply IH; assumption].
  - destruct (Z.leb_spec z 0) as [A|A]; [exfalso; apply H; left; exact A|]. apply IH. intros Q. apply H. right; exact Q.
  - destruct (Rge_dec r (- epsilon)) as [A|A]; [reflexivity|]. unfold epsilon in A.
    inversion H; subst; [cbn in H1; lra|apply IH; assumption].
  - destruct (Rge_dec r (- epsilon)) as [A|A]; unfold epsilon in A; [exfalso; apply H; left; cbn; lra|].
    apply IH. intros Q. apply H. right; exact Q.
  - inversion H; subst; [contradiction|apply IH; assumption].
  - apply IH. intros Q. apply H. right; exact Q.
  - reflexivity.
  - exfalso. apply H. left. exact I.
Qed.
Lemma cherpars_refused_l os : cherpars os = Exit 1 <-> Exists refused os.
Proof.
  destruct (cparse_refused os cdefault) as [A B]. split.
  - intros E. apply Exists_exists. destruct (Exists_dec refused os) as [D|D].
    + intros [z|z|r| |]; cbn [refused].
      * destruct (Z_lt_dec z 1); auto.
      * destruct (Z_le_dec z 0); auto.
      * apply Rle_dec.
      * right; tauto.
      * left; exact I.
    + apply Exists_exists. exact D.
    + destruct (B D) as [c' Ec]. unfold cherpars in E. rewrite Ec in E. cbn [bind] in E. unfold to_size in E.
      destruct (ca_n c' <? 64)%Z; discriminate.
  - intros E. unfold cherpars. rewrite (A E). reflexivity.
Qed.

Lemma given_snoc {A} (f : copt -> option A) d os : forall o,
  given f d (o :: os) = given f (match f o with Some z => z | None => d end) os.
Proof.
  intros o. unfold given. cbn [flat_map]. destruct (f o) as [z|]; cbn [app]; [|reflexivity].
  destruct (flat_map _ os) as [|x t] eqn:E; [reflexivity|].
  cbn [last]. clear E. revert x. induction t as [|y t IH]; intros x; [reflexivity|]. exact (IH y).
Qed.
Lemma cparse_values os : forall c c', cparse os c = Ok c' ->
  ca_l c' = given opt_l (ca_l c) os /\ ca_n c' = given opt_n (ca_n c) os /\ ca_p c' = given opt_p (ca_p c) os.
Proof.
  induction os as [|o os IH]; intros c c' E; cbn [cparse] in E; [inversion E; subst; auto|].
  rewrite !given_snoc. destruct o as [z|z|r| |]; cbn [opt_l opt_n opt_p].
  - destruct (z <? 1)%Z; [discriminate|]. exact (IH _ _ E).
  - destruct (z <=? 0)%Z; [discriminate|]. exact (IH _ _ E).
  - destruct (Rge_dec r (- epsilon)); [discriminate|]. exact (IH _ _ E).
  - exact (IH _ _ E).
  - discriminate.
Qed.
Lemma cherpars_values_l os : ~ Exists refused os -> exists c, cparse os cdefault = Ok c /\ ca_l c = given opt_l 100%Z os /\ ca_n c = given opt_n 1024%Z os /\ ca_p c = given opt_p (-40) os.
Proof.
  intros H. destruct (cparse_refused os cdefault) as [_ B]. destruct (B H) as [c E]. exists c.
  split; [exact E|]. exact (cparse_values os _ _ E).
Qed.

(** * The hash table *)
From Verif Require Import Spec Lib HashBucketsModel HashBucketsSpec HashBucketsProofs.
Lemma load_belonging {T} (al : halgo T) k i l :
  load (map (index_of al k) l) i = length (belonging al k i l).
Proof.
  unfold load, belonging. induction l as [|e l IH]; [reflexivity|]. cbn [map count_occ filter].
  destruct (Nat.eq_dec (index_of al k e) i) as [E|E].
  - rewrite (proj2 (Nat.eqb_eq _ _) E). cbn [length]. congruence.
  - rewrite (proj2 (Nat.eqb_neq _ _) E). exact IH.
Qed.
Lemma in_assignments h a : Forall (fun b => (b < h)%nat) a -> In a (assignments h (length a)).
Proof.
  induction a as [|b a IH]; intros F; cbn [length assignments]; [left; reflexivity|].
  inversion F; subst. apply in_flat_map. exists a. split; [apply IH; assumption|].
  apply (in_map (fun c => c :: a)). apply in_seq. lia.
Qed.
Lemma index_of_lt {T} (al : halgo T) k e : (0 < k)%nat -> (index_of al k e < k)%nat.
Proof.
  intros H. unfold index_of. pose proof (Z.mod_pos_bound (LE (firstn (ha_size al) (ha_hash al e))) (Z.of_nat k)). lia.
Qed.
Lemma table_assignment_l (T : Type) (al : halgo T) k ml l :
  algo_valid al -> (0 < k)%nat ->
  exists h0, new_hb k ml (Some al) = Ok h0 /\
    In (map (index_of al k) l) (assignments k (length l)) /\
    (hb_add_list h0 l (length l) = Exit 1 <-> crowded k (S ml) (map (index_of al k) l) = true) /\
    (hb_add_list h0 l (length l) = Exit 1 -> crowded k ml (map (index_of al k) l) = true).
Proof.
  intros V K. destruct (add_history_l al k ml l V K) as [h0 [E [A B]]]. exists h0. split; [exact E|].
  assert (C : forall m, crowded k m (map (index_of al k) l) = true <-> exists i, (i < k)%nat /\ (m <= length (belonging al k i l))%nat).
  { intros m. unfold crowded. rewrite existsb_exists. split.
    - intros [b [I Q]]. apply in_seq in I. apply Nat.leb_le in Q. rewrite load_belonging in Q. exists b. split; [lia|exact Q].
    - intros [i [I Q]]. exists i. split; [apply in_seq; lia|]. apply Nat.leb_le. rewrite load_belonging. exact Q. }
  assert (X : hb_add_list h0 l (length l) = Exit 1 -> crowded k (S ml) (map (index_of al k) l) = true).
  { intros X. destruct (crowded k (S ml) (map (index_of al k) l)) eqn:Q; [reflexivity|].
    destruct A as [h [Ok1 _]]; [|congruence].
    intros i Hi. destruct (Nat.le_gt_cases (length (belonging al k i l)) ml) as [G|G]; [exact G|].
    assert (crowded k (S ml) (map (index_of al k) l) = true) by (apply C; exists i; lia). congruence. }
  split; [|split; [split; [exact X|]|]].
  - rewrite <- (map_length (index_of al k) l). apply in_assignments. apply Forall_forall. intros b Hb.
    apply in_map_iff in Hb. destruct Hb as [e [<- _]]. apply index_of_lt. exact K.
  - intros Q. apply B. apply C in Q. destruct Q as [i [Hi Q]]. exists i. lia.
  - intros Q. apply C. apply X in Q. apply C in Q. destruct Q as [i [Hi Q]]. exists i. lia.
Qed.
