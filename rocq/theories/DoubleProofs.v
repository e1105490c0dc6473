(** Proofs about the figures computed in double. *)
From Coq Require Import Reals Lra Lia Psatz.
From Flocq Require Import Core Relative.
From Verif Require Import Base Spec Lib DoubleModel DoubleSpec.
From Verif Require BenchModel BenchSpec BenchProofs HashBucketsModel HashBucketsSpec HashBucketsProofs.
Open Scope R_scope.

#[local] Notation fexp := (FLT_exp (-1074) 53).
#[local] Instance prec53 : Prec_gt_0 53. Proof. reflexivity. Qed.
#[local] Notation u := half_ulp.

Lemma u_bpow : u = / 2 * bpow radix2 (-53 + 1).
Proof. unfold half_ulp. change (bpow radix2 (-53 + 1)) with (/ IZR (2 ^ 52)). change (2 ^ 53)%Z with (2 * 2 ^ 52)%Z. rewrite mult_IZR. field. apply not_0_IZR. discriminate. Qed.
Lemma u_pos : 0 < u.
Proof. unfold half_ulp. apply Rinv_0_lt_compat. apply IZR_lt. reflexivity. Qed.
Lemma u_53 : u * IZR (2 ^ 53) = 1.
Proof. unfold half_ulp. apply Rinv_l. apply not_0_IZR. discriminate. Qed.
Lemma u_le : u <= / 1024.
Proof. unfold half_ulp. apply Rinv_le; [lra|]. apply IZR_le. discriminate. Qed.

(** is_double is the format *)
Lemma powerRZ_bpow e : powerRZ 2 e = bpow radix2 e.
Proof. rewrite bpow_powerRZ. reflexivity. Qed.
Lemma is_double_iff x : is_double x <-> generic_format radix2 fexp x.
Proof.
  split.
  - intros [m [e [-> [M E]]]]. apply generic_format_FLT. exists (Float radix2 m e); cbn [Fnum Fexp]; [|exact M|exact E].
    unfold F2R. cbn [Fnum Fexp]. rewrite powerRZ_bpow. reflexivity.
  - intros G. apply FLT_format_generic in G; [|typeclasses eauto]. destruct G as [[m e] E M X]. cbn [Fnum Fexp] in *. exists m, e.
    split; [|split; [exact M|exact X]]. rewrite E. unfold F2R. cbn [Fnum Fexp]. rewrite powerRZ_bpow. reflexivity.
Qed.
Lemma rnd_double x : is_double (rnd x).
Proof. apply is_double_iff. apply generic_format_round; typeclasses eauto. Qed.
Lemma rnd_nearest x : nearest_double x (rnd x).
Proof.
  split; [apply rnd_double|]. intros z Z.
  assert (V : Valid_exp fexp) by typeclasses eauto.
  destruct (round_N_pt radix2 fexp (fun x => negb (Z.even x)) x) as [_ H]. apply H. apply is_double_iff. exact Z.
Qed.
Lemma rnd_le x y : x <= y -> rnd x <= rnd y.
Proof. apply round_le; typeclasses eauto. Qed.
Lemma rnd_id x : is_double x -> rnd x = x.
Proof. intros H. apply round_generic; [typeclasses eauto|]. apply is_double_iff. exact H. Qed.
Lemma int_double z : (Z.abs z <= 2 ^ 53)%Z -> is_double (IZR z).
Proof.
  intros H. destruct (Z.eq_dec (Z.abs z) (2 ^ 53)) as [e|n].
  - exists (z / 2)%Z, 1%Z.
    assert (D : (z / 2 * 2 = z)%Z).
    { assert (z = 2 ^ 53 \/ z = - 2 ^ 53)%Z as [-> | ->] by lia; reflexivity. }
    split; [|split; [|lia]].
    + rewrite <- D at 1. rewrite mult_IZR. cbn [powerRZ]. change (Pos.to_nat 1) with 1%nat. rewrite pow_1. reflexivity.
    + assert (z = 2 ^ 53 \/ z = - 2 ^ 53)%Z as [-> | ->] by lia; reflexivity.
  - exists z, 0%Z. split; [cbn [powerRZ]; ring|]. split; lia.
Qed.
Lemma rnd_int z : (Z.abs z <= 2 ^ 53)%Z -> rnd (IZR z) = IZR z.
Proof. intros H. apply rnd_id, int_double, H. Qed.
Lemma of_int_ok z : (Z.abs z <= 2 ^ 53)%Z -> of_int z = IZR z.
Proof. exact (rnd_int z). Qed.
Lemma rnd_0 : rnd 0 = 0.
Proof. apply (rnd_int 0). discriminate. Qed.
Lemma rnd_nonneg x : 0 <= x -> 0 <= rnd x.
Proof. intros H. rewrite <- rnd_0. apply rnd_le. exact H. Qed.
Lemma rnd_le_int x z : (Z.abs z <= 2 ^ 53)%Z -> x <= IZR z -> rnd x <= IZR z.
Proof. intros A H. rewrite <- (rnd_int z A). apply rnd_le. exact H. Qed.
Lemma rnd_ge_int x z : (Z.abs z <= 2 ^ 53)%Z -> IZR z <= x -> IZR z <= rnd x.
Proof. intros A H. rewrite <- (rnd_int z A). apply rnd_le. exact H. Qed.

(** errors *)
Definition tiny : R := / 2 * bpow radix2 (-1074).
Lemma tiny_pos : 0 < tiny.
Proof. unfold tiny. pose proof (bpow_gt_0 radix2 (-1074)). lra. Qed.
Lemma tiny_small : tiny <= u * u * u * u.
Proof.
  unfold tiny. rewrite u_bpow. change (-53 + 1)%Z with (-52)%Z.
  assert (H : bpow radix2 (-1074) <= bpow radix2 (-300)) by (apply bpow_le; lia).
  assert (E : bpow radix2 (-300) = bpow radix2 (-92) * (bpow radix2 (-52) * bpow radix2 (-52) * bpow radix2 (-52) * bpow radix2 (-52))).
  { rewrite <- !bpow_plus. reflexivity. }
  assert (S : bpow radix2 (-92) <= / 16).
  { change (/ 16) with (bpow radix2 (-4)). apply bpow_le. lia. }
  set (w := bpow radix2 (-52)) in *. assert (0 < w) by apply bpow_gt_0.
  assert (0 < w * w * w * w) by (repeat apply Rmult_lt_0_compat; assumption).
  pose proof (bpow_gt_0 radix2 (-92)). nra.
Qed.
Lemma rnd_err x : Rabs (rnd x - x) <= u * Rabs x + tiny.
Proof.
  destruct (error_N_FLT radix2 (-1074) 53 eq_refl (fun x => negb (Z.even x)) x) as [eps [eta [E1 [E2 [_ E]]]]].
  fold (rnd x) in E. rewrite E. replace (x * (1 + eps) + eta - x) with (x * eps + eta) by ring.
  eapply Rle_trans; [apply Rabs_triang|]. rewrite Rabs_mult, u_bpow. apply Rplus_le_compat; [|exact E2].
  rewrite Rmult_comm. apply Rmult_le_compat_r; [apply Rabs_pos|exact E1].
Qed.
Lemma rnd_rel x : x = 0 \/ bpow radix2 (-1022) <= Rabs x -> Rabs (rnd x - x) <= u * Rabs x.
Proof.
  intros [-> |H]; [rewrite rnd_0, Rminus_0_r, Rabs_R0; lra|]. rewrite u_bpow.
  apply (relative_error_N_FLT radix2 (-1074) 53 eq_refl (fun x => negb (Z.even x))). exact H.
Qed.

Lemma u_bpow53 : u = bpow radix2 (-53).
Proof. rewrite u_bpow. change (-53 + 1)%Z with (1 + -53)%Z. rewrite bpow_plus. change (bpow radix2 1) with 2. lra. Qed.
Lemma quot_normal S c : (0 < c <= 2 ^ 53)%Z -> IZR S / IZR c = 0 \/ bpow radix2 (-1022) <= Rabs (IZR S / IZR c).
Proof.
  intros C. destruct (Z.eq_dec S 0) as [-> |N]; [left; unfold Rdiv; apply Rmult_0_l|]. right.
  assert (C1 : 1 <= IZR c) by (apply IZR_le; lia). assert (C2 : IZR c <= IZR (2 ^ 53)) by (apply IZR_le; lia).
  unfold Rdiv. rewrite Rabs_mult, <- abs_IZR, (Rabs_pos_eq (/ IZR c)) by (apply Rlt_le, Rinv_0_lt_compat; lra).
  assert (S1 : 1 <= IZR (Z.abs S)) by (apply IZR_le; lia).
  assert (I : u <= / IZR c) by (unfold half_ulp; apply Rinv_le; lra).
  apply Rle_trans with u; [rewrite u_bpow53; apply bpow_le; lia|]. pose proof u_pos. nra.
Qed.
Lemma quot_ok S c : (Z.abs S <= 2 ^ 53)%Z -> (0 < c <= 2 ^ 53)%Z ->
  ddiv (of_int S) (of_int c) = rnd (IZR S / IZR c) /\
  Rabs (rnd (IZR S / IZR c) - IZR S / IZR c) <= u * Rabs (IZR S / IZR c).
Proof.
  intros A C. unfold ddiv. rewrite !of_int_ok by lia. split; [reflexivity|]. apply rnd_rel. apply quot_normal. exact C.
Qed.
Lemma div_between S c a b : (0 < c)%Z -> (a * c <= S <= b * c)%Z -> IZR a <= IZR S / IZR c <= IZR b.
Proof.
  intros C [A B]. assert (C1 : 0 < IZR c) by (apply IZR_lt; exact C).
  apply IZR_le in A, B. rewrite mult_IZR in A, B.
  split; [apply Rmult_le_reg_r with (IZR c)|apply Rmult_le_reg_r with (IZR c)]; try exact C1;
    unfold Rdiv; rewrite Rmult_assoc, Rinv_l, Rmult_1_r by lra; assumption.
Qed.

(** the chronometer *)
Section Chrono.
Import BenchModel BenchSpec BenchProofs.
#[local] Open Scope Z_scope.
Variables (s : status) (log : list stamp) (b : bm).
Hypothesis R0 : rel (s, log) b.
Hypothesis BL : Z.of_nat (length log) <= 2 ^ 53.
Hypothesis H2 : (2 <= length log)%nat.
#[local] Notation ts := (running_times log).
Lemma BL63 : Z.of_nat (length log) < 2 ^ 63.
Proof. lia. Qed.
Lemma ts_length : (1 <= length ts)%nat /\ (length ts <= length (intervals log))%nat.
Proof.
  split; [exact (proj2 (average_ok s log b R0 BL63 H2))|].
  unfold running_times. rewrite map_length. clear. induction (intervals log) as [|[r d] l IH]; cbn [filter fst length]; [lia|].
  destruct r; cbn [length]; lia.
Qed.
Lemma ts_count : 0 < Z.of_nat (length ts) <= 2 ^ 53.
Proof. destruct ts_length as [A B]. rewrite intervals_length in B. lia. Qed.
Lemma average_d_ok : average_d b true = Ok (ddiv (of_int (sum_z ts)) (of_int (Z.of_nat (length ts)))).
Proof.
  pose proof BL63 as B63. unfold average_d. rewrite (too_few_true s log b R0). destruct (Nat.ltb_spec (length log) 2); [lia|]. cbn [bind].
  rewrite (cumulative_ok s log b R0 B63). cbn [bind]. rewrite (count_ok s log b R0 B63) by (destruct log; [cbn in H2; lia|discriminate]).
  reflexivity.
Qed.
Lemma mean_ts : (mean_r ts = IZR (sum_z ts) / IZR (Z.of_nat (length ts)))%R.
Proof. unfold mean_r. rewrite INR_IZR_INZ. reflexivity. Qed.
Lemma average_d_figures : Z.abs (sum_z ts) <= 2 ^ 53 ->
  exists a, average_d b true = Ok a /\ a = rnd (mean_r ts) /\ (Rabs (a - mean_r ts) <= u * Rabs (mean_r ts))%R.
Proof.
  intros HS. destruct (quot_ok (sum_z ts) (Z.of_nat (length ts)) HS ts_count) as [Q1 Q2].
  rewrite average_d_ok, Q1, <- mean_ts. rewrite <- mean_ts in Q2. eexists. split; [reflexivity|]. split; [reflexivity|exact Q2].
Qed.
Lemma mean_between mn mx : (forall d, In d ts -> mn <= d <= mx) -> (IZR mn <= mean_r ts <= IZR mx)%R.
Proof. intros F. rewrite mean_ts. apply div_between; [apply ts_count|]. pose proof (sum_bounds ts mn mx F). lia. Qed.

Definition step_d (avg n : R) (v : R) (x : bool * Z) : R :=
  if fst x then let xx := of_int (w64 (snd x)) in let diff := if Rlt_bool avg xx then dsub xx avg else dsub avg xx in
    dadd v (dmul (ddiv diff n) diff) else v.
Lemma variance_d_ok a : average_d b true = Ok a ->
  variance_d b true = Ok (fold_left (step_d a (of_int (Z.of_nat (length (intervals log))))) (intervals log) 0%R).
Proof.
  intros A. pose proof BL63 as B63. unfold variance_d. rewrite (too_few_true s log b R0). destruct (Nat.ltb_spec (length log) 2); [lia|]. cbn [bind].
  rewrite A. cbn [bind andb]. rewrite (rel_length s log b R0). rewrite <- intervals_length.
  replace (Z.of_nat (length log) - 1) with (Z.of_nat (length (intervals log))) by (rewrite intervals_length; lia).
  apply (loop_fold (step_d a (of_int (Z.of_nat (length (intervals log)))))).
  intros k [r d] v Hk. destruct (interval_ok s log b k r d R0 B63 Hk) as [I P]. cbn [Nat.add].
  rewrite P. cbn [bind]. rewrite negb_involutive. unfold step_d; cbn [fst snd]. destruct r; [rewrite I; reflexivity|reflexivity].
Qed.
End Chrono.

(** one term of the variance and the sum of the terms *)
Section Terms.
Variables (M n : R) (mu a : R).
Hypothesis Mint : exists z, M = IZR z /\ (1 <= z <= 2 ^ 53)%Z.
Hypothesis nint : exists z, n = IZR z /\ (1 <= z <= 2 ^ 50)%Z.
Hypothesis MU : 0 <= mu <= M.
Hypothesis AM : 0 <= a <= M.
Hypothesis AE : Rabs (a - mu) <= u * M.

Lemma M_ge : 1 <= M.
Proof. destruct Mint as [z [-> Z]]. apply IZR_le. lia. Qed.
Lemma rnd_le_M x : x <= M -> rnd x <= M.
Proof. destruct Mint as [z [-> Z]]. apply rnd_le_int. lia. Qed.
Lemma n_ge : 1 <= n <= IZR (2 ^ 50).
Proof. destruct nint as [z [-> Z]]. split; apply IZR_le; lia. Qed.

Definition term_d (x : R) : R := let diff := if Rlt_bool a x then dsub x a else dsub a x in dmul (ddiv diff n) diff.
Lemma diff_abs x : (if Rlt_bool a x then dsub x a else dsub a x) = rnd (Rabs (x - a)).
Proof.
  unfold dsub. destruct (Rlt_bool_spec a x) as [H|H]; f_equal; [rewrite Rabs_pos_eq by lra; reflexivity|].
  rewrite <- Rabs_Ropp, Rabs_pos_eq by lra. ring.
Qed.
Lemma diff_bounds x : 0 <= x <= M -> let d := rnd (Rabs (x - a)) in
  0 <= d <= M /\ Rabs (d - Rabs (x - mu)) <= 2 * u * M + tiny.
Proof.
  intros X d. assert (W : 0 <= Rabs (x - a) <= M).
  { split; [apply Rabs_pos|]. unfold Rabs. destruct (Rcase_abs _); lra. }
  split; [split; [apply rnd_nonneg; apply W|apply rnd_le_M; apply W]|].
  assert (E := rnd_err (Rabs (x - a))). fold d in E. rewrite Rabs_Rabsolu in E.
  assert (T : Rabs (Rabs (x - a) - Rabs (x - mu)) <= u * M).
  { eapply Rle_trans; [apply Rabs_triang_inv2|]. replace (x - a - (x - mu)) with (- (a - mu)) by ring. rewrite Rabs_Ropp. exact AE. }
  replace (d - Rabs (x - mu)) with ((d - Rabs (x - a)) + (Rabs (x - a) - Rabs (x - mu))) by ring.
  eapply Rle_trans; [apply Rabs_triang|]. pose proof u_pos.
  assert (u * Rabs (x - a) <= u * M) by (apply Rmult_le_compat_l; lra). lra.
Qed.
(** everything that is tiny is below u M M / n *)
Lemma tiny_bound : (6 * M + 6) * tiny <= / 2 * u * M * M / n.
Proof.
  pose proof M_ge as M1. destruct n_ge as [N1 N2]. pose proof tiny_pos. pose proof tiny_small as T. pose proof u_pos as U.
  assert (IN : u <= / n).
  { unfold half_ulp. apply Rinv_le; [lra|]. apply Rle_trans with (1 := N2). apply IZR_le. discriminate. }
  assert (U1 : u <= / 1024) by apply u_le.
  assert (A : (6 * M + 6) * tiny <= 12 * M * (u * u * u * u)) by nra.
  assert (B : 12 * M * (u * u * u * u) <= / 2 * u * M * M * u).
  { assert (24 * (u * u) <= M). { assert (u * u <= / 1024 * / 1024) by nra. lra. }
    replace (12 * M * (u * u * u * u)) with (/ 2 * (u * u) * M * (24 * (u * u))) by field.
    replace (/ 2 * u * M * M * u) with (/ 2 * (u * u) * M * M) by ring.
    apply Rmult_le_compat_l; [|assumption]. apply Rmult_le_pos; [|lra]. nra. }
  assert (C : / 2 * u * M * M * u <= / 2 * u * M * M * / n).
  { apply Rmult_le_compat_l; [|exact IN]. repeat apply Rmult_le_pos; lra. }
  unfold Rdiv. lra.
Qed.
Lemma term_ok x : 0 <= x <= M ->
  0 <= term_d x /\ Rabs (term_d x - (x - mu) * (x - mu) / n) <= 7 * u * (M * M) / n.
Proof.
  intros X. unfold term_d. cbv zeta. rewrite diff_abs.
  destruct (diff_bounds x X) as [D E]. set (d := rnd (Rabs (x - a))) in *.
  set (dl := Rabs (x - mu)) in *. unfold ddiv, dmul.
  pose proof M_ge as M1. destruct n_ge as [N1 N2]. pose proof u_pos as U. pose proof u_le as U1. pose proof tiny_pos as T0. pose proof tiny_bound as TB.
  assert (DL : 0 <= dl <= M). { unfold dl. split; [apply Rabs_pos|]. unfold Rabs. destruct (Rcase_abs _); lra. }
  set (i := / n). assert (I : 0 < i) by (apply Rinv_0_lt_compat; lra).
  assert (I1 : i <= 1) by (unfold i; rewrite <- Rinv_1; apply Rinv_le; lra).
  unfold Rdiv in *. fold i in TB. fold i.
  set (q := rnd (d * i)). assert (Q0 : 0 <= q) by (apply rnd_nonneg; nra).
  assert (QM : q <= M). { apply rnd_le_M. nra. }
  assert (QE := rnd_err (d * i)). fold q in QE. rewrite (Rabs_pos_eq (d * i)) in QE by nra.
  assert (TE := rnd_err (q * d)). set (t := rnd (q * d)) in *. rewrite (Rabs_pos_eq (q * d)) in TE by nra.
  split; [apply rnd_nonneg; nra|].
  assert (XX : (x - mu) * (x - mu) = dl * dl). { unfold dl, Rabs. destruct (Rcase_abs _); ring. }
  rewrite XX.
  (* q <= M i (1+u) + tiny *)
  assert (Qi : q <= M * i + u * (M * i) + tiny).
  { assert (q - d * i <= u * (d * i) + tiny) by (eapply Rle_trans; [apply Rle_abs|exact QE]).
    assert (d * i <= M * i) by (apply Rmult_le_compat_r; lra). nra. }
  assert (E1 : Rabs (q * d - d * i * d) <= u * (M * M * i) + tiny * M).
  { replace (q * d - d * i * d) with ((q - d * i) * d) by ring. rewrite Rabs_mult, (Rabs_pos_eq d) by lra.
    apply Rle_trans with ((u * (d * i) + tiny) * d); [apply Rmult_le_compat_r; lra|].
    assert (d * i * d <= M * M * i). { replace (d * i * d) with (d * d * i) by ring. apply Rmult_le_compat_r; nra. }
    assert (tiny * d <= tiny * M) by (apply Rmult_le_compat_l; lra).
    assert (u * (d * i * d) <= u * (M * M * i)) by (apply Rmult_le_compat_l; lra). nra. }
  assert (E2 : u * (q * d) <= u * (M * M * i) + u * u * (M * M * i) + u * tiny * M).
  { assert (q * d <= (M * i + u * (M * i) + tiny) * M) by (apply Rmult_le_compat; lra).
    apply Rle_trans with (u * ((M * i + u * (M * i) + tiny) * M)); [apply Rmult_le_compat_l; lra|]. apply Req_le. ring. }
  assert (E3 : Rabs (d * i * d - dl * dl * i) <= (2 * u * M + tiny) * (2 * M) * i).
  { replace (d * i * d - dl * dl * i) with ((d - dl) * (d + dl) * i) by ring.
    rewrite !Rabs_mult, (Rabs_pos_eq (d + dl)), (Rabs_pos_eq i) by lra.
    apply Rmult_le_compat_r; [lra|]. apply Rmult_le_compat; try lra; apply Rabs_pos. }
  replace (t - dl * dl * i) with ((t - q * d) + (q * d - d * i * d) + (d * i * d - dl * dl * i)) by ring.
  eapply Rle_trans; [apply Rabs_triang|]. eapply Rle_trans; [apply Rplus_le_compat_r, Rabs_triang|].
  set (w := M * M * i) in *.
  assert (W : 0 <= w) by (unfold w; repeat apply Rmult_le_pos; lra).
  assert (Y1 : (2 * u * M + tiny) * (2 * M) * i = 4 * u * w + 2 * M * (tiny * i)) by (unfold w; ring).
  assert (Y2 : tiny * i <= tiny) by nra.
  assert (Y3 : M * (tiny * i) <= M * tiny) by (apply Rmult_le_compat_l; lra).
  assert (Y4 : u * tiny * M <= tiny * M) by (rewrite Rmult_assoc; rewrite <- (Rmult_1_l (tiny * M)) at 2; apply Rmult_le_compat_r; [apply Rmult_le_pos; lra|lra]).
  assert (Y5 : u * u * w <= / 2 * u * w) by (apply Rmult_le_compat_r; [exact W|]; apply Rmult_le_compat_r; lra).
  assert (Y6 : / 2 * u * M * M * i = / 2 * u * w) by (unfold w; ring).
  replace (7 * u * (M * M) * i) with (7 * u * w) by (unfold w; ring). rewrite Y1 in E3. rewrite Y6 in TB. clear Y1 Y6 XX QE E Qi.
  clearbody w. clearbody t. clearbody q i. clearbody d dl.
  assert (Z1 : Rabs (t - q * d) <= u * w + / 2 * u * w + tiny * M + tiny) by lra.
  assert (Z2 : Rabs (d * i * d - dl * dl * i) <= 4 * u * w + 2 * (M * tiny)) by lra.
  assert (Z3 : 6 * (M * tiny) + 6 * tiny <= / 2 * u * w) by lra.
  assert (Z4 : 0 <= M * tiny) by (apply Rmult_le_pos; lra). lra.
Qed.

Definition cost : R := 7 * u * (M * M) / n + 3 * u * (M * M).
Lemma cost_small k : 0 <= k <= n -> k * cost + 7 * u * (M * M) / n <= M * M.
Proof.
  intros K. destruct n_ge as [N1 N2]. pose proof M_ge as M1. pose proof u_pos as U.
  assert (MM : 0 <= M * M) by nra. unfold cost, Rdiv. set (i := / n). assert (I : 0 < i) by (apply Rinv_0_lt_compat; lra).
  assert (I1 : i <= 1) by (unfold i; rewrite <- Rinv_1; apply Rinv_le; lra).
  assert (KI : k * i <= 1). { apply Rle_trans with (n * i); [apply Rmult_le_compat_r; lra|]. unfold i. rewrite Rinv_r by lra. lra. }
  assert (UN : 3 * (u * n) <= / 2).
  { assert (H : u * n <= u * IZR (2 ^ 50)) by (apply Rmult_le_compat_l; lra).
    assert (X := u_53). change (2 ^ 53)%Z with (8 * 2 ^ 50)%Z in X. rewrite mult_IZR in X. lra. }
  assert (U1 : 14 * u <= / 2) by (pose proof u_le; lra).
  assert (UK : u * k <= u * n) by (apply Rmult_le_compat_l; lra).
  replace (k * (7 * u * (M * M) * i + 3 * u * (M * M)) + 7 * u * (M * M) * i)
    with ((7 * u * (k * i) + 3 * (u * k) + 7 * u * i) * (M * M)) by ring.
  rewrite <- (Rmult_1_l (M * M)) at 2. apply Rmult_le_compat_r; [exact MM|].
  assert (7 * u * (k * i) <= 7 * u * 1) by (apply Rmult_le_compat_l; lra).
  assert (7 * u * i <= 7 * u * 1) by (apply Rmult_le_compat_l; lra). lra.
Qed.
Definition step_r (v : R) (x : bool * Z) : R := if fst x then dadd v (term_d (IZR (snd x))) else v.
Definition exact_terms (L : list (bool * Z)) : R :=
  sum_r (map (fun x => (IZR x - mu) * (IZR x - mu) / n) (map snd (filter fst L))).
Lemma terms_ok L : (forall x, In (true, x) L -> 0 <= IZR x <= M) -> forall k v e,
  0 <= v -> 0 <= k -> k + INR (length L) <= n -> 0 <= e <= k * (M * M / n) -> Rabs (v - e) <= k * cost ->
  0 <= fold_left step_r L v /\ Rabs (fold_left step_r L v - (e + exact_terms L)) <= (k + INR (length L)) * cost.
Proof.
  destruct n_ge as [N1 N2]. pose proof M_ge as M1. pose proof u_pos as U. pose proof tiny_pos as T0.
  assert (MM : 1 <= M * M) by nra. assert (I : 0 < / n) by (apply Rinv_0_lt_compat; lra).
  assert (CP : 0 <= cost). { unfold cost, Rdiv. apply Rplus_le_le_0_compat; repeat apply Rmult_le_pos; lra. }
  induction L as [|[r z] L IH]; intros HL k v e V K KN E B.
  - cbn [fold_left length INR]. unfold exact_terms. cbn [filter map sum_r fold_right]. rewrite !Rplus_0_r. split; assumption.
  - cbn [length] in *. rewrite S_INR in *. assert (HL' : forall x, In (true, x) L -> 0 <= IZR x <= M) by (intros; apply HL; right; assumption).
    cbn [fold_left]. unfold step_r at 2 4. cbn [fst snd]. unfold exact_terms. cbn [filter fst]. pose proof (pos_INR (length L)) as PL.
    replace (k + (INR (length L) + 1)) with (k + 1 + INR (length L)) in * by ring.
    destruct r.
    + cbn [map snd sum_r fold_right]. fold (exact_terms L).
      assert (X : 0 <= IZR z <= M) by (apply HL; left; reflexivity).
      destruct (term_ok (IZR z) X) as [TP TE]. set (t := term_d (IZR z)) in *.
      set (x2 := (IZR z - mu) * (IZR z - mu) / n) in *.
      assert (X2 : 0 <= x2 <= M * M / n).
      { unfold x2, Rdiv. split; [apply Rmult_le_pos; [apply Rle_0_sqr|lra]|]. apply Rmult_le_compat_r; [lra|].
        assert (DD : - M <= IZR z - mu <= M) by lra. set (y := IZR z - mu) in *. clearbody y. clear - DD M1. nra. }
      change (fold_right Rplus 0 (map (fun x => (IZR x - mu) * (IZR x - mu) / n) (map snd (filter fst L)))) with (exact_terms L).
      replace (e + (x2 + exact_terms L)) with ((e + x2) + exact_terms L) by ring.
      assert (CS := cost_small k ltac:(lra)).
      assert (EM : k * (M * M / n) + M * M / n <= M * M).
      { replace (k * (M * M / n) + M * M / n) with ((k + 1) * / n * (M * M)) by (unfold Rdiv; ring).
        rewrite <- (Rmult_1_l (M * M)) at 2. apply Rmult_le_compat_r; [lra|].
        apply Rle_trans with (n * / n); [apply Rmult_le_compat_r; lra|]. rewrite Rinv_r by lra. lra. }
      assert (A : Rabs (v + t - (e + x2)) <= k * cost + 7 * u * (M * M) / n).
      { replace (v + t - (e + x2)) with ((v - e) + (t - x2)) by ring. eapply Rle_trans; [apply Rabs_triang|]. lra. }
      assert (VT : v + t <= 2 * (M * M)).
      { assert (v + t - (e + x2) <= M * M) by (eapply Rle_trans; [apply Rle_abs|]; lra). lra. }
      assert (D := rnd_err (v + t)). fold (dadd v t) in D. rewrite (Rabs_pos_eq (v + t)) in D by lra.
      apply IH; try assumption; try lra.
      * apply rnd_nonneg. lra.
      * replace (dadd v t - (e + x2)) with ((dadd v t - (v + t)) + (v + t - (e + x2))) by ring.
        eapply Rle_trans; [apply Rabs_triang|].
        assert (TU : tiny <= u * (M * M)).
        { pose proof tiny_small. pose proof u_le as U1. assert (u * u <= / 1024 * / 1024) by nra. assert (u * u * u <= 1) by nra. nra. }
        assert (UV : u * (v + t) <= u * (2 * (M * M))) by (apply Rmult_le_compat_l; lra).
        replace ((k + 1) * cost) with (k * cost + (7 * u * (M * M) / n + 3 * u * (M * M))) by (unfold cost; ring). lra.
    + assert (MN : 0 <= M * M / n) by (apply Rmult_le_pos; lra). apply IH; try assumption; try lra. 
Qed.
End Terms.

Lemma sum_r_div l n : sum_r (map (fun x => x / n) l) = sum_r l / n.
Proof. induction l as [|x l IH]; cbn [map sum_r fold_right]; [unfold Rdiv; ring|]. unfold sum_r in IH. rewrite IH. unfold Rdiv. ring. Qed.

Section Chrono2.
Import BenchModel BenchSpec BenchProofs.
#[local] Open Scope Z_scope.
Variables (s : status) (log : list stamp) (b : bm).
Hypothesis R0 : rel (s, log) b.
Hypothesis H2 : (2 <= length log)%nat.
#[local] Notation ts := (running_times log).
#[local] Notation N := (length (intervals log)).
Hypothesis BN : Z.of_nat N <= 2 ^ 50.
Hypothesis HS : Z.abs (sum_z ts) <= 2 ^ 53.
Variable M : Z.
Hypothesis HM : 1 <= M <= 2 ^ 53.
Hypothesis HT : forall d, In d ts -> 0 <= d <= M.

Lemma NL : Z.of_nat (length log) <= 2 ^ 53.
Proof. clear - BN. rewrite intervals_length in BN. lia. Qed.
Lemma N1 : (1 <= N)%nat.
Proof. clear - H2. rewrite intervals_length. lia. Qed.
Lemma fold_step a L : (forall x, In (true, x) L -> 0 <= x <= M) -> forall v,
  fold_left (step_d a (of_int (Z.of_nat N))) L v = fold_left (step_r (INR N) a) L v.
Proof.
  pose proof N1 as N1'. induction L as [|[r z] L IH]; intros HL v; [reflexivity|]. cbn [fold_left].
  rewrite IH by (intros; apply HL; right; assumption). f_equal. unfold step_d, step_r, term_d. cbn [fst snd]. destruct r; [|reflexivity].
  assert (Z0 : 0 <= z <= M) by (apply HL; left; reflexivity).
  rewrite w64_small by (unfold M64; lia). rewrite (of_int_ok z) by lia. rewrite of_int_ok by lia. rewrite INR_IZR_INZ. reflexivity.
Qed.
Lemma variance_d_figures : exists a v, average_d b true = Ok a /\ variance_d b true = Ok v /\ is_double v /\ (0 <= v)%R /\
  (Rabs (v - spread ts N) <= (3 * INR N + 7) * half_ulp * (IZR M * IZR M))%R.
Proof.
  pose proof N1 as N1'. destruct (average_d_figures s log b R0 NL H2 HS) as [a [A [AR AE]]]. exists a.
  pose proof (variance_d_ok s log b R0 NL H2 a A) as VO. rewrite fold_step in VO.
  2: { intros x Hx. apply HT. apply in_running. exact Hx. }
  eexists. split; [exact A|]. split; [exact VO|].
  destruct (mean_between s log b R0 NL H2 0 M HT) as [MU1 MU2].
  assert (MI : exists z, IZR M = IZR z /\ 1 <= z <= 2 ^ 53) by (exists M; split; [reflexivity|exact HM]).
  assert (NI : exists z, INR N = IZR z /\ 1 <= z <= 2 ^ 50) by (exists (Z.of_nat N); split; [apply INR_IZR_INZ|lia]).
  assert (AM : (0 <= a <= IZR M)%R).
  { rewrite AR. split; [apply rnd_nonneg; exact MU1|apply rnd_le_int; [lia|exact MU2]]. }
  assert (AE' : (Rabs (a - mean_r ts) <= half_ulp * IZR M)%R).
  { eapply Rle_trans; [exact AE|]. apply Rmult_le_compat_l; [apply Rlt_le, u_pos|]. rewrite Rabs_pos_eq; assumption. }
  destruct (terms_ok (IZR M) (INR N) (mean_r ts) a MI NI (conj MU1 MU2) AM AE' (intervals log)) with (k := 0%R) (v := 0%R) (e := 0%R) as [T1 T2].
  - intros x Hx. apply in_running in Hx. destruct (HT x Hx). split; apply IZR_le; lia.
  - lra.
  - lra.
  - lra.
  - lra.
  - rewrite Rminus_0_r, Rabs_R0. lra.
  - split; [|split; [exact T1|]].
    + assert (G : forall L v, is_double v -> is_double (fold_left (step_r (INR N) a) L v)).
      { induction L as [|[r z] L IH]; intros v V; [exact V|]. cbn [fold_left]. apply IH. unfold step_r. destruct (fst (r, z)); [apply rnd_double|exact V]. }
      apply G. apply (int_double 0). discriminate.
    + rewrite !Rplus_0_l in T2.
      assert (EX : exact_terms (INR N) (mean_r ts) (intervals log) = spread ts N).
      { unfold exact_terms, spread. fold ts. rewrite <- sum_r_div. f_equal. symmetry. exact (map_map _ _ _). }
      rewrite EX in T2. eapply Rle_trans; [exact T2|]. apply Req_le. unfold cost. field.
      apply not_0_INR. lia.
Qed.
Lemma equal_times c : (forall d, In d ts -> d = c) -> average_d b true = Ok (IZR c) /\ variance_d b true = Ok 0%R /\ standardDeviation_d b true = Ok 0%R.
Proof.
  intros HC. pose proof N1 as N1'. destruct (average_d_figures s log b R0 NL H2 HS) as [a [A [AR _]]].
  destruct (mean_between s log b R0 NL H2 c c) as [C1 C2]; [intros d Hd; rewrite (HC d Hd); lia|].
  assert (CB : 0 <= c <= M).
  { destruct (ts_length s log b R0 NL H2) as [L _]. assert (X : exists y, In y ts).
    { destruct ts as [|y r]; [cbn in L; lia|]. exists y. left. reflexivity. }
    destruct X as [y Y]. rewrite <- (HC y Y). apply HT. exact Y. }
  assert (AC : a = IZR c).
  { rewrite AR. apply Rle_antisym; [apply rnd_le_int; [lia|exact C2]|apply rnd_ge_int; [lia|exact C1]]. }
  subst a. rewrite AC in A. split; [exact A|].
  assert (V : variance_d b true = Ok 0%R).
  { rewrite (variance_d_ok s log b R0 NL H2 _ A). f_equal. rewrite fold_step.
    2: { intros x Hx. apply HT. apply in_running. exact Hx. }
    assert (HX : forall x, In (true, x) (intervals log) -> x = c) by (intros x Hx; apply HC; apply in_running; exact Hx).
    assert (G : forall L', (forall x, In (true, x) L' -> x = c) -> fold_left (step_r (INR N) (IZR c)) L' 0%R = 0%R).
    { induction L' as [|[r z] L' IH]; intros HX'; [reflexivity|]. cbn [fold_left].
      assert (E : step_r (INR N) (IZR c) 0 (r, z) = 0%R).
      { unfold step_r. cbn [fst snd]. destruct r; [|reflexivity]. rewrite (HX' z) by (left; reflexivity).
        unfold term_d. cbv zeta. rewrite diff_abs. rewrite Rminus_diag_eq by reflexivity. rewrite Rabs_R0, rnd_0. unfold dmul, dadd.
        rewrite Rmult_0_r, rnd_0, Rplus_0_l. apply rnd_0. }
      rewrite E. apply IH. intros; apply HX'; right; assumption. }
    exact (G _ HX). }
  split; [exact V|]. unfold standardDeviation_d. rewrite (too_few_true s log b R0). destruct (Nat.ltb_spec (length log) 2); [lia|]. cbn [bind].
  rewrite V. cbn [bind]. unfold dsqrt. rewrite sqrt_0, rnd_0. reflexivity.
Qed.
End Chrono2.
