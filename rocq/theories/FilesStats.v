(** The figures of printStats. *)
From Coq Require Import QArith Qround Qabs Qfield Lia.
From Verif Require Import Base Spec Lib NtlMissProofs StrIntModel HashBucketsModel HashBucketsSpec HashBucketsProofs FilesModel FilesSpec.
Open Scope Z_scope.

Lemma sum_q_app a b : (sum_q (a ++ b) == sum_q a + sum_q b)%Q.
Proof. induction a as [|x a IH]; cbn [app sum_q]; [ring|rewrite IH; ring]. Qed.
Lemma sum_q_le {A} (f g : A -> Q) l : (forall x, In x l -> (f x <= g x)%Q) -> (sum_q (map f l) <= sum_q (map g l))%Q.
Proof.
  induction l as [|x l IH]; intros H; cbn [map sum_q]; [apply Qle_refl|].
  apply Qplus_le_compat; [apply H; left; reflexivity|apply IH; intros; apply H; right; assumption].
Qed.
Lemma sum_q_nonneg l : (forall x, In x l -> (0 <= x)%Q) -> (0 <= sum_q l)%Q.
Proof.
  induction l as [|x l IH]; intros H; cbn [sum_q]; [apply Qle_refl|].
  rewrite <- (Qplus_0_l 0). apply Qplus_le_compat; [apply H; left; reflexivity|apply IH; intros; apply H; right; assumption].
Qed.
Lemma sum_q_zero l : (forall x, In x l -> (0 <= x)%Q) -> ((sum_q l == 0)%Q <-> (forall x, In x l -> (x == 0)%Q)).
Proof.
  induction l as [|x l IH]; intros H; cbn [sum_q]; [split; [intros _ y []|reflexivity]|].
  assert (X : (0 <= x)%Q) by (apply H; left; reflexivity).
  assert (H' : forall y, In y l -> (0 <= y)%Q) by (intros; apply H; right; assumption).
  pose proof (sum_q_nonneg l H') as N. split.
  - intros E. assert (x == 0)%Q as E1.
    { apply Qle_antisym; [|exact X]. rewrite <- E. rewrite <- (Qplus_0_r x) at 1. apply Qplus_le_compat; [apply Qle_refl|exact N]. }
    assert (sum_q l == 0)%Q as E2.
    { rewrite E1 in E. rewrite Qplus_0_l in E. exact E. }
    intros y [Y|Y]; [subst; exact E1|apply IH; assumption].
  - intros E. rewrite (E x) by (left; reflexivity). rewrite (proj2 (IH H')); [ring|]. intros; apply E; right; assumption.
Qed.

Lemma inject_pos n : (0 < n)%nat -> (0 < inject_Z (Z.of_nat n))%Q.
Proof. intros H. unfold Qlt, inject_Z. cbn. lia. Qed.
Lemma inject_nz n : (0 < n)%nat -> ~ (inject_Z (Z.of_nat n) == 0)%Q.
Proof. intros H. unfold Qeq, inject_Z. cbn. lia. Qed.

Lemma div_le a b n : (0 < n)%nat -> (a <= b)%Q -> (a / inject_Z (Z.of_nat n) <= b / inject_Z (Z.of_nat n))%Q.
Proof. intros N H. unfold Qdiv. apply Qmult_le_compat_r; [exact H|]. apply Qinv_le_0_compat. apply Qlt_le_weak, inject_pos, N. Qed.

Lemma square_nonneg (d : Q) : (0 <= d * d)%Q.
Proof. unfold Qle, Qmult. cbn. nia. Qed.
Lemma square_le (a b : Q) : (0 <= a)%Q -> (a <= b)%Q -> (a * a <= b * b)%Q.
Proof.
  intros A B. apply Qle_trans with (a * b)%Q.
  - setoid_replace (a * b)%Q with (b * a)%Q by ring. apply Qmult_le_compat_r; assumption.
  - apply Qmult_le_compat_r; [exact B|apply Qle_trans with a; assumption].
Qed.
Lemma square_zero (d : Q) : (d * d == 0)%Q -> (d == 0)%Q.
Proof. intros E. destruct (Qmult_integral _ _ E); assumption. Qed.

Lemma dev_nonneg l d : In d (deviations l) -> (0 <= d)%Q.
Proof. unfold deviations. rewrite in_map_iff. intros [x [<- _]]. apply Qabs_nonneg. Qed.
Lemma floor_nonneg (d : Q) : (0 <= d)%Q -> 0 <= Qfloor d.
Proof. intros H. change 0 with (Qfloor (inject_Z 0)). apply Qfloor_resp_le. exact H. Qed.

Lemma rounded_le l : (0 < length l)%nat -> (rounded_variance l <= population_variance l)%Q.
Proof.
  intros N. unfold rounded_variance, population_variance, mean_of_squares. rewrite map_map, map_length.
  apply div_le; [unfold deviations; rewrite map_length; exact N|].
  apply sum_q_le. intros d D. apply dev_nonneg in D. apply square_le.
  - pose proof (floor_nonneg d D). unfold Qle, inject_Z; cbn; lia.
  - apply Qfloor_le.
Qed.
Lemma rounded_zero l : (0 < length l)%nat ->
  ((rounded_variance l == 0)%Q <-> forall d, In d (deviations l) -> (d < 1)%Q).
Proof.
  intros N. unfold rounded_variance, mean_of_squares. rewrite map_map, map_length.
  assert (NL : (0 < length (deviations l))%nat) by (unfold deviations; rewrite map_length; exact N).
  assert (Z0 : forall s, ((s / inject_Z (Z.of_nat (length (deviations l))) == 0)%Q <-> (s == 0)%Q)).
  { intros s. split; intros E.
    - setoid_replace s with ((s / inject_Z (Z.of_nat (length (deviations l)))) * inject_Z (Z.of_nat (length (deviations l))))%Q
        by (field; apply inject_nz; exact NL). rewrite E. ring.
    - rewrite E. field. apply inject_nz; exact NL. }
  rewrite Z0. rewrite sum_q_zero.
  - split.
    + intros H d D.
      assert (inject_Z (Qfloor d) * inject_Z (Qfloor d) == 0)%Q as E by (apply H; apply in_map_iff; eauto).
      apply square_zero in E. assert (Qfloor d = 0) as F by (unfold Qeq, inject_Z in E; cbn in E; lia).
      pose proof (Qlt_floor d) as L. rewrite F in L. exact L.
    + intros H x. rewrite in_map_iff. intros [d [<- D]].
      pose proof (H d D) as L. apply dev_nonneg in D.
      assert (Qfloor d = 0) as ->; [|reflexivity].
      pose proof (floor_nonneg d D). pose proof (Qfloor_le d) as L2.
      assert (inject_Z (Qfloor d) < inject_Z 1)%Q as L3 by (eapply Qle_lt_trans; [exact L2|exact L]).
      rewrite <- Zlt_Qlt in L3. lia.
  - intros x. rewrite in_map_iff. intros [d [<- _]]. apply square_nonneg.
Qed.

Section P.
Context {T : Type}.
Implicit Types h : hb T.

Lemma sum_sizes h : sum_z (sizes h) = Z.of_nat (total_items h).
Proof.
  unfold sizes, total_items, sum_z. induction (hb_buckets h) as [|b bs IH]; cbn [map fold_right]; [reflexivity|].
  rewrite IH. lia.
Qed.

Lemma size_var_ok h avg : (0 < hb_k h)%nat -> length (hb_buckets h) = hb_k h ->
  exists v, size_var h avg = Ok v /\
    (v == sum_q (map (fun d => d * d) (map (fun x => inject_Z (Qfloor (Qabs (inject_Z x - avg)))) (sizes h))) /
          inject_Z (Z.of_nat (hb_k h)))%Q.
Proof.
  intros K L. unfold size_var.
  set (sq := fun x => (inject_Z (Qfloor (Qabs (inject_Z x - avg))) * inject_Z (Qfloor (Qabs (inject_Z x - avg))))%Q).
  destruct (for_up_inv (fun i (v : Q) =>
      (v == sum_q (map sq (firstn i (sizes h))) / inject_Z (Z.of_nat (hb_k h)))%Q) (hb_k h) 0
      (fun i v =>
        do b <- aget (hb_buckets h) i;
        let s := inject_Z (Z.of_nat (length (mv_items b))) in
        let d := if Qle_bool avg s then Qfloor (s - avg) else Qfloor (avg - s) in
        Ok (v + inject_Z d * inject_Z d / inject_Z (Z.of_nat (hb_k h)))%Q) (0 # 1)%Q) as [v [E I]].
  - cbn [firstn map sum_q]. field. apply inject_nz, K.
  - intros i v Hi I. destruct (aget_lt (hb_buckets h) i ltac:(lia)) as [b [E1 E2]].
    rewrite E1. cbn [bind]. eexists. split; [reflexivity|].
    assert (N : nth_error (sizes h) i = Some (Z.of_nat (length (mv_items b)))).
    { unfold sizes. exact (map_nth_error _ _ _ E2). }
    apply nth_error_split in N. destruct N as [l1 [l2 [N1 N2]]].
    assert (F : firstn (S i) (sizes h) = firstn i (sizes h) ++ [Z.of_nat (length (mv_items b))]).
    { rewrite N1, <- N2. replace (firstn (length l1) _) with l1.
      - replace (S (length l1)) with (length l1 + 1)%nat by lia. rewrite firstn_app_2. reflexivity.
      - symmetry. rewrite <- (Nat.add_0_r (length l1)), firstn_app_2. cbn [firstn]. apply app_nil_r. }
    rewrite F, map_app, sum_q_app, I. cbn [map sum_q]. set (x := Z.of_nat (length (mv_items b))).
    assert (D : (if Qle_bool avg (inject_Z x) then Qfloor (inject_Z x - avg) else Qfloor (avg - inject_Z x))
                = Qfloor (Qabs (inject_Z x - avg))).
    { destruct (Qle_bool avg (inject_Z x)) eqn:Eq.
      - apply Qfloor_comp. symmetry. apply Qabs_pos. apply Qle_bool_iff in Eq.
        rewrite <- (Qplus_opp_r avg). apply Qplus_le_compat; [exact Eq|apply Qle_refl].
      - apply Qfloor_comp. rewrite Qabs_neg; [ring|].
        assert (~ (avg <= inject_Z x)%Q) as Nq by (intros C; apply Qle_bool_iff in C; congruence).
        apply Qnot_le_lt in Nq. apply Qlt_le_weak in Nq.
        rewrite <- (Qplus_opp_r avg). apply Qplus_le_compat; [exact Nq|apply Qle_refl]. }
    rewrite D. unfold sq. field. apply inject_nz, K.
  - exists v. split; [exact E|]. rewrite map_map.
    rewrite firstn_all2 in I by (unfold sizes; rewrite map_length; lia). exact I.
Qed.

Lemma shown_ok h full : length (hb_buckets h) = hb_k h ->
  shown h full = Ok (map (fun i => (i, length (mv_items (nth i (hb_buckets h) (mkMvec [] false)))))
                     (seq 0 (if full || Nat.ltb (hb_k h) 30 then hb_k h else 30%nat))).
Proof.
  intros L. unfold shown. apply mapM_ok. intros i Hi. apply in_seq in Hi.
  rewrite (aget_nth (mkMvec [] false)); [reflexivity|].
  destruct full; cbn [orb] in Hi; [lia|]. destruct (Nat.ltb_spec (hb_k h) 30); lia.
Qed.

Lemma printStats_l h full : reachable h -> (0 < hb_k h)%nat ->
  exists s v, print_stats h = Ok s /\
    printStats h full = Ok {| rp_int := s; rp_avg := mean (sizes h); rp_var := v;
       rp_shown := map (fun i => (i, length (mv_items (nth i (hb_buckets h) (mkMvec [] false)))))
                       (seq 0 (if full || Nat.ltb (hb_k h) 30 then hb_k h else 30%nat)) |} /\
    (v == rounded_variance (sizes h))%Q.
Proof.
  intros R K. destruct (print_stats_l h R K) as [s [E [Tt _]]].
  apply reachable_wf in R. destruct R as [WL _].
  assert (A : size_avg h (st_total s) = mean (sizes h)).
  { unfold size_avg, mean. rewrite sum_sizes, Tt. unfold sizes. rewrite map_length, WL. reflexivity. }
  destruct (size_var_ok h (mean (sizes h)) K WL) as [v [Ev V]].
  exists s, v. split; [exact E|]. unfold printStats. rewrite E. cbn [bind]. rewrite A, Ev. cbn [bind].
  rewrite shown_ok by exact WL. cbn [bind]. split; [reflexivity|].
  rewrite V. unfold rounded_variance, mean_of_squares, deviations. rewrite !map_length, !map_map.
  replace (length (sizes h)) with (hb_k h) by (unfold sizes; rewrite map_length; lia). reflexivity.
Qed.
End P.
