(** Properties C113-C115: the figures that are printed, computed in IEEE
    doubles with every operation rounded.  C34, C68 and C92 say what they are
    in exact arithmetic. *)
From Coq Require Import Reals Lra Lia.
From Verif Require Import Base Spec Lib HashBucketsModel HashBucketsSpec HashBucketsProofs FilesSpec FilesStats
  DoubleModel DoubleSpec DoubleProofs DoubleSizes PropHash.
From Verif Require BenchModel BenchSpec BenchProofs.
Import BenchModel BenchSpec.
Open Scope Z_scope.

(** C113: the average of a chronometer *)
Theorem C113_average_is_nearest : forall l, Z.of_nat (length l) < 2 ^ 53 -> (2 <= length (snd (c_run l)))%nat ->
  let ts := running_times (snd (c_run l)) in Z.abs (sum_z ts) <= 2 ^ 53 ->
  exists b a mn mx, run new_bm l = Ok b /\ average_d b true = Ok a /\ min b true = Ok mn /\ max b true = Ok mx /\
    nearest_double (mean_r ts) a /\ (Rabs (a - mean_r ts) <= half_ulp * Rabs (mean_r ts))%R /\
    (Z.abs mn <= 2 ^ 53 -> (IZR mn <= a)%R) /\ (Z.abs mx <= 2 ^ 53 -> (a <= IZR mx)%R).
Proof.
  intros l BL H2 ts HS. destruct (BenchProofs.min_max_average_l l ltac:(lia) H2) as [b [mn [mx [_ [E [Emn [Emx [_ [_ [_ [F _]]]]]]]]]]].
  destruct (BenchProofs.history_rel l ltac:(lia)) as [b' [E' [R _]]]. rewrite E in E'. apply Ok_inj in E'. subst b'.
  pose proof (BenchProofs.fold_length l fresh) as FL. change (fold_left c_exec l fresh) with (c_run l) in FL. cbn [fresh snd length] in FL.
  unfold ts in *. clear ts. destruct (c_run l) as [s log]. cbn [snd] in *.
  destruct (average_d_figures s log b R ltac:(lia) H2 HS) as [a [A [AR AE]]].
  pose proof (mean_between s log b R ltac:(lia) H2 mn mx F) as [M1 M2].
  exists b, a, mn, mx. split; [exact E|]. split; [exact A|]. split; [exact Emn|]. split; [exact Emx|].
  split; [rewrite AR; apply rnd_nearest|]. split; [exact AE|].
  split; intros X; rewrite AR; [apply rnd_ge_int|apply rnd_le_int]; assumption.
Qed.
Print Assumptions C113_average_is_nearest.
Theorem C113_equal_times : forall l c, Z.of_nat (length l) <= 2 ^ 50 -> (2 <= length (snd (c_run l)))%nat ->
  let ts := running_times (snd (c_run l)) in sum_z ts <= 2 ^ 53 -> 0 <= c <= 2 ^ 53 -> (forall d, In d ts -> d = c) ->
  exists b, run new_bm l = Ok b /\ average_d b true = Ok (IZR c) /\ variance_d b true = Ok 0%R /\ standardDeviation_d b true = Ok 0%R.
Proof.
  intros l c BL H2 ts HS HC HT. destruct (BenchProofs.history_rel l ltac:(lia)) as [b [E [R _]]]. exists b. split; [exact E|].
  pose proof (BenchProofs.fold_length l fresh) as FL. change (fold_left c_exec l fresh) with (c_run l) in FL. cbn [fresh snd length] in FL.
  unfold ts in *. clear ts. destruct (c_run l) as [s log]. cbn [snd] in *.
  assert (S0 : 0 <= sum_z (running_times log)).
  { assert (G : forall d, In d (running_times log) -> 0 <= d) by (intros d Hd; rewrite (HT d Hd); lia).
    clear - G. unfold sum_z. induction (running_times log) as [|x r IH]; cbn [fold_right]; [lia|].
    pose proof (G x (or_introl eq_refl)). specialize (IH (fun d Hd => G d (or_intror Hd))). lia. }
  apply (equal_times s log b R H2) with (M := 2 ^ 53).
  - rewrite BenchProofs.intervals_length. lia.
  - lia.
  - lia.
  - intros d Hd. rewrite (HT d Hd). exact HC.
  - exact HT.
Qed.
Print Assumptions C113_equal_times.

(** C114: the variance; the code divides by the number of all the intervals (C68) *)
Theorem C114_variance_error : forall l M, Z.of_nat (length l) <= 2 ^ 50 -> (2 <= length (snd (c_run l)))%nat ->
  let ts := running_times (snd (c_run l)) in let n := length (intervals (snd (c_run l))) in
  sum_z ts <= 2 ^ 53 -> 1 <= M <= 2 ^ 53 -> (forall d, In d ts -> 0 <= d <= M) ->
  exists b v sd, run new_bm l = Ok b /\ variance_d b true = Ok v /\ standardDeviation_d b true = Ok sd /\
    is_double v /\ (0 <= v)%R /\
    (Rabs (v - spread ts n) <= (3 * INR n + 7) * half_ulp * (IZR M * IZR M))%R /\
    nearest_double (sqrt v) sd /\ (0 <= sd)%R.
Proof.
  intros l M BL H2 ts n HS HM HT. destruct (BenchProofs.history_rel l ltac:(lia)) as [b [E [R _]]]. exists b.
  pose proof (BenchProofs.fold_length l fresh) as FL. change (fold_left c_exec l fresh) with (c_run l) in FL. cbn [fresh snd length] in FL.
  unfold ts, n in *. clear ts n. destruct (c_run l) as [s log]. cbn [snd] in *.
  assert (S0 : 0 <= sum_z (running_times log)).
  { assert (G : forall d, In d (running_times log) -> 0 <= d) by (intros d Hd; destruct (HT d Hd); lia).
    clear - G. unfold sum_z. induction (running_times log) as [|x r IH]; cbn [fold_right]; [lia|].
    pose proof (G x (or_introl eq_refl)). specialize (IH (fun d Hd => G d (or_intror Hd))). lia. }
  destruct (variance_d_figures s log b R H2) with (M := M) as [a [v [A [V [D [P B]]]]]]; try assumption.
  { rewrite BenchProofs.intervals_length. lia. }
  { lia. }
  exists v, (dsqrt v). split; [exact E|]. split; [exact V|].
  split; [|split; [exact D|split; [exact P|split; [exact B|split; [apply rnd_nearest|apply rnd_nonneg, sqrt_pos]]]]].
  unfold standardDeviation_d. rewrite (BenchProofs.too_few_true s log b R). destruct (Nat.ltb_spec (length log) 2); [lia|]. cbn [bind]. rewrite V. reflexivity.
Qed.
Print Assumptions C114_variance_error.

(** three stretches of 10, 20 and 40 microseconds with a pause of 1000 between *)
Definition ex_hist : list op := [Start 0; Step 10000 []; Step 30000 []; Pause 70000 []; Cont 1070000].
Example C113_C114_nonvacuous :
  Z.of_nat (length ex_hist) <= 2 ^ 50 /\ (2 <= length (snd (c_run ex_hist)))%nat /\
  running_times (snd (c_run ex_hist)) = [10; 20; 40] /\ length (intervals (snd (c_run ex_hist))) = 4%nat /\
  sum_z (running_times (snd (c_run ex_hist))) <= 2 ^ 53 /\ (forall d, In d (running_times (snd (c_run ex_hist))) -> 0 <= d <= 40) /\
  (mean_r (running_times (snd (c_run ex_hist))) = 70 / 3)%R /\
  (spread (running_times (snd (c_run ex_hist))) 4 = 350 / 3)%R.
Proof.
  assert (E : running_times (snd (c_run ex_hist)) = [10; 20; 40]) by reflexivity. rewrite E.
  split; [discriminate|]. split; [apply Nat.leb_le; reflexivity|]. split; [reflexivity|]. split; [reflexivity|]. split; [discriminate|].
  split; [intros d [<- |[<- |[<- |[]]]]; lia|].
  assert (M : (mean_r [10; 20; 40]%Z = 70 / 3)%R) by (unfold mean_r, sum_z; cbn [fold_right length INR]; change (10 + (20 + (40 + 0))) with 70; field).
  split; [exact M|]. unfold spread. rewrite M. unfold sum_r. cbn [map fold_right INR]. field.
Qed.
Definition ex_equal : list op := [Start 0; Step 10000 []; Step 20000 []; Pause 30000 []; Cont 1070000].
Example C113_equal_nonvacuous : running_times (snd (c_run ex_equal)) = [10; 10; 10] /\ (2 <= length (snd (c_run ex_equal)))%nat.
Proof. split; [reflexivity|apply Nat.leb_le; reflexivity]. Qed.

Lemma zero_devs m l ds : Forall2 (fun x d => IZR d <= Rabs (IZR x - m) < IZR d + 1)%R l ds ->
  (forall d, In d ds -> d = 0) <-> (forall x, In x l -> (Rabs (IZR x - m) < 1)%R).
Proof.
  induction 1 as [|x d l ds H D IH]; [split; intros _ ? []|].
  assert (X : d = 0 <-> (Rabs (IZR x - m) < 1)%R).
  { split; [intros ->; lra|]. intros L. pose proof (Rabs_pos (IZR x - m)) as P.
    assert (d < 1) by (apply lt_IZR; lra). assert (-1 < d) by (apply lt_IZR; lra). lia. }
  split; intros F y [<- |Hy].
  - apply X, F. left. reflexivity.
  - apply (proj1 IH); [intros; apply F; right; assumption|exact Hy].
  - apply X, F. left. reflexivity.
  - apply (proj2 IH); [intros; apply F; right; assumption|exact Hy].
Qed.

(** C115: the figures of the bucket sizes *)
Theorem C115_bucket_figures : forall (T : Type) (h : hb T), reachable h -> (0 < hb_k h)%nat -> Z.of_nat (hb_k h) <= 2 ^ 53 ->
  Z.of_nat (total_items h) * Z.of_nat (hb_k h) <= 2 ^ 52 ->
  exists f, size_figures_d h = Ok f /\
    nearest_double (mean_r (sizes h)) (sf_avg f) /\
    Forall2 (int_deviation (sizes h)) (sizes h) (sf_devs f) /\
    is_double (sf_var f) /\
    ((1 - half_ulp) ^ (hb_k h + 2) * mean_square (sf_devs f) <= sf_var f <= (1 + half_ulp) ^ (hb_k h + 2) * mean_square (sf_devs f))%R /\
    (sf_var f = 0%R <-> forall s, In s (sizes h) -> (Rabs (IZR s - mean_r (sizes h)) < 1)%R) /\
    nearest_double (sqrt (sf_var f)) (sf_sd f).
Proof.
  intros T h R K KB TK. rewrite <- sum_sizes in TK.
  destruct (size_figures_ok h R K KB TK) as [f [E [A [D [V1 [V2 [V3 [SD _]]]]]]]].
  exists f. split; [exact E|]. split; [rewrite A; apply rnd_nearest|]. split; [exact D|]. split; [exact V2|]. split; [exact V3|].
  split; [|rewrite SD; apply rnd_nearest].
  assert (LN : length (sf_devs f) = hb_k h).
  { rewrite <- (sizes_k h R). clear - D. induction D; cbn [length]; congruence. }
  assert (KP : (0 < INR (hb_k h))%R) by (apply lt_0_INR; exact K).
  assert (SQ : (sf_var f = 0%R <-> mean_square (sf_devs f) = 0%R)).
  { pose proof (pow_up (hb_k h + 2)) as [P1 _].
    assert (PL : (0 < (1 - half_ulp) ^ (hb_k h + 2))%R) by (apply pow_lt; pose proof u_le; lra).
    split; intros Z0; rewrite Z0 in V3.
    - destruct V3 as [W1 W2]. apply Rle_antisym.
      + apply Rmult_le_reg_l with (1 := PL). lra.
      + apply Rmult_le_reg_l with ((1 + half_ulp) ^ (hb_k h + 2))%R; lra.
    - lra. }
  rewrite SQ. unfold mean_square. rewrite LN.
  assert (NN : forall l : list Z, (0 <= sum_r (map (fun d => IZR d * IZR d) l))%R).
  { induction l as [|x l IH]; cbn [map sum_r fold_right]; [lra|]. unfold sum_r in IH. pose proof (Rle_0_sqr (IZR x)) as Q. unfold Rsqr in Q. lra. }
  assert (ZZ : forall l : list Z, sum_r (map (fun d => IZR d * IZR d) l)%R = 0%R <-> forall d, In d l -> d = 0).
  { induction l as [|x l IH]; cbn [map sum_r fold_right]; [split; [intros _ d []|reflexivity]|].
    specialize (NN l). unfold sum_r in *. pose proof (Rle_0_sqr (IZR x)) as Q. unfold Rsqr in Q. split.
    - intros Z0 d [<- |Hd].
      + assert (Y : (IZR x * IZR x = 0)%R) by lra. apply Rmult_integral in Y. apply eq_IZR. destruct Y; assumption.
      + apply IH; [lra|exact Hd].
    - intros Z0. rewrite (Z0 x (or_introl eq_refl)), (proj2 IH); [ring|]. intros d Hd. apply Z0. right. exact Hd. }
  transitivity (forall d, In d (sf_devs f) -> d = 0).
  { rewrite <- ZZ. unfold Rdiv. split; intros Z0; [|rewrite Z0; ring].
    apply Rmult_integral in Z0. destruct Z0 as [Z0|Z0]; [exact Z0|]. exfalso. pose proof (Rinv_0_lt_compat _ KP). lra. }
  exact (zero_devs _ _ _ D).
Qed.
Print Assumptions C115_bucket_figures.

Theorem C115_fill_percentage : forall (T : Type) (h : hb T), reachable h -> (0 < hb_k h)%nat -> (0 < hb_maxload h)%nat ->
  let room := Z.of_nat (hb_k h) * Z.of_nat (hb_maxload h) in let total := Z.of_nat (total_items h) in
  room <= 2 ^ 45 -> total <= room -> total * Z.of_nat (hb_k h) <= 2 ^ 52 ->
  exists f, size_figures_d h = Ok f /\ is_double (sf_percent f) /\ (0 <= sf_percent f <= 100)%R /\
    (sf_percent f = 100%R <-> total = room) /\ (sf_percent f = 0%R <-> total = 0) /\
    (Rabs (sf_percent f - 100 * IZR total / IZR room) <= 3 * half_ulp * (100 * IZR total / IZR room))%R.
Proof.
  intros T h R K L room total HR HT TK. unfold room, total in *. clear room total. rewrite <- sum_sizes in *.
  destruct (size_figures_ok h R K ltac:(nia) TK) as [f [E [_ [_ [_ [_ [_ [_ P]]]]]]]]. exists f. split; [exact E|]. rewrite P.
  apply percent_ok; try lia. split; [rewrite sum_sizes; lia|exact HT].
Qed.
Print Assumptions C115_fill_percentage.

(** sizes 3 1 1 0 in 4 buckets of 5: mean 5/4, deviations 1 0 0 1, 25% *)
Example C115_nonvacuous : exists h : hb Z, reachable h /\ (0 < hb_k h)%nat /\ (0 < hb_maxload h)%nat /\
  Z.of_nat (total_items h) * Z.of_nat (hb_k h) <= 2 ^ 52 /\ Z.of_nat (total_items h) <= Z.of_nat (hb_k h) * Z.of_nat (hb_maxload h) /\
  sizes h = [3; 1; 1; 0] /\ (mean_r (sizes h) = 5 / 4)%R /\ Forall2 (int_deviation (sizes h)) (sizes h) [1; 0; 0; 1].
Proof.
  pose (h0 := match new_hb 4 5 (Some demo_algo) with Ok h => h | _ => mkHb 0 0 0 [] None None end).
  pose (h := match hb_add_list h0 [4; 8; 1; 12; 2] 5 with Ok h => h | _ => h0 end).
  exists h. split.
  { exists unit, (fun g => (0, g)), 4%nat, 5%nat, (Some demo_algo), h0, tt, tt, [TAddList [4; 8; 1; 12; 2] 5].
    split; [exact demo_algo_valid|]. split; [reflexivity|]. split; [constructor; [cbn; lia|constructor]|reflexivity]. }
  split; [apply Nat.ltb_lt; reflexivity|]. split; [apply Nat.ltb_lt; reflexivity|]. split; [discriminate|]. split; [discriminate|].
  assert (E : sizes h = [3; 1; 1; 0]) by reflexivity. split; [exact E|]. rewrite E.
  assert (M : (mean_r [3; 1; 1; 0]%Z = 5 / 4)%R) by (unfold mean_r, sum_z; cbn [fold_right length INR]; change (3 + (1 + (1 + (0 + 0)))) with 5; field).
  split; [exact M|]. unfold int_deviation. rewrite M. repeat constructor; unfold Rabs; destruct (Rcase_abs _); lra.
Qed.
