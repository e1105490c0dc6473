(** Properties C32-C38, C68: class SimpleBenchmark.  Throughout, a history has
    fewer than 2^63 calls (the recorded times live in a std::vector). *)
From Verif Require Import Base Spec Lib BenchModel BenchSpec BenchProofs.
From Coq Require Import QArith.
Open Scope Z_scope.

(** C32: after any history the model is at a state whose cumulativeBenchmark()
    is the sum of the running intervals of the specified chronometer. *)
Theorem C32_cumulative_is_running_time : forall l, Z.of_nat (length l) < 2 ^ 63 ->
  exists b, run new_bm l = Ok b /\
    cumulativeBenchmark b 0 true = Ok (sum_z (running_times (snd (c_run l)))).
Proof.
  intros l B. destruct (history_rel l B) as [b [E [R BL]]]. exists b. split; [exact E|].
  destruct (c_run l) as [s log]. exact (cumulative_ok s log b R BL).
Qed.
Print Assumptions C32_cumulative_is_running_time.

(** with a cursor k >= 1: the running intervals among the first k; and
    without pause correction: the time between the first and the last stamp *)
Theorem C32_cumulative_with_cursor : forall l k, Z.of_nat (length l) < 2 ^ 63 -> (1 <= k)%nat ->
  exists b, run new_bm l = Ok b /\ let log := snd (c_run l) in
    cumulativeBenchmark b k true =
      Ok (if Nat.ltb k (length log) then sum_z (map snd (filter fst (firstn k (intervals log)))) else 0) /\
    cumulativeBenchmark b 0 false =
      Ok (match log with [] => 0 | a :: _ => Z.quot (at_ (last log a) - at_ a) 1000 end).
Proof.
  intros l k B Hk. destruct (history_rel l B) as [b [E [R BL]]]. exists b. split; [exact E|].
  destruct (c_run l) as [s log]. cbn [snd] in *. split; [exact (cumulative_cursor_ok s log b k R BL Hk)|exact (cumulative_all_ok s log b R BL)].
Qed.
Print Assumptions C32_cumulative_with_cursor.

(** without pause correction, up to the cursor k *)
Theorem C32_elapsed_with_cursor : forall l k, Z.of_nat (length l) < 2 ^ 63 -> (1 <= k)%nat ->
  exists b, run new_bm l = Ok b /\ let log := snd (c_run l) in
    ((length log <= k)%nat -> cumulativeBenchmark b k false = Ok 0) /\
    (forall x y, nth_error log 0 = Some x -> nth_error log k = Some y ->
       cumulativeBenchmark b k false = Ok (Z.quot (at_ y - at_ x) 1000)).
Proof.
  intros l k B Hk. destruct (history_rel l B) as [b [E [R BL]]]. exists b. split; [exact E|].
  destruct (c_run l) as [s log]. cbn [snd] in *. cbv zeta. unfold cumulativeBenchmark. rewrite (rel_length s log b R).
  assert (T : times b = map at_ log) by apply R. split.
  - intros H. destruct (Nat.leb_spec (length log) k); [reflexivity|lia].
  - intros x y Hx Hy. assert (k < length log)%nat by (apply nth_error_Some; congruence).
    destruct (Nat.leb_spec (length log) k); [lia|]. destruct (Nat.ltb_spec k 1); [lia|].
    unfold aget. rewrite T, !nth_error_map, Hx, Hy. reflexivity.
Qed.
Print Assumptions C32_elapsed_with_cursor.

(** by name: the same with the number of the last stamp so labelled *)
Theorem C32_cumulative_named : forall l name i np, Z.of_nat (length l) < 2 ^ 63 -> name <> [] ->
  exists b, run new_bm l = Ok b /\
    (last_labelled (snd (c_run l)) name i -> cumulativeBenchmark_named b name np = cumulativeBenchmark b i np) /\
    ((forall j x, nth_error (snd (c_run l)) j = Some x -> label x <> name) ->
       cumulativeBenchmark_named b name np = cumulativeBenchmark b 0 np).
Proof.
  intros l name i np B Hn. destruct (history_rel l B) as [b [E [R BL]]]. exists b. split; [exact E|].
  destruct (c_run l) as [s log]. cbn [snd] in *. unfold cumulativeBenchmark_named, getNumericCursor.
  assert (C : cursors_ok log (cursors b)) by apply R. specialize (C name Hn).
  destruct (find (fun p => str_eq (fst p) name) (cursors b)) as [[nm k]|]; split.
  - cbn [snd] in *. intros [[s1 [L1 L2]] L3]. destruct C as [[s2 [C1 C2]] C3].
    assert (k = i) as -> by (apply Nat.le_antisymm; [exact (L3 k s2 C1 C2)|exact (C3 i s1 L1 L2)]). reflexivity.
  - cbn [snd] in *. intros N. destruct C as [[s2 [C1 C2]] _]. destruct (N k s2 C1 C2).
  - intros [[s1 [L1 L2]] _]. destruct (C i s1 L1 L2).
  - reflexivity.
Qed.
Print Assumptions C32_cumulative_named.

Example C32_nonvacuous :
  let l := [Start 0; Step 5000 [97]; Pause 7000 []; Cont 90000; Step 93000 [98]; Stop 95500 []] in
  intervals (snd (c_run l)) = [(true, 5); (true, 2); (false, 83); (true, 3); (true, 2)] /\
  (exists b, run new_bm l = Ok b /\ cumulativeBenchmark b 0 true = Ok 12).
Proof. cbv zeta. split; [reflexivity|]. eexists. split; reflexivity. Qed.

(** C33: a stop() that finds (or leaves) recorded times freezes the whole
    object against step, pause, cont and stop. *)
Theorem C33_stopped_is_frozen : forall l now name b b' l2, Z.of_nat (length l) < 2 ^ 63 ->
  run new_bm l = Ok b -> (exists o, In o l /\ (exists t, o = Start t)) \/ isStopped b = false ->
  stop b now name = Ok b' -> Forall quiet l2 -> run b' l2 = Ok b'.
Proof. exact frozen_after_stop_l. Qed.
Print Assumptions C33_stopped_is_frozen.

(** The exception: on a chronometer that was never started, stop() does not
    prevent step() from starting it. *)
Theorem C33_never_started_refuted : forall now name t cursor,
  stop new_bm now name = Ok new_bm /\ step new_bm t cursor = Ok (start t) /\ start t <> new_bm.
Proof. intros. repeat split; try reflexivity. discriminate. Qed.
Print Assumptions C33_never_started_refuted.

Example C33_nonvacuous :
  exists b b', run new_bm [Start 10; Pause 20 []] = Ok b /\ stop b 30 [1] = Ok b' /\ isStopped b' = true /\
    Forall quiet [Step 40 [2]; Cont 50; Pause 60 []; Stop 70 []].
Proof. do 2 eexists. repeat split; repeat constructor. Qed.

(** C34 *)
Theorem C34_min_max_average : forall l, Z.of_nat (length l) < 2 ^ 63 ->
  (2 <= length (snd (c_run l)))%nat ->
  exists b mn mx avg, run new_bm l = Ok b /\
    min b true = Ok mn /\ max b true = Ok mx /\ average b true = Ok avg /\
    In mn (running_times (snd (c_run l))) /\ In mx (running_times (snd (c_run l))) /\
    (forall d, In d (running_times (snd (c_run l))) -> mn <= d <= mx) /\
    (avg * inject_Z (Z.of_nat (length (running_times (snd (c_run l))))) == inject_Z (sum_z (running_times (snd (c_run l)))))%Q /\
    (inject_Z mn <= avg)%Q /\ (avg <= inject_Z mx)%Q.
Proof. exact min_max_average_l. Qed.
Print Assumptions C34_min_max_average.

Example C34_nonvacuous :
  let l := [Start 0; Step 5000 []; Pause 7000 []; Cont 90000; Stop 93000 []] in
  running_times (snd (c_run l)) = [5; 2; 3] /\ (2 <= length (snd (c_run l)))%nat.
Proof. cbv zeta. split; [reflexivity|]. cbn. lia. Qed.

(** C35: in every state at all, reachable or not *)
Theorem C35_stats_with_pauses_are_zero : forall b,
  min b false = Ok 0 /\ max b false = Ok 0 /\ average b false = Ok (0 # 1)%Q /\
  variance b false = Ok (0 # 1)%Q /\ standardDeviation_squared b false = Ok (0 # 1)%Q.
Proof.
  intros b. unfold min, max, average, variance, standardDeviation_squared. rewrite too_few_false. repeat split.
Qed.
Print Assumptions C35_stats_with_pauses_are_zero.

(** C36 *)
Theorem C36_benchmark_undefined_iff_one_time : forall b cursor, Z.of_nat (length (times b)) < 2 ^ 63 ->
  (benchmark b cursor = UB OutOfBounds <-> cursor = 0%nat /\ length (times b) = 1%nat) /\
  ((cursor = 0%nat /\ length (times b) = 1%nat) \/ exists d, benchmark b cursor = Ok d).
Proof. exact benchmark_ub. Qed.
Print Assumptions C36_benchmark_undefined_iff_one_time.

(** in particular right after start(), for the default argument and for every name *)
Theorem C36_after_start : forall l t name, Z.of_nat (length l) < 2 ^ 63 ->
  exists b, run new_bm (l ++ [Start t]) = Ok b /\ benchmark b 0 = UB OutOfBounds /\ benchmark_named b name = UB OutOfBounds.
Proof. exact after_start_l. Qed.
Print Assumptions C36_after_start.

(** C37: the cursor [name] (not empty) was last put on stamp i+1 *)
Theorem C37_named_cursor : forall l name i x y, Z.of_nat (length l) < 2 ^ 63 -> name <> [] ->
  last_labelled (snd (c_run l)) name (S i) ->
  nth_error (snd (c_run l)) i = Some x -> nth_error (snd (c_run l)) (S i) = Some y ->
  exists b, run new_bm l = Ok b /\ benchmark_named b name = Ok (Z.quot (at_ y - at_ x) 1000).
Proof.
  intros l name i x y B Hn HL Hx Hy. destruct (history_rel l B) as [b [E [R BL]]]. exists b. split; [exact E|].
  destruct (c_run l) as [s log]. cbn [snd] in *. exact (named_ok s log b name i R BL Hn HL x y Hx Hy).
Qed.
Print Assumptions C37_named_cursor.

(** a name that labels nothing (or only the very first stamp, possible by
    stop(name) after reset()) behaves as benchmark() *)
Theorem C37_unknown_cursor : forall l name, Z.of_nat (length l) < 2 ^ 63 -> name <> [] ->
  (forall j x, nth_error (snd (c_run l)) j = Some x -> label x = name -> j = 0%nat) ->
  exists b, run new_bm l = Ok b /\ benchmark_named b name = benchmark b 0.
Proof.
  intros l name B Hn H. destruct (history_rel l B) as [b [E [R BL]]]. exists b. split; [exact E|].
  destruct (c_run l) as [s log]. cbn [snd] in *. exact (unnamed_ok s log b name R H Hn).
Qed.
Print Assumptions C37_unknown_cursor.

(** the number itself as a cursor; 0 means the last interval, a cursor past the
    last stamp gives 0 *)
Theorem C37_numeric_cursor : forall l k, Z.of_nat (length l) < 2 ^ 63 ->
  exists b, run new_bm l = Ok b /\ let log := snd (c_run l) in
    ((length log <= k)%nat -> benchmark b k = Ok 0) /\
    ((1 <= k)%nat -> forall x y, nth_error log (k - 1) = Some x -> nth_error log k = Some y ->
       benchmark b k = Ok (Z.quot (at_ y - at_ x) 1000)) /\
    (forall log0 x y, log = log0 ++ [x; y] -> benchmark b 0 = Ok (Z.quot (at_ y - at_ x) 1000)).
Proof.
  intros l k B. destruct (history_rel l B) as [b [E [R BL]]]. exists b. split; [exact E|].
  destruct (c_run l) as [s log]. cbn [snd] in *. cbv zeta. unfold benchmark. rewrite (rel_length s log b R).
  assert (T : times b = map at_ log) by apply R. split; [|split].
  - intros H. destruct (Nat.leb_spec (length log) k); [reflexivity|lia].
  - intros K x y Hx Hy. destruct k as [|k]; [lia|]. replace (S k - 1)%nat with k in Hx by lia.
    assert (S k < length log)%nat by (apply nth_error_Some; congruence).
    destruct (Nat.leb_spec (length log) (S k)); [lia|]. cbn [Nat.ltb Nat.leb].
    destruct (interval_ok s log b k (ran y) (Z.quot (at_ y - at_ x) 1000) R BL) as [I _]; [apply intervals_nth; assumption|]. exact I.
  - intros log0 x y EL. assert (LL : length log = (length log0 + 2)%nat) by (rewrite EL, app_length; reflexivity).
    destruct (Nat.leb_spec (length log) 0); [lia|]. cbn [Nat.ltb Nat.leb]. rewrite LL in *.
    rewrite !w64_small by (unfold M64; lia).
    replace (Z.of_nat (length log0 + 2) - 1) with (Z.of_nat (length log0 + 1)) by lia.
    replace (Z.of_nat (length log0 + 2) - 2) with (Z.of_nat (length log0)) by lia.
    unfold zget. destruct (Z.ltb_spec (Z.of_nat (length log0 + 1)) 0); [lia|]. destruct (Z.ltb_spec (Z.of_nat (length log0)) 0); [lia|].
    rewrite !Nat2Z.id. unfold aget. rewrite T, !nth_error_map, EL.
    rewrite !nth_error_app2 by lia. rewrite Nat.sub_diag. replace (length log0 + 1 - length log0)%nat with 1%nat by lia. reflexivity.
Qed.
Print Assumptions C37_numeric_cursor.

Example C37_nonvacuous :
  let l := [Start 0; Step 5000 [97]; Step 9000 [97]; Step 10000 [98]] in
  last_labelled (snd (c_run l)) [97] 2 /\ exists b, run new_bm l = Ok b /\ benchmark_named b [97] = Ok 4.
Proof.
  cbv zeta. split; [|eexists; split; reflexivity]. split; [eexists; split; reflexivity|].
  intros j s H. destruct j as [|[|[|[|j]]]]; cbn in H; try lia; [injection H as <-; discriminate|destruct j; discriminate].
Qed.

(** C38 *)
Theorem C38_reset_is_not_initial : forall l t name, Z.of_nat (length l) < 2 ^ 63 ->
  exists b b', run new_bm (l ++ [Reset]) = Ok b /\ isStopped b = false /\ isStopped new_bm = true /\
    stop b t name = Ok b' /\ times b' = [t] /\ stop new_bm t name = Ok new_bm.
Proof. exact reset_l. Qed.
Print Assumptions C38_reset_is_not_initial.

(** C68: variance() divides by the number of all intervals, the paused ones
    included, although only running ones contribute. *)
Theorem C68_variance_denominator : forall l, Z.of_nat (length l) < 2 ^ 63 ->
  (2 <= length (snd (c_run l)))%nat ->
  (forall x, In x (running_times (snd (c_run l))) -> 0 <= x < 2 ^ 64) ->
  let rt := running_times (snd (c_run l)) in
  let avg := (inject_Z (sum_z rt) / inject_Z (Z.of_nat (length rt)))%Q in
  exists b v, run new_bm l = Ok b /\ variance b true = Ok v /\
    (v == sum_q (map (fun x => (inject_Z x - avg) * (inject_Z x - avg)) rt) / inject_Z (Z.of_nat (length (intervals (snd (c_run l))))))%Q.
Proof.
  intros l B H2 HX rt avg. destruct (history_rel l B) as [b [E [R BL]]]. exists b.
  unfold rt, avg in *. destruct (c_run l) as [s log]. cbn [snd] in *.
  destruct (variance_ok s log b R BL H2 HX) as [v [V1 V2]]. exists v. split; [exact E|]. split; [exact V1|exact V2].
Qed.
Print Assumptions C68_variance_denominator.

Example C68_nonvacuous :
  let l := [Start 0; Step 4000 []; Pause 6000 []; Cont 90000] in
  running_times (snd (c_run l)) = [4; 2] /\ length (intervals (snd (c_run l))) = 3%nat /\
  exists b v, run new_bm l = Ok b /\ variance b true = Ok v /\ (v == 2 # 3)%Q.
Proof. cbv zeta. repeat split. do 2 eexists. repeat split. Qed.
