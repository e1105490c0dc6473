(** Refinement of the chronometer model to the specification. *)
From Verif Require Import Base Spec Lib BenchModel BenchSpec.
From Coq Require Import Lia QArith.
Open Scope Z_scope.

Lemma str_eq_spec a b : reflect (a = b) (str_eq a b).
Proof. unfold str_eq. destruct (list_eq_dec Z.eq_dec a b); constructor; assumption. Qed.

(** pause flags of the stamps: flag i says whether the interval ending at stamp i was paused *)
Definition flags (log : list stamp) : list bool :=
  match log with [] => [] | _ :: rest => false :: map (fun s => negb (ran s)) rest end.
Definition is_paused (s : status) : bool := match s with Paused => true | _ => false end.
Definition is_stopped (s : status) : bool := match s with Stopped => true | _ => false end.
Definition cursors_ok (log : list stamp) (cs : list (str * nat)) : Prop :=
  forall name, name <> [] ->
    match find (fun p => str_eq (fst p) name) cs with
    | Some p => last_labelled log name (snd p)
    | None => forall j s, nth_error log j = Some s -> label s <> name
    end.
Definition first_ran (s : status) (log : list stamp) : Prop :=
  match log with
  | _ :: b :: _ => ran b = true
  | _ => s <> Paused
  end.
Definition rel (c : chrono) (b : bm) : Prop :=
  let '(s, log) := c in
  times b = map at_ log /\ stopped b = is_stopped s /\
  (exists f, pauses b = flags log ++ [f] /\ (s <> Stopped -> f = is_paused s) /\ (log = [] -> f = false)) /\
  cursors_ok log (cursors b) /\ first_ran s log.

Lemma flags_length log : length (flags log) = length log.
Proof. destruct log; cbn [flags length]; [reflexivity|]. rewrite map_length. reflexivity. Qed.
Lemma flags_snoc log x : log <> [] -> flags (log ++ [x]) = flags log ++ [negb (ran x)].
Proof. destruct log as [|a log]; [congruence|]. intros _. cbn [flags app]. rewrite map_app. reflexivity. Qed.

Lemma cursors_snoc log cs t name r : cursors_ok log cs ->
  cursors_ok (log ++ [{| at_ := t; label := name; ran := r |}])
    (if str_eq name [] then cs else (name, length log) :: cs).
Proof.
  intros H nm Hn. specialize (H nm Hn). set (x := {| at_ := t; label := name; ran := r |}).
  assert (A : forall j s, nth_error (log ++ [x]) j = Some s -> (j < length log /\ nth_error log j = Some s)%nat \/ (j = length log /\ s = x)).
  { intros j s Hj. destruct (Nat.lt_ge_cases j (length log)).
    - rewrite nth_error_app1 in Hj by assumption. auto.
    - rewrite nth_error_app2 in Hj by assumption. destruct (j - length log)%nat eqn:E; [|destruct n; discriminate].
      cbn [nth_error] in Hj. injection Hj as <-. right. split; [lia|reflexivity]. }
  assert (OLD : name <> nm -> match find (fun p => str_eq (fst p) nm) cs with
    | Some p => last_labelled (log ++ [x]) nm (snd p)
    | None => forall j s, nth_error (log ++ [x]) j = Some s -> label s <> nm end).
  { intros Hd. destruct (find _ cs) as [p|].
    - destruct H as [[s [H1 H2]] H3]. split.
      + exists s. split; [|exact H2]. rewrite nth_error_app1; [exact H1|]. apply nth_error_Some. congruence.
      + intros j s' Hj Hl. apply A in Hj. destruct Hj as [[_ Hj]|[_ ->]]; [eapply H3; eauto|]. cbn [label x] in Hl. congruence.
    - intros j s' Hj Hl. apply A in Hj. destruct Hj as [[_ Hj]|[_ ->]]; [eapply H; eauto|]. cbn [label x] in Hl. congruence. }
  destruct (str_eq_spec name []) as [->|Hne].
  - apply OLD. congruence.
  - cbn [find fst]. destruct (str_eq_spec name nm) as [->|Hd].
    + split.
      * exists x. split; [|reflexivity]. cbn [snd]. rewrite nth_error_app2, Nat.sub_diag by lia. reflexivity.
      * intros j s' Hj _. cbn [snd]. apply A in Hj. destruct Hj as [[? _]|[-> _]]; lia.
    + apply OLD. exact Hd.
Qed.

Lemma rel_new : rel fresh new_bm.
Proof.
  repeat split; cbn.
  - exists false. repeat split; congruence.
  - intros name _ j s H. destruct j; discriminate.
  - congruence.
Qed.

Lemma rel_reset : rel (Running, []) reset.
Proof.
  repeat split; cbn.
  - exists false. repeat split; congruence.
  - intros name _ j s H. destruct j; discriminate.
  - congruence.
Qed.

(** appending a stamp *)
Lemma rel_take s log b t name pausing :
  rel (s, log) b -> (s <> Stopped) -> (log = [] -> s = Running /\ pausing = false) ->
  rel (if pausing then Paused else Running, log ++ [{| at_ := t; label := name; ran := negb (is_paused s) |}])
      (takeTime b t pausing name).
Proof.
  intros [T [St [[f [P [Pf P0]]] [C F]]]] Hs Hl. unfold takeTime.
  repeat split; cbn [times stopped cursors pauses].
  - rewrite T, map_app. reflexivity.
  - rewrite St. destruct s; [destruct pausing| |congruence]; try reflexivity; destruct pausing; reflexivity.
  - exists pausing. rewrite P. split; [|split].
    + destruct log as [|a log].
      * cbn [flags app]. rewrite (P0 eq_refl). reflexivity.
      * rewrite flags_snoc by discriminate. cbn [ran]. rewrite negb_involutive. rewrite (Pf Hs). reflexivity.
    + intros _. destruct pausing; reflexivity.
    + intros E. destruct log; discriminate.
  - rewrite T, app_length, map_length. cbn [length]. replace (length log + 1 - 1)%nat with (length log) by lia.
    apply cursors_snoc, C.
  - destruct log as [|a [|b' log]].
    + cbn [app first_ran]. destruct (Hl eq_refl) as [_ ->]. discriminate.
    + cbn [app first_ran ran]. cbn [first_ran] in F. destruct s; [reflexivity|congruence|congruence].
    + cbn [app first_ran]. exact F.
Qed.

Lemma isPaused_ok s log b : rel (s, log) b -> Z.of_nat (length log) < 2 ^ 63 -> isPaused b = Ok (is_paused s).
Proof.
  intros [T [St [[f [P [Pf P0]]] [C F]]]] B. unfold isPaused. rewrite St. destruct s; cbn [is_stopped is_paused]; [| |reflexivity].
  all: rewrite P, app_length, flags_length; cbn [length];
    replace (Z.of_nat (length log + 1) - 1) with (Z.of_nat (length log)) by lia;
    rewrite w64_small by (unfold M64; lia); unfold zget; destruct (Z.ltb_spec (Z.of_nat (length log)) 0); [lia|];
    rewrite Nat2Z.id; unfold aget; rewrite nth_error_app2 by (rewrite flags_length; lia);
    rewrite flags_length, Nat.sub_diag; cbn [nth_error]; rewrite Pf by congruence; reflexivity.
Qed.

Lemma rel_length s log b : rel (s, log) b -> length (times b) = length log.
Proof. intros [T _]. rewrite T, map_length. reflexivity. Qed.

Lemma rel_start t r : rel (Running, [{| at_ := t; label := []; ran := r |}]) (start t).
Proof.
  repeat split; cbn.
  - exists false. repeat split; congruence.
  - intros name Hn j s H Hl. destruct j as [|[|j]]; try discriminate. cbn in H. injection H as <-. cbn in Hl. congruence.
  - congruence.
Qed.

Lemma exec_refines c b o : rel c b -> Z.of_nat (length (snd c)) < 2 ^ 63 ->
  exists b', exec b o = Ok b' /\ rel (c_exec c o) b'.
Proof.
  destruct c as [s log]. intros R B. cbn [snd] in B. pose proof (rel_length s log b R) as L.
  pose proof (isPaused_ok s log b R B) as IP.
  assert (ST : stopped b = is_stopped s) by apply R.
  assert (STEP : forall t name, exists b', step b t name = Ok b' /\ rel (c_step (s, log) t name) b').
  { intros t name. unfold step. rewrite L. destruct log as [|a log].
    - cbn [length Nat.eqb]. eexists. split; [reflexivity|]. destruct s; apply rel_start.
    - cbn [length Nat.eqb]. rewrite IP. cbn [bind]. rewrite ST.
      destruct s; cbn [is_stopped negb]; eexists; (split; [reflexivity|]); cbn [c_step].
      + apply (rel_take Running (a :: log) b t name false R); [discriminate|discriminate].
      + apply (rel_take Paused (a :: log) b t name false R); [discriminate|discriminate].
      + exact R. }
  destruct o as [t|t name|t name|t|t name|]; cbn [exec c_exec].
  - eexists. split; [reflexivity|apply rel_start].
  - apply STEP.
  - unfold pause. rewrite L. destruct log as [|a log].
    + cbn [length Nat.eqb]. exists b. split; [reflexivity|]. destruct s; exact R.
    + cbn [length Nat.eqb]. rewrite IP. cbn [bind]. rewrite ST. destruct s; cbn [is_paused is_stopped negb].
      * eexists. split; [reflexivity|]. apply (rel_take Running (a :: log) b t name true R); discriminate.
      * exists b. split; [reflexivity|exact R].
      * exists b. split; [reflexivity|exact R].
  - apply STEP.
  - unfold stop. rewrite ST, IP. destruct s; cbn [is_stopped is_paused bind negb].
    + eexists. split; [reflexivity|].
      pose proof (rel_take Running log b t name false R ltac:(discriminate) ltac:(auto)) as R1.
      cbn [negb is_paused] in R1. destruct R1 as [T1 [S1 [[f [P1 [Pf1 P01]]] [C1 F1]]]].
      split; [exact T1|]. split; [reflexivity|]. split; [|split; [exact C1|]].
      * exists f. split; [exact P1|]. split; [congruence|exact P01].
      * destruct log as [|a [|b0 log]]; cbn [app first_ran] in *; [discriminate|exact F1|exact F1].
    + eexists. split; [reflexivity|]. destruct R as [T1 [S1 [[f [P1 [Pf1 P01]]] [C1 F1]]]].
      split; [exact T1|]. split; [reflexivity|]. split; [|split; [exact C1|]].
      * exists f. split; [exact P1|]. split; [congruence|exact P01].
      * destruct log as [|a [|b0 log]]; cbn [first_ran] in *; [congruence|congruence|exact F1].
    + exists b. split; [reflexivity|exact R].
  - eexists. split; [reflexivity|apply rel_reset].
Qed.

Lemma c_exec_length c o : (length (snd (c_exec c o)) <= S (length (snd c)))%nat.
Proof.
  destruct c as [s log]. destruct o as [t|t name|t name|t|t name|]; destruct s; destruct log; cbn [c_exec c_step snd length app];
    rewrite ?app_length; cbn [length]; lia.
Qed.

Lemma run_refines : forall l c b, rel c b -> Z.of_nat (length (snd c)) + Z.of_nat (length l) < 2 ^ 63 ->
  exists b', run b l = Ok b' /\ rel (fold_left c_exec l c) b'.
Proof.
  induction l as [|o l IH]; intros c b R B.
  - exists b. split; [reflexivity|exact R].
  - cbn [length] in B. destruct (exec_refines c b o R) as [b1 [E1 R1]]; [lia|].
    pose proof (c_exec_length c o). destruct (IH (c_exec c o) b1 R1) as [b2 [E2 R2]]; [lia|].
    exists b2. cbn [run fold_left]. rewrite E1. cbn [bind]. auto.
Qed.
Lemma fold_length : forall l c, (length (snd (fold_left c_exec l c)) <= length (snd c) + length l)%nat.
Proof.
  induction l as [|o l IH]; intros c; cbn [fold_left length]; [lia|].
  pose proof (IH (c_exec c o)). pose proof (c_exec_length c o). lia.
Qed.

Lemma history_rel l : Z.of_nat (length l) < 2 ^ 63 ->
  exists b, run new_bm l = Ok b /\ rel (c_run l) b /\ Z.of_nat (length (snd (c_run l))) < 2 ^ 63.
Proof.
  intros B. destruct (run_refines l fresh new_bm rel_new) as [b [E R]]; [cbn [fresh snd length]; lia|].
  exists b. split; [exact E|]. split; [exact R|]. pose proof (fold_length l fresh) as FL. unfold c_run. cbn [fresh snd length] in FL. lia.
Qed.

(** *** readings *)
Lemma intervals_length log : length (intervals log) = (length log - 1)%nat.
Proof.
  induction log as [|a [|b log] IH]; [reflexivity|reflexivity|].
  change (intervals (a :: b :: log)) with ((ran b, Z.quot (at_ b - at_ a) 1000) :: intervals (b :: log)).
  cbn [length] in *. lia.
Qed.
Lemma intervals_nth : forall log i x y, nth_error log i = Some x -> nth_error log (S i) = Some y ->
  nth_error (intervals log) i = Some (ran y, Z.quot (at_ y - at_ x) 1000).
Proof.
  induction log as [|a [|b log] IH]; intros i x y Hx Hy; [destruct i; discriminate|destruct i as [|[|]]; discriminate|].
  change (intervals (a :: b :: log)) with ((ran b, Z.quot (at_ b - at_ a) 1000) :: intervals (b :: log)).
  destruct i as [|i].
  - cbn in Hx, Hy |- *. injection Hx as <-. injection Hy as <-. reflexivity.
  - cbn [nth_error]. apply IH; assumption.
Qed.

Lemma interval_ok s log b i r d : rel (s, log) b -> Z.of_nat (length log) < 2 ^ 63 ->
  nth_error (intervals log) i = Some (r, d) ->
  interval b (S i) = Ok d /\ aget (pauses b) (S i) = Ok (negb r).
Proof.
  intros R B H. assert (Hi : (i < length (intervals log))%nat) by (apply nth_error_Some; congruence).
  rewrite intervals_length in Hi.
  destruct (nth_error log i) as [x|] eqn:Ex; [|apply nth_error_None in Ex; lia].
  destruct (nth_error log (S i)) as [y|] eqn:Ey; [|apply nth_error_None in Ey; lia].
  rewrite (intervals_nth log i x y Ex Ey) in H. injection H as <- <-.
  destruct R as [T [_ [[f [P _]] _]]]. split.
  - unfold interval. rewrite T. unfold aget at 1. rewrite nth_error_map, Ey. cbn [option_map bind].
    replace (Z.of_nat (S i) - 1) with (Z.of_nat i) by lia. rewrite w64_small by (unfold M64; lia).
    unfold zget. destruct (Z.ltb_spec (Z.of_nat i) 0); [lia|]. rewrite Nat2Z.id. unfold aget. rewrite nth_error_map, Ex. reflexivity.
  - rewrite P. unfold aget. rewrite nth_error_app1 by (rewrite flags_length; lia).
    destruct log as [|a log]; [discriminate|]. cbn [flags nth_error] in *. rewrite nth_error_map, Ey. reflexivity.
Qed.

(** a loop over consecutive intervals is a fold over the list of intervals *)
Lemma loop_fold {S X} (f : S -> X -> S) (body : nat -> S -> res S) : forall (L : list X) i0 s,
  (forall k x s, nth_error L k = Some x -> body (i0 + k)%nat s = Ok (f s x)) ->
  for_up (length L) i0 body s = Ok (fold_left f L s).
Proof.
  induction L as [|x L IH]; intros i0 s H; [reflexivity|].
  cbn [length for_up fold_left]. rewrite <- (Nat.add_0_r i0) at 1. rewrite (H 0%nat x s eq_refl). cbn [bind].
  apply IH. intros k y s' Hk. replace (Datatypes.S i0 + k)%nat with (i0 + Datatypes.S k)%nat by lia. apply H. exact Hk.
Qed.

Definition add_running (s : Z) (x : bool * Z) : Z := if fst x then s + snd x else s.
Lemma fold_add_running : forall L s, fold_left add_running L s = s + sum_z (map snd (filter fst L)).
Proof.
  induction L as [|[r d] L IH]; intros s; [cbn; lia|]. cbn [fold_left filter fst]. rewrite IH. unfold add_running. cbn [fst snd].
  destruct r; cbn [map sum_z fold_right snd]; unfold sum_z; cbn [fold_right]; lia.
Qed.
Lemma fold_count : forall (L : list (bool * Z)) s, fold_left (fun c (x : bool * Z) => if fst x then c + 1 else c) L s = s + Z.of_nat (length (filter fst L)).
Proof.
  induction L as [|[r d] L IH]; intros s; [cbn; lia|]. cbn [fold_left filter fst]. rewrite IH.
  destruct r; cbn [length]; lia.
Qed.

Lemma nth_error_firstn' {A} : forall (l : list A) n i x, nth_error (firstn n l) i = Some x -> nth_error l i = Some x.
Proof.
  intros l n i x H. rewrite <- (firstn_skipn n l). rewrite nth_error_app1; [exact H|]. apply nth_error_Some. congruence.
Qed.

Lemma sum_ok s log b k : rel (s, log) b -> Z.of_nat (length log) < 2 ^ 63 -> (1 <= k <= length log)%nat ->
  sumNotPausedTimes b 1 k = Ok (sum_z (map snd (filter fst (firstn (k - 1) (intervals log))))).
Proof.
  intros R B Hk. unfold sumNotPausedTimes, lo_cursor, hi_cursor. rewrite (rel_length s log b R).
  cbn [Nat.ltb Nat.leb]. destruct (Nat.leb_spec k (length log)); [|lia].
  set (L := firstn (k - 1) (intervals log)).
  assert (LL : length L = (k - 1)%nat) by (unfold L; rewrite firstn_length, intervals_length; lia).
  rewrite <- LL at 1. rewrite (loop_fold add_running).
  - f_equal. apply fold_add_running.
  - intros j [r d] s0 Hj. unfold L in Hj. apply nth_error_firstn' in Hj.
    destruct (interval_ok s log b j r d R B Hj) as [I P]. cbn [Nat.add]. rewrite P. cbn [bind]. rewrite negb_involutive.
    unfold add_running; cbn [fst snd]. destruct r; [rewrite I; reflexivity|reflexivity].
Qed.
Lemma count_ok s log b : rel (s, log) b -> Z.of_nat (length log) < 2 ^ 63 -> log <> [] ->
  countNotPausedTimes b 1 (length (times b)) = Ok (Z.of_nat (length (running_times log))).
Proof.
  intros R B Hl. unfold countNotPausedTimes, lo_cursor, hi_cursor. rewrite (rel_length s log b R).
  cbn [Nat.ltb Nat.leb]. rewrite Nat.leb_refl.
  rewrite <- intervals_length. rewrite (loop_fold (fun c (x : bool * Z) => if fst x then c + 1 else c)).
  - f_equal. rewrite fold_count. unfold running_times. rewrite map_length. lia.
  - intros j [r d] s0 Hj. destruct (interval_ok s log b j r d R B Hj) as [I P]. cbn [Nat.add]. rewrite P. cbn [bind].
    rewrite negb_involutive. cbn [fst]. destruct r; reflexivity.
Qed.

(** C32 *)
Lemma cumulative_ok s log b : rel (s, log) b -> Z.of_nat (length log) < 2 ^ 63 ->
  cumulativeBenchmark b 0 true = Ok (sum_z (running_times log)).
Proof.
  intros R B. unfold cumulativeBenchmark. rewrite (rel_length s log b R). destruct log as [|a log].
  - reflexivity.
  - cbn [length Nat.leb Nat.ltb]. rewrite (sum_ok s (a :: log) b) by (try assumption; cbn [length]; lia).
    rewrite firstn_all2 by (rewrite intervals_length; cbn [length]; lia). reflexivity.
Qed.
Lemma cumulative_cursor_ok s log b k : rel (s, log) b -> Z.of_nat (length log) < 2 ^ 63 -> (1 <= k)%nat ->
  cumulativeBenchmark b k true = Ok (if Nat.ltb k (length log) then sum_z (map snd (filter fst (firstn k (intervals log)))) else 0).
Proof.
  intros R B Hk. unfold cumulativeBenchmark. rewrite (rel_length s log b R).
  destruct (Nat.leb_spec (length log) k); destruct (Nat.ltb_spec k (length log)); try lia; [reflexivity|].
  destruct (Nat.ltb_spec k 1); [lia|]. rewrite (sum_ok s log b) by (try assumption; lia).
  replace (k + 1 - 1)%nat with k by lia. reflexivity.
Qed.
Lemma cumulative_all_ok s log b : rel (s, log) b -> Z.of_nat (length log) < 2 ^ 63 ->
  cumulativeBenchmark b 0 false = Ok (match log with [] => 0 | a :: _ => Z.quot (at_ (last log a) - at_ a) 1000 end).
Proof.
  intros R B. unfold cumulativeBenchmark. rewrite (rel_length s log b R). destruct log as [|a log]; [reflexivity|].
  cbn [length Nat.leb Nat.ltb]. assert (T : times b = map at_ (a :: log)) by apply R. rewrite T.
  cbn [length] in B. replace (Z.of_nat (S (length log)) - 1) with (Z.of_nat (length log)) by lia.
  rewrite w64_small by (unfold M64; lia). unfold zget. destruct (Z.ltb_spec (Z.of_nat (length log)) 0); [lia|]. rewrite Nat2Z.id.
  unfold aget at 1. rewrite nth_error_map.
  assert (N : nth_error (a :: log) (length log) = Some (last (a :: log) a)).
  { assert (G : forall (l : list stamp) x d, nth_error (x :: l) (length l) = Some (last (x :: l) d)).
    { induction l as [|y l IH]; intros x d; [reflexivity|]. cbn [length nth_error]. rewrite (IH y d). reflexivity. }
    apply G. }
  rewrite N. reflexivity.
Qed.

(** C34 *)
Definition fold_mm (L : list (bool * Z)) (mm : Z * Z) : Z * Z :=
  fold_left (fun mm (x : bool * Z) => if fst x then update_min_max mm (snd x) else mm) L mm.
Lemma fold_mm_spec : forall L mn mx, mn <= mx ->
  let '(mn', mx') := fold_mm L (mn, mx) in
  (mn' = mn \/ In (true, mn') L) /\ (mx' = mx \/ In (true, mx') L) /\
  mn' <= mn /\ mx <= mx' /\ (forall d, In (true, d) L -> mn' <= d <= mx').
Proof.
  induction L as [|[r d] L IH]; intros mn mx Hm.
  - cbn. repeat split; auto; try lia; contradiction.
  - change (fold_mm ((r, d) :: L) (mn, mx)) with (fold_mm L (if r then update_min_max (mn, mx) d else (mn, mx))).
    assert (X : exists mn1 mx1, (if r then update_min_max (mn, mx) d else (mn, mx)) = (mn1, mx1) /\ mn1 <= mx1 /\
      (mn1 = mn \/ (r = true /\ mn1 = d)) /\ (mx1 = mx \/ (r = true /\ mx1 = d)) /\ mn1 <= mn /\ mx <= mx1 /\ (r = true -> mn1 <= d <= mx1)).
    { unfold update_min_max. destruct r; [destruct (Z.ltb_spec d mn); [|destruct (Z.ltb_spec mx d)]|]; do 2 eexists; (split; [reflexivity|]);
        repeat split; try lia; auto; try discriminate. }
    destruct X as [mn1 [mx1 [-> [H1 [H2 [H3 [H4 [H5 H6]]]]]]]].
    specialize (IH mn1 mx1 H1). destruct (fold_mm L (mn1, mx1)) as [a c]. destruct IH as [A [C [D [E F]]]].
    split; [|split; [|split; [lia|split; [lia|]]]].
    + destruct A as [->|A]; [|right; right; exact A]. destruct H2 as [->|[-> ->]]; [left; reflexivity|right; left; reflexivity].
    + destruct C as [->|C]; [|right; right; exact C]. destruct H3 as [->|[-> ->]]; [left; reflexivity|right; left; reflexivity].
    + intros x [Hx|Hx]; [injection Hx as -> ->; specialize (H6 eq_refl); lia|apply F; exact Hx].
Qed.

Lemma in_running log d : In d (running_times log) <-> In (true, d) (intervals log).
Proof.
  unfold running_times. rewrite in_map_iff. split.
  - intros [[r x] [<- H]]. apply filter_In in H. destruct H as [H E]. cbn in E. subst r. exact H.
  - intros H. exists (true, d). split; [reflexivity|]. apply filter_In. split; [exact H|reflexivity].
Qed.

Lemma first_interval s log : first_ran s log -> (2 <= length log)%nat -> exists d rest, intervals log = (true, d) :: rest.
Proof.
  destruct log as [|a [|b log]]; cbn [length]; intros F H; try lia. cbn [first_ran] in F.
  change (intervals (a :: b :: log)) with ((ran b, Z.quot (at_ b - at_ a) 1000) :: intervals (b :: log)). rewrite F. eauto.
Qed.

Lemma min_max_ok s log b g : rel (s, log) b -> Z.of_nat (length log) < 2 ^ 63 -> (2 <= length log)%nat ->
  exists mn mx, minOrMax b g true = Ok (if g then mx else mn) /\
    In mn (running_times log) /\ In mx (running_times log) /\ (forall d, In d (running_times log) -> mn <= d <= mx).
Proof.
  intros R B H2. pose proof (rel_length s log b R) as L.
  assert (FR : first_ran s log) by apply R.
  destruct (first_interval s log FR H2) as [d [rest EI]].
  unfold minOrMax, too_few. rewrite L. destruct (Nat.ltb_spec (length log) 2); [lia|]. cbn [bind].
  destruct (interval_ok s log b 0 true d R B) as [I P]; [rewrite EI; reflexivity|].
  assert (E1 : first_running (S (length log)) b 0 (0, 0) = Ok (1%nat, (d, d))).
  { cbn [first_running]. rewrite L. destruct (Nat.ltb_spec 1 (length log)); [|lia]. rewrite P. cbn [bind negb]. rewrite I. reflexivity. }
  rewrite E1. cbn [bind].
  assert (E2 : for_up (length log - 1) 1 (fun i mm => do ps <- aget (pauses b) i;
        if negb ps then do d <- interval b i; Ok (update_min_max mm d) else Ok mm) (d, d) = Ok (fold_mm (intervals log) (d, d))).
  { rewrite <- intervals_length. apply loop_fold. intros k [r x] mm Hk.
    destruct (interval_ok s log b k r x R B Hk) as [I' P']. cbn [Nat.add]. rewrite P'. cbn [bind]. rewrite negb_involutive.
    cbn [fst snd]. destruct r; [rewrite I'; reflexivity|reflexivity]. }
  rewrite E2. cbn [bind]. pose proof (fold_mm_spec (intervals log) d d ltac:(lia)) as FS.
  destruct (fold_mm (intervals log) (d, d)) as [mn mx]. destruct FS as [A [C [_ [_ F]]]].
  assert (ID : In (true, d) (intervals log)) by (rewrite EI; left; reflexivity).
  exists mn, mx. cbn [fst snd]. split; [destruct g; reflexivity|].
  split; [apply in_running; destruct A as [->|A]; assumption|].
  split; [apply in_running; destruct C as [->|C]; assumption|].
  intros x Hx. apply F. apply in_running, Hx.
Qed.

Lemma too_few_true s log b : rel (s, log) b -> too_few b true = Ok (Nat.ltb (length log) 2).
Proof. intros R. unfold too_few. rewrite (rel_length s log b R). destruct (Nat.ltb (length log) 2); reflexivity. Qed.

Lemma sum_bounds : forall l mn mx, (forall d, In d l -> mn <= d <= mx) ->
  mn * Z.of_nat (length l) <= sum_z l <= mx * Z.of_nat (length l).
Proof.
  induction l as [|x l IH]; intros mn mx H; [cbn; lia|]. cbn [length sum_z fold_right]. 
  specialize (IH mn mx (fun d Hd => H d (or_intror Hd))). specialize (H x (or_introl eq_refl)).
  change (fold_right Z.add 0 l) with (sum_z l). rewrite Nat2Z.inj_succ. lia.
Qed.

Lemma average_ok s log b : rel (s, log) b -> Z.of_nat (length log) < 2 ^ 63 -> (2 <= length log)%nat ->
  average b true = Ok (inject_Z (sum_z (running_times log)) / inject_Z (Z.of_nat (length (running_times log))))%Q /\
  (1 <= length (running_times log))%nat.
Proof.
  intros R B H2. unfold average. rewrite (too_few_true s log b R). destruct (Nat.ltb_spec (length log) 2); [lia|]. cbn [bind].
  rewrite (cumulative_ok s log b R B). cbn [bind]. rewrite (count_ok s log b R B) by (destruct log; [cbn in H2; lia|discriminate]). cbn [bind].
  split; [reflexivity|].
  destruct (first_interval s log) as [d [rest E]]; [apply R|exact H2|].
  unfold running_times. rewrite E. cbn [filter fst map length]. lia.
Qed.

Lemma Q_div_bounds mn mx sm c : 0 < c -> mn * c <= sm <= mx * c ->
  (inject_Z mn <= inject_Z sm / inject_Z c /\ inject_Z sm / inject_Z c <= inject_Z mx)%Q.
Proof.
  intros Hc [A B]. destruct c as [|c|c]; try lia.
  unfold Qdiv, Qmult, Qinv, inject_Z, Qle; cbn [Qnum Qden]. lia.
Qed.

(** C35 *)
Lemma count_none b : countNotPausedTimes b (length (times b)) 0 = Ok 0.
Proof.
  unfold countNotPausedTimes, hi_cursor, lo_cursor. destruct (Nat.leb_spec 0 (length (times b))); [|lia].
  rewrite Nat.sub_0_l. reflexivity.
Qed.
Lemma too_few_false b : too_few b false = Ok true.
Proof. unfold too_few. destruct (Nat.ltb _ 2); [reflexivity|]. rewrite count_none. reflexivity. Qed.

(** C36 *)
Lemma benchmark_ub b cursor : Z.of_nat (length (times b)) < 2 ^ 63 ->
  (benchmark b cursor = UB OutOfBounds <-> cursor = 0%nat /\ length (times b) = 1%nat) /\
  ((cursor = 0%nat /\ length (times b) = 1%nat) \/ exists d, benchmark b cursor = Ok d).
Proof.
  intros B. unfold benchmark. destruct (Nat.leb_spec (length (times b)) cursor) as [H|H].
  - split; [split; [discriminate|lia]|right; eauto].
  - destruct (Nat.ltb_spec cursor 1) as [H1|H1].
    + assert (cursor = 0%nat) by lia. subst cursor.
      assert (Z1 : zget (times b) (w64 (Z.of_nat (length (times b)) - 1)) = Ok (nth (length (times b) - 1) (times b) 0)).
      { rewrite w64_small by (unfold M64; lia). unfold zget. destruct (Z.ltb_spec (Z.of_nat (length (times b)) - 1) 0); [lia|].
        replace (Z.to_nat (Z.of_nat (length (times b)) - 1)) with (length (times b) - 1)%nat by lia. apply aget_nth. lia. }
      rewrite Z1. cbn [bind].
      destruct (Nat.eq_dec (length (times b)) 1) as [E|E].
      * rewrite E. assert (Z2 : zget (times b) (w64 (Z.of_nat 1 - 2)) = UB OutOfBounds).
        { replace (w64 (Z.of_nat 1 - 2)) with (2 ^ 64 - 1) by reflexivity. unfold zget.
          destruct (Z.ltb_spec (2 ^ 64 - 1) 0); [lia|]. unfold aget.
          destruct (nth_error (times b) (Z.to_nat (2 ^ 64 - 1))) eqn:N; [|reflexivity].
          assert (nth_error (times b) (Z.to_nat (2 ^ 64 - 1)) <> None) as N' by congruence. apply nth_error_Some in N'. lia. }
        rewrite Z2. cbn [bind]. split; [split; auto|left; auto].
      * rewrite w64_small by (unfold M64; lia). unfold zget. destruct (Z.ltb_spec (Z.of_nat (length (times b)) - 2) 0); [lia|].
        rewrite (aget_nth 0) by lia. cbn [bind]. split; [split; [discriminate|lia]|right; eauto].
    + unfold interval. rewrite (aget_nth 0) by lia. cbn [bind]. rewrite w64_small by (unfold M64; lia).
      unfold zget. destruct (Z.ltb_spec (Z.of_nat cursor - 1) 0); [lia|]. rewrite (aget_nth 0) by lia. cbn [bind].
      split; [split; [discriminate|lia]|right; eauto].
Qed.

(** C37 *)
Lemma named_ok s log b name i : rel (s, log) b -> Z.of_nat (length log) < 2 ^ 63 -> name <> [] ->
  last_labelled log name (S i) -> forall x y, nth_error log i = Some x -> nth_error log (S i) = Some y ->
  benchmark_named b name = Ok (Z.quot (at_ y - at_ x) 1000).
Proof.
  intros R B Hn HL x y Hx Hy. unfold benchmark_named, getNumericCursor.
  assert (C : cursors_ok log (cursors b)) by apply R. specialize (C name Hn).
  destruct (find (fun p => str_eq (fst p) name) (cursors b)) as [[nm k]|].
  - cbn [snd] in *. destruct HL as [[s1 [L1 L2]] L3]. destruct C as [[s2 [C1 C2]] C3].
    assert (k = S i) by (apply Nat.le_antisymm; [exact (L3 k s2 C1 C2)|exact (C3 (S i) s1 L1 L2)]). subst k.
    unfold benchmark. rewrite (rel_length s log b R).
    assert (S i < length log)%nat by (apply nth_error_Some; congruence).
    destruct (Nat.leb_spec (length log) (S i)); [lia|]. cbn [Nat.ltb Nat.leb].
    destruct (interval_ok s log b i (ran y) (Z.quot (at_ y - at_ x) 1000) R B) as [I _]; [apply intervals_nth; assumption|]. exact I.
  - destruct HL as [[s1 [L1 L2]] _]. exfalso. exact (C (S i) s1 L1 L2).
Qed.
Lemma unnamed_ok s log b name : rel (s, log) b ->
  (forall j x, nth_error log j = Some x -> label x = name -> j = 0%nat) -> name <> [] ->
  benchmark_named b name = benchmark b 0.
Proof.
  intros R H Hn. unfold benchmark_named, getNumericCursor.
  assert (C : cursors_ok log (cursors b)) by apply R. specialize (C name Hn).
  destruct (find (fun p => str_eq (fst p) name) (cursors b)) as [[nm k]|]; [|reflexivity].
  cbn [snd] in *. destruct C as [[s2 [C1 C2]] C3]. rewrite (H k s2 C1 C2). reflexivity.
Qed.

(** C33 *)
Definition quiet (o : op) : Prop := match o with Step _ _ | Pause _ _ | Cont _ | Stop _ _ => True | _ => False end.
Lemma frozen_l : forall l b, stopped b = true -> (1 <= length (times b))%nat -> Forall quiet l -> run b l = Ok b.
Proof.
  induction l as [|o l IH]; intros b S L F; [reflexivity|]. inversion F as [|? ? Q F']; subst.
  assert (E : exec b o = Ok b).
  { destruct o as [t|t n|t n|t|t n|]; cbn [quiet] in Q; try contradiction; cbn [exec]; unfold cont, step, pause, stop, isPaused;
      rewrite ?S; destruct (Nat.eqb_spec (length (times b)) 0); try lia; reflexivity. }
  cbn [run]. rewrite E. cbn [bind]. apply IH; assumption.
Qed.
Lemma stop_records_l l now name b b' : Z.of_nat (length l) < 2 ^ 63 -> run new_bm l = Ok b -> stop b now name = Ok b' ->
  stopped b' = true /\ (b' = b \/ (1 <= length (times b'))%nat).
Proof.
  intros B E ES. destruct (history_rel l B) as [b0 [E0 [R BL]]]. rewrite E in E0. apply Ok_inj in E0. subst b0.
  unfold stop in ES. destruct (stopped b) eqn:S.
  - apply Ok_inj in ES. subst b'. auto.
  - destruct (c_run l) as [s log]. rewrite (isPaused_ok s log b R BL) in ES. cbn [bind] in ES. apply Ok_inj in ES. subst b'. cbn [stopped times].
    split; [reflexivity|]. destruct (is_paused s) eqn:P.
    + cbn [negb]. right. destruct R as [T [_ [_ [_ F]]]]. rewrite T, map_length. destruct s; try discriminate. destruct log as [|? []]; cbn in *; [congruence|lia|lia].
    + cbn [negb takeTime times]. right. rewrite app_length. cbn. lia.
Qed.

(** *** variance *)
Definition sq_dev (avg : Q) (x : Z) : Q := ((inject_Z x - avg) * (inject_Z x - avg))%Q.
Definition sum_q (l : list Q) : Q := fold_right Qplus 0%Q l.

Lemma variance_ok s log b : rel (s, log) b -> Z.of_nat (length log) < 2 ^ 63 -> (2 <= length log)%nat ->
  (forall x, In x (running_times log) -> 0 <= x < 2 ^ 64) ->
  let avg := (inject_Z (sum_z (running_times log)) / inject_Z (Z.of_nat (length (running_times log))))%Q in
  exists v, variance b true = Ok v /\
    (v == sum_q (map (sq_dev avg) (running_times log)) / inject_Z (Z.of_nat (length (intervals log))))%Q.
Proof.
  intros R B H2 HX avg. unfold variance. rewrite (too_few_true s log b R). destruct (Nat.ltb_spec (length log) 2); [lia|]. cbn [bind].
  destruct (average_ok s log b R B H2) as [-> _]. cbn [bind]. fold avg. cbn [andb].
  rewrite (rel_length s log b R). rewrite <- intervals_length.
  replace (Z.of_nat (length log) - 1) with (Z.of_nat (length (intervals log))) by (rewrite intervals_length; lia).
  set (n := inject_Z (Z.of_nat (length (intervals log)))).
  set (diff := fun x => if negb (Qle_bool (inject_Z (w64 x)) avg) then (inject_Z (w64 x) - avg)%Q else (avg - inject_Z (w64 x))%Q).
  set (f := fun (v : Q) (x : bool * Z) => if fst x then (v + diff (snd x) / n * diff (snd x))%Q else v).
  eexists. split.
  - apply (loop_fold f). intros k [r d] v Hk. destruct (interval_ok s log b k r d R B Hk) as [I P]. cbn [Nat.add].
    rewrite P. cbn [bind]. rewrite negb_involutive. unfold f; cbn [fst snd]. destruct r; [rewrite I; reflexivity|reflexivity].
  - assert (Hn : ~ (n == 0)%Q).
    { unfold n. rewrite intervals_length. unfold Qeq, inject_Z; cbn [Qnum Qden]. lia. }
    assert (G : forall L v, (forall x, In (true, x) L -> 0 <= x < 2 ^ 64) ->
      (fold_left f L v == v + sum_q (map (sq_dev avg) (map snd (filter fst L))) / n)%Q).
    { induction L as [|[r d] L IH]; intros v HL.
      - cbn [fold_left filter map sum_q fold_right]. field. exact Hn.
      - cbn [fold_left filter fst]. rewrite IH by (intros x Hx; apply HL; right; exact Hx).
        unfold f; cbn [fst snd]. destruct r; [|reflexivity].
        cbn [map snd sum_q fold_right]. change (fold_right Qplus 0%Q) with sum_q.
        assert (D : (diff d / n * diff d == sq_dev avg d / n)%Q).
        { unfold diff, sq_dev. rewrite w64_small by (apply HL; left; reflexivity).
          destruct (negb _); field; exact Hn. }
        rewrite D. field. exact Hn. }
    rewrite G; [|intros x Hx; apply HX; apply in_running; exact Hx]. unfold running_times. field. exact Hn.
Qed.

Lemma app_one_nonempty A (l : list A) x : l ++ [x] <> [].
Proof. destruct l; discriminate. Qed.
Lemma started_nonempty : forall l c, (exists t, In (Start t) l) \/ snd c <> [] \/ fst c = Running ->
  snd (fold_left c_exec l c) <> [] \/ fst (fold_left c_exec l c) = Running.
Proof.
  induction l as [|o l IH]; intros c H.
  - cbn [fold_left]. destruct H as [[t []]|[H|H]]; auto.
  - cbn [fold_left]. apply IH. destruct H as [[t [->|H]]|H].
    + right. left. cbn. discriminate.
    + left. eauto.
    + right. destruct c as [s log]. cbn [fst snd] in H.
      destruct o as [t|t nm|t nm|t|t nm|]; cbn [c_exec c_step]; destruct s, log as [|a log]; cbn [fst snd];
        try (left; discriminate); try (right; reflexivity); try (left; apply app_one_nonempty); destruct H; congruence.
Qed.

Lemma frozen_after_stop_l l now name b b' l2 : Z.of_nat (length l) < 2 ^ 63 ->
  run new_bm l = Ok b -> (exists o, In o l /\ (exists t, o = Start t)) \/ isStopped b = false ->
  stop b now name = Ok b' -> Forall quiet l2 -> run b' l2 = Ok b'.
Proof.
  intros B E H ES Q. destruct (stop_records_l l now name b b' B E ES) as [S L]. apply frozen_l; [exact S| |exact Q].
  destruct L as [->|L]; [|exact L].
  destruct (history_rel l B) as [b0 [E0 [R BL]]]. rewrite E in E0. apply Ok_inj in E0. subst b0.
  destruct H as [[o [Ho [t ->]]]|H]; [|unfold isStopped in H; congruence].
  destruct (started_nonempty l fresh) as [N|N]; [left; eauto| |].
  - change (fold_left c_exec l fresh) with (c_run l) in N. destruct (c_run l) as [s log]. cbn [snd] in N.
    rewrite (rel_length s log b R). destruct log; [congruence|cbn; lia].
  - change (fold_left c_exec l fresh) with (c_run l) in N. destruct (c_run l) as [s log]. cbn [fst] in N.
    destruct R as [_ [St _]]. rewrite S in St. subst s. discriminate.
Qed.

Lemma min_max_average_l l : Z.of_nat (length l) < 2 ^ 63 ->
  (2 <= length (snd (c_run l)))%nat ->
  exists b mn mx avg, run new_bm l = Ok b /\
    min b true = Ok mn /\ max b true = Ok mx /\ average b true = Ok avg /\
    In mn (running_times (snd (c_run l))) /\ In mx (running_times (snd (c_run l))) /\
    (forall d, In d (running_times (snd (c_run l))) -> mn <= d <= mx) /\
    (avg * inject_Z (Z.of_nat (length (running_times (snd (c_run l))))) == inject_Z (sum_z (running_times (snd (c_run l)))))%Q /\
    (inject_Z mn <= avg)%Q /\ (avg <= inject_Z mx)%Q.
Proof.
  intros B H2. destruct (history_rel l B) as [b [E [R BL]]]. destruct (c_run l) as [s log]. cbn [snd] in *.
  destruct (min_max_ok s log b false R BL H2) as [mn [mx [E1 [I1 [I2 F]]]]].
  destruct (min_max_ok s log b true R BL H2) as [mn' [mx' [E2 [I1' [I2' F']]]]].
  assert (mx' = mx) by (pose proof (F' mx I2); pose proof (F mx' I2'); lia). subst mx'.
  destruct (average_ok s log b R BL H2) as [EA HC].
  exists b, mn, mx. eexists. split; [exact E|].
  split. { unfold min. rewrite (too_few_true s log b R). destruct (Nat.ltb_spec (length log) 2); [lia|]. exact E1. }
  split. { unfold max. rewrite (too_few_true s log b R). destruct (Nat.ltb_spec (length log) 2); [lia|]. exact E2. }
  split; [exact EA|]. split; [exact I1|]. split; [exact I2|]. split; [exact F|]. split.
  - assert (N : ~ (inject_Z (Z.of_nat (length (running_times log))) == 0)%Q) by (unfold Qeq, inject_Z; cbn [Qnum Qden]; lia).
    field. exact N.
  - apply Q_div_bounds; [lia|]. apply sum_bounds, F.
Qed.

Lemma run_app : forall l1 l2 b b1, run b l1 = Ok b1 -> run b (l1 ++ l2) = run b1 l2.
Proof.
  induction l1 as [|o l1 IH]; intros l2 b b1 E.
  - cbn [run] in E. apply Ok_inj in E. subst b1. reflexivity.
  - cbn [run app] in *. destruct (exec b o) as [b0| | | |]; try discriminate. cbn [bind] in *. apply IH. exact E.
Qed.

Lemma after_start_l l t name : Z.of_nat (length l) < 2 ^ 63 ->
  exists b, run new_bm (l ++ [Start t]) = Ok b /\ benchmark b 0 = UB OutOfBounds /\ benchmark_named b name = UB OutOfBounds.
Proof.
  intros B. destruct (history_rel l B) as [b [E _]]. exists (start t). rewrite (run_app l [Start t] new_bm b E).
  split; [reflexivity|]. 
  assert (U : benchmark (start t) 0 = UB OutOfBounds) by (apply benchmark_ub; [reflexivity|split; reflexivity]).
  split; [exact U|]. exact U.
Qed.
Lemma reset_l l t name : Z.of_nat (length l) < 2 ^ 63 ->
  exists b b', run new_bm (l ++ [Reset]) = Ok b /\ isStopped b = false /\ isStopped new_bm = true /\
    stop b t name = Ok b' /\ times b' = [t] /\ stop new_bm t name = Ok new_bm.
Proof.
  intros B. destruct (history_rel l B) as [b [E _]]. exists reset. eexists. rewrite (run_app l [Reset] new_bm b E).
  repeat split.
Qed.
