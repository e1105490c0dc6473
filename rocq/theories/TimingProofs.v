(** Proofs about the printed times. *)
From Coq Require Import QArith Lia.
From Verif Require Import Base Spec Lib FilesSpec ToolsModel ToolsSpec ToolsProofs TimingModel TimingSpec.
From Verif Require BenchModel BenchSpec BenchProofs.
Open Scope Z_scope.

Lemma shown_of_figures b f : figures_of b = Ok f -> shown_of b = Ok {| sh_avg := fg_avg f; sh_sd2 := fg_sd2 f; sh_total := fg_total f |}.
Proof.
  unfold figures_of, shown_of. intros H. apply bind_ok in H. destruct H as [a [-> H]]. cbn [bind].
  apply bind_ok in H. destruct H as [d [-> H]]. cbn [bind]. apply bind_ok in H. destruct H as [mn [_ H]].
  apply bind_ok in H. destruct H as [mx [_ H]]. apply bind_ok in H. destruct H as [t [-> H]]. cbn [bind].
  apply Ok_inj in H. subst f. reflexivity.
Qed.

Lemma lap_more t0 t1 n b : BenchModel.run BenchModel.new_bm (alts t0 t1 0 n) = Ok b -> Z.of_nat n < 2 ^ 61 ->
  exists b', one_lap b (t0 n) (t1 n) = Ok b' /\ BenchModel.run BenchModel.new_bm (alts t0 t1 0 (S n)) = Ok b'.
Proof.
  intros E L. destruct (run_more _ b (BenchModel.Step (t0 n) []) E) as [b1 [E1 R1]]; [rewrite alts_length; lia|].
  destruct (run_more _ b1 (BenchModel.Pause (t1 n) []) R1) as [b2 [E2 R2]]; [rewrite app_length, alts_length; cbn [length]; lia|].
  exists b2. cbn [BenchModel.exec] in E1, E2. unfold one_lap, BenchModel.cont. rewrite E1. cbn [bind]. split; [exact E2|].
  rewrite alts_snoc. unfold alt. change [BenchModel.Step (t0 n) []; BenchModel.Pause (t1 n) []] with ([BenchModel.Step (t0 n) []] ++ [BenchModel.Pause (t1 n) []]).
  rewrite app_assoc. exact R2.
Qed.

Section F.
Variable clock : nat -> Z.
Variable k : nat.
Definition rd (o j : nat) : Z := clock (k + 8 * j + o)%nat.
Definition prog (o : nat) (n : nat) := alts (rd o) (rd (o + 1)) 0 n.

Lemma find_rounds n : Z.of_nat n < 2 ^ 61 ->
  let new := BenchModel.new_bm in
  exists l, for_up n 0 (fun j l => find_round clock (k + 8 * j)%nat l) {| lp_int := new; lp_mon := new; lp_fac := new; lp_cap := new |} = Ok l /\
    BenchModel.run new (prog 0 n) = Ok (lp_int l) /\ BenchModel.run new (prog 2 n) = Ok (lp_mon l) /\
    BenchModel.run new (prog 4 n) = Ok (lp_fac l) /\ BenchModel.run new (prog 6 n) = Ok (lp_cap l).
Proof.
  intros L new.
  destruct (for_up_inv (fun i l => BenchModel.run new (prog 0 i) = Ok (lp_int l) /\ BenchModel.run new (prog 2 i) = Ok (lp_mon l) /\
    BenchModel.run new (prog 4 i) = Ok (lp_fac l) /\ BenchModel.run new (prog 6 i) = Ok (lp_cap l)) n 0
    (fun j l => find_round clock (k + 8 * j)%nat l) {| lp_int := new; lp_mon := new; lp_fac := new; lp_cap := new |}) as [l [E H]].
  - repeat split.
  - intros j l Hj [A [B [C D]]].
    destruct (lap_more _ _ j _ A) as [a' [A1 A2]]; [lia|]. destruct (lap_more _ _ j _ B) as [b' [B1 B2]]; [lia|].
    destruct (lap_more _ _ j _ C) as [c' [C1 C2]]; [lia|]. destruct (lap_more _ _ j _ D) as [d' [D1 D2]]; [lia|].
    unfold rd in A1, B1, C1, D1. cbn [Nat.add] in A1, B1, C1, D1. rewrite Nat.add_0_r in A1.
    unfold find_round. rewrite A1. cbn [bind]. rewrite B1. cbn [bind]. rewrite C1. cbn [bind]. rewrite D1. cbn [bind].
    eexists. split; [reflexivity|]. cbn [lp_int lp_mon lp_fac lp_cap]. auto.
  - exists l. split; [exact E|]. exact H.
Qed.

Lemma shown_alts t0 t1 n t b : (0 < n)%nat -> Z.of_nat n < 2 ^ 61 -> BenchModel.run BenchModel.new_bm (alts t0 t1 0 n) = Ok b ->
  exists b' s, BenchModel.stop b t [] = Ok b' /\ shown_of b' = Ok s /\ shown_right (map (lap t0 t1) (seq 0 n)) (2 * Z.of_nat n - 1) s.
Proof.
  intros H L E. destruct (alts_figures t0 t1 n t b H L E) as [b' [f [E1 [E2 R]]]].
  exists b'. eexists. split; [exact E1|]. split; [exact (shown_of_figures _ _ E2)|].
  destruct R as [R1 [R2 [_ [_ [_ R3]]]]]. split; [exact R1|]. split; [exact R2|exact R3].
Qed.

Definition times_at (o n : nat) : list Z := map (lap (rd o) (rd (o + 1))) (seq 0 n).
Lemma find_times_ok n : (0 < n)%nat -> Z.of_nat n < 2 ^ 61 ->
  exists l i m f c, find_times clock k n = Ok l /\
    shown_of (lp_int l) = Ok i /\ shown_of (lp_mon l) = Ok m /\ shown_of (lp_fac l) = Ok f /\ shown_of (lp_cap l) = Ok c /\
    shown_right (times_at 0 n) (2 * Z.of_nat n - 1) i /\ shown_right (times_at 2 n) (2 * Z.of_nat n - 1) m /\
    shown_right (times_at 4 n) (2 * Z.of_nat n - 1) f /\ shown_right (times_at 6 n) (2 * Z.of_nat n - 1) c.
Proof.
  intros H L. destruct (find_rounds n L) as [l [E [A [B [C D]]]]]. unfold find_times. cbv zeta in E |- *. rewrite E. cbn [bind].
  destruct (shown_alts _ _ n (clock (k + 8 * n)%nat) _ H L A) as [a' [i [A1 [A2 A3]]]]. rewrite A1. cbn [bind].
  destruct (shown_alts _ _ n (clock (k + 8 * n)%nat) _ H L B) as [b' [m [B1 [B2 B3]]]]. rewrite B1. cbn [bind].
  destruct (shown_alts _ _ n (clock (k + 8 * n)%nat) _ H L C) as [c' [f [C1 [C2 C3]]]]. rewrite C1. cbn [bind].
  destruct (shown_alts _ _ n (clock (k + 8 * n)%nat) _ H L D) as [d' [c [D1 [D2 D3]]]]. rewrite D1. cbn [bind].
  eexists. exists i, m, f, c. split; [reflexivity|]. cbn [lp_int lp_mon lp_fac lp_cap]. auto 10.
Qed.
End F.

Lemma steady_le clock : steady clock -> forall i j, (i <= j)%nat -> clock i <= clock j.
Proof. intros H i j L. induction L as [|j L IH]; [lia|]. specialize (H j). lia. Qed.
Lemma quot_add_le a b : 0 <= a -> 0 <= b -> Z.quot a 1000 + Z.quot b 1000 <= Z.quot (a + b) 1000.
Proof. intros A B. rewrite !Z.quot_div_nonneg by lia. apply Z.div_le_lower_bound; [lia|]. pose proof (Z.mul_div_le a 1000). pose proof (Z.mul_div_le b 1000). lia. Qed.
Lemma quot_le a b : 0 <= a <= b -> Z.quot a 1000 <= Z.quot b 1000.
Proof. intros. rewrite !Z.quot_div_nonneg by lia. apply Z.div_le_mono; lia. Qed.
Lemma quot_pos a : 0 <= a -> 0 <= Z.quot a 1000.
Proof. intros. apply Z.quot_pos; lia. Qed.

(** disjoint spans never add up to more than the whole *)
Lemma span_join clock i j m : steady clock -> (i <= j <= m)%nat -> span clock i j + span clock j m <= span clock i m.
Proof.
  intros H L. unfold span. pose proof (steady_le clock H i j ltac:(lia)). pose proof (steady_le clock H j m ltac:(lia)).
  replace (clock m - clock i) with ((clock j - clock i) + (clock m - clock j)) by lia. apply quot_add_le; lia.
Qed.
Lemma span_wider clock i j a b : steady clock -> (a <= i)%nat -> (i <= j)%nat -> (j <= b)%nat -> span clock i j <= span clock a b.
Proof.
  intros H L1 L2 L3. unfold span. pose proof (steady_le clock H i j ltac:(lia)). pose proof (steady_le clock H a i ltac:(lia)).
  pose proof (steady_le clock H j b ltac:(lia)). apply quot_le. lia.
Qed.
Lemma span_nonneg clock i j : steady clock -> (i <= j)%nat -> 0 <= span clock i j.
Proof. intros H L. unfold span. pose proof (steady_le clock H i j L). apply quot_pos. lia. Qed.

Lemma sum_z_snoc l x : sum_z (l ++ [x]) = sum_z l + x.
Proof. unfold sum_z. induction l as [|a l IH]; cbn [app fold_right]; lia. Qed.
Lemma laps_sum clock k n : steady clock ->
  sum_z (times_at clock k 0 n) + sum_z (times_at clock k 2 n) + sum_z (times_at clock k 4 n) + sum_z (times_at clock k 6 n) <= span clock k (k + 8 * n)%nat.
Proof.
  intros H. induction n as [|n IH].
  - cbn [times_at seq map sum_z fold_right]. unfold times_at. cbn [seq map sum_z fold_right]. rewrite Nat.mul_0_r, Nat.add_0_r. pose proof (span_nonneg clock k k H ltac:(lia)). lia.
  - unfold times_at in *. rewrite seq_S. cbn [Nat.add]. rewrite !map_app. cbn [map]. rewrite !sum_z_snoc.
    unfold lap, rd in *. cbn [Nat.add] in *.
    set (b := (k + 8 * n)%nat) in *. replace (k + 8 * S n)%nat with (b + 8)%nat by (unfold b; lia).
    change (Z.quot (clock (b + 1)%nat - clock (b + 0)%nat) 1000) with (span clock (b + 0) (b + 1)).
    change (Z.quot (clock (b + 3)%nat - clock (b + 2)%nat) 1000) with (span clock (b + 2) (b + 3)).
    change (Z.quot (clock (b + 5)%nat - clock (b + 4)%nat) 1000) with (span clock (b + 4) (b + 5)).
    change (Z.quot (clock (b + 7)%nat - clock (b + 6)%nat) 1000) with (span clock (b + 6) (b + 7)).
    rewrite (Nat.add_0_r b).
    pose proof (span_join clock k b (b + 8) H ltac:(unfold b; lia)).
    pose proof (span_join clock b (b + 2) (b + 8) H ltac:(lia)). pose proof (span_join clock (b + 2) (b + 4) (b + 8) H ltac:(lia)).
    pose proof (span_join clock (b + 4) (b + 6) (b + 8) H ltac:(lia)).
    pose proof (span_wider clock b (b + 1) b (b + 2) H ltac:(lia) ltac:(lia) ltac:(lia)).
    pose proof (span_wider clock (b + 2) (b + 3) (b + 2) (b + 4) H ltac:(lia) ltac:(lia) ltac:(lia)).
    pose proof (span_wider clock (b + 4) (b + 5) (b + 4) (b + 6) H ltac:(lia) ltac:(lia) ltac:(lia)).
    pose proof (span_wider clock (b + 6) (b + 7) (b + 6) (b + 8) H ltac:(lia) ltac:(lia) ltac:(lia)). lia.
Qed.

Lemma times_at_spans clock k o n : times_at clock k o n = map (fun j => span clock (k + 8 * j + o) (k + 8 * j + o + 1)) (seq 0 n).
Proof.
  unfold times_at. apply map_ext. intros j. unfold lap, rd, span. rewrite (Nat.add_assoc (k + 8 * j) o 1). reflexivity.
Qed.
Lemma intersect_times_none clock k : exists r, intersect_times clock k 0 = Ok r /\
  Forall (fun s => sh_total s = 0 /\ (sh_avg s == 0)%Q /\ (sh_sd2 s == 0)%Q) [it_int r; it_mon r; it_fac r; it_cap r] /\ it_total r = span clock k (k + 1).
Proof.
  assert (E : intersect_times clock k 0 = Ok {| it_int := {| sh_avg := 0; sh_sd2 := 0; sh_total := 0 |}; it_mon := {| sh_avg := 0; sh_sd2 := 0; sh_total := 0 |};
    it_fac := {| sh_avg := 0; sh_sd2 := 0; sh_total := 0 |}; it_cap := {| sh_avg := 0; sh_sd2 := 0; sh_total := 0 |}; it_total := span clock k (k + 1 + 8 * 0) |}) by reflexivity.
  rewrite Nat.mul_0_r, Nat.add_0_r in E. eexists. split; [exact E|]. split; [|reflexivity].
  repeat constructor; cbn [sh_total sh_avg sh_sd2]; reflexivity.
Qed.
Lemma intersect_times_ok clock k n : (0 < n)%nat -> Z.of_nat n < 2 ^ 61 ->
  exists r, intersect_times clock k n = Ok r /\
    shown_right (times_at clock (k + 1) 0 n) (2 * Z.of_nat n - 1) (it_int r) /\ shown_right (times_at clock (k + 1) 2 n) (2 * Z.of_nat n - 1) (it_mon r) /\
    shown_right (times_at clock (k + 1) 4 n) (2 * Z.of_nat n - 1) (it_fac r) /\ shown_right (times_at clock (k + 1) 6 n) (2 * Z.of_nat n - 1) (it_cap r) /\
    it_total r = span clock k (k + 1 + 8 * n).
Proof.
  intros H L. destruct (find_times_ok clock (k + 1) n H L) as [l [i [m [f [c [E [A [B [C [D R]]]]]]]]]].
  unfold intersect_times. rewrite E. cbn [bind].
  assert (S : BenchModel.stop (BenchModel.start (clock k)) (clock (k + 1 + 8 * n)%nat) [] =
    Ok {| BenchModel.times := [clock k; clock (k + 1 + 8 * n)%nat]; BenchModel.stopped := true; BenchModel.cursors := []; BenchModel.pauses := [false; false; false] |}) by reflexivity.
  rewrite S. cbn [bind]. rewrite A. cbn [bind]. rewrite B. cbn [bind]. rewrite C. cbn [bind]. rewrite D. cbn [bind].
  set (X := BenchModel.cumulativeBenchmark _ 0 true).
  assert (EX : X = Ok (span clock k (k + 1 + 8 * n))) by reflexivity. rewrite EX. cbn [bind].
  eexists. split; [reflexivity|]. cbn [it_int it_mon it_fac it_cap it_total]. destruct R as [R1 [R2 [R3 R4]]]. auto 10.
Qed.
