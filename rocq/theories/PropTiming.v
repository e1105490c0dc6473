(** Properties C101-C103: the times printed by the parties and the simulator. *)
From Coq Require Import QArith Lia.
From Verif Require Import Base Spec Lib FilesSpec ToolsSpec TimingModel TimingSpec TimingProofs.
Open Scope Z_scope.

(** C101: what intersect() prints.  Bucket j is worked on between readings
    8j+1 and 8j+8 after the k-th: interpolation, monicisation, factorisation,
    filtering. *)
Theorem C101_intersection_times : forall clock k n, (0 < n)%nat -> Z.of_nat n < 2 ^ 60 ->
  let spent o := map (fun j => span clock (k + 1 + 8 * j + o) (k + 1 + 8 * j + o + 1)) (seq 0 n) in
  exists r, intersect_times clock k n = Ok r /\
    shown_right (spent 0%nat) (2 * Z.of_nat n - 1) (it_int r) /\ shown_right (spent 2%nat) (2 * Z.of_nat n - 1) (it_mon r) /\
    shown_right (spent 4%nat) (2 * Z.of_nat n - 1) (it_fac r) /\ shown_right (spent 6%nat) (2 * Z.of_nat n - 1) (it_cap r) /\
    it_total r = span clock k (k + 1 + 8 * n) /\
    (steady clock -> sh_total (it_int r) + sh_total (it_mon r) + sh_total (it_fac r) + sh_total (it_cap r) <= it_total r).
Proof.
  intros clock k n H L spent. destruct (intersect_times_ok clock k n H ltac:(lia)) as [r [E [A [B [C [D T]]]]]].
  rewrite times_at_spans in A, B, C, D. exists r. split; [exact E|]. split; [exact A|]. split; [exact B|]. split; [exact C|]. split; [exact D|]. split; [exact T|].
  intros S. pose proof (laps_sum clock (k + 1) n S) as LS. rewrite !times_at_spans in LS.
  destruct A as [-> _]. destruct B as [-> _]. destruct C as [-> _]. destruct D as [-> _]. rewrite T.
  pose proof (span_wider clock (k + 1) (k + 1 + 8 * n) k (k + 1 + 8 * n) S ltac:(lia) ltac:(lia) ltac:(lia)). lia.
Qed.
Theorem C101_no_buckets : forall clock k, exists r, intersect_times clock k 0 = Ok r /\
  Forall (fun s => sh_total s = 0 /\ (sh_avg s == 0)%Q /\ (sh_sd2 s == 0)%Q) [it_int r; it_mon r; it_fac r; it_cap r] /\
  it_total r = span clock k (k + 1).
Proof. exact intersect_times_none. Qed.
Print Assumptions C101_intersection_times.
Print Assumptions C101_no_buckets.

(** C102: the helper's time leaves out the call to the server (readings 1 to
    2), the server's time is that of the whole request, the requester's
    reception time ends before the intersection is computed *)
Theorem C102_party_times : forall clock,
  helper_time clock = Ok (span clock 0 1 + span clock 2 3) /\
  server_time clock = Ok (span clock 0 1) /\
  (forall n, output_times clock false n = Ok (None, span clock 0 1)) /\
  (forall n, Z.of_nat n < 2 ^ 60 -> exists it, intersect_times clock 2 n = Ok it /\
     output_times clock true n = Ok (Some (it, span clock 0 1 + span clock 1 (4 + 8 * n)), span clock 0 1) /\
     (steady clock -> it_total it <= span clock 1 (4 + 8 * n))).
Proof.
  intros clock. split; [reflexivity|]. split; [reflexivity|]. split; [reflexivity|]. intros n L.
  assert (X : exists it, intersect_times clock 2 n = Ok it /\ it_total it = span clock 2 (2 + 1 + 8 * n)).
  { destruct n as [|n].
    - destruct (intersect_times_none clock 2) as [r [E [_ T]]]. exists r. auto.
    - destruct (intersect_times_ok clock 2 (S n)) as [r [E [_ [_ [_ [_ T]]]]]]; [lia|lia|]. exists r. auto. }
  destruct X as [it [E T]]. exists it. split; [exact E|]. split.
  - unfold output_times.
    match goal with |- context [BenchModel.step ?b ?t ?s] => assert (E1 : exists b1, BenchModel.step b t s = Ok b1 /\ b1 =
      BenchModel.takeTime (BenchModel.start (clock 0%nat)) (clock 1%nat) false s_unsure) by (eexists; split; reflexivity) end.
    destruct E1 as [b1 [E1 ->]]. rewrite E1. cbn [bind]. rewrite E. cbn [bind]. reflexivity.
  - intros S. rewrite T. apply span_wider; [exact S|lia|lia|lia].
Qed.
Print Assumptions C102_party_times.

(** C103: the times of the simulator; the time reported for the protocol
    includes the plain intersection and leaves out the blinding *)
Theorem C103_simulator_times : forall clock, exists r, simulator_times clock = Ok r /\
  (sm_common r, sm_dataA r, sm_dataB r) = (span clock 0 1, span clock 1 2, span clock 2 3) /\
  (sm_blindA r, sm_blindB r) = (span clock 4 5, span clock 5 6) /\
  (sm_outsourcing r, sm_request r, sm_plain r, sm_check r) = (span clock 7 8, span clock 10 11, span clock 9 10, span clock 12 13) /\
  sm_protocol r = span clock 7 8 + span clock 8 9 + sm_plain r + span clock 10 11 + span clock 11 12.
Proof.
  intros clock.
  assert (E : exists e s, e = span clock 0 1 + span clock 1 2 + span clock 2 3 + span clock 3 4 + span clock 4 5 + span clock 5 6 + span clock 6 7 + span clock 7 8 +
      span clock 8 9 + span clock 9 10 + span clock 10 11 + span clock 11 12 /\
    s = span clock 0 1 + span clock 1 2 + span clock 2 3 + span clock 3 4 + span clock 4 5 + span clock 5 6 + span clock 6 7 /\
    simulator_times clock = Ok {| sm_common := span clock 0 1; sm_dataA := span clock 1 2; sm_dataB := span clock 2 3; sm_blindA := span clock 4 5; sm_blindB := span clock 5 6;
      sm_outsourcing := span clock 7 8; sm_request := span clock 10 11; sm_plain := span clock 9 10; sm_protocol := e - s; sm_check := span clock 12 13 |}).
  { eexists _, _. split; [reflexivity|]. split; [reflexivity|]. reflexivity. }
  destruct E as [e [s [He [Hs E]]]]. eexists. split; [exact E|]. cbn [sm_common sm_dataA sm_dataB sm_blindA sm_blindB sm_outsourcing sm_request sm_plain sm_check sm_protocol].
  repeat split. lia.
Qed.
Print Assumptions C103_simulator_times.

Example C101_nonvacuous : steady (fun i => Z.of_nat i * 5000) /\
  match intersect_times (fun i => Z.of_nat i * 5000) 3 2 with
  | Ok r => sh_total (it_fac r) = 10 /\ (sh_avg (it_fac r) == 5)%Q /\ it_total r = 85 | _ => False end.
Proof. split; [intros i; lia|]. vm_compute. repeat split. Qed.
Example C102_nonvacuous : helper_time (fun i => nth i [0; 7000; 100000; 102999] 0) = Ok 9 /\
  match output_times (fun i => Z.of_nat i * 5000) true 2 with Ok (Some (it, t), u) => t = 100 /\ u = 5 /\ it_total it = 85 | _ => False end.
Proof. vm_compute. repeat split. Qed.
Example C103_nonvacuous : match simulator_times (fun i => Z.of_nat (i * i) * 1000) with Ok r => sm_protocol r = 95 /\ sm_plain r = 19 | _ => False end.
Proof. vm_compute. repeat split. Qed.
