(** Proofs about polyfact. *)
From Coq Require Import QArith Lia Znumtheory.
From Verif Require Import Base Spec Lib NtlMiss NtlMissProofs StrIntModel HashBucketsModel PRFModel PRFSpec PRFProofs
  PolyModel PolySpec PolyProofs InterpProofs PolyObjProofs EopsiModel EopsiSpec EopsiProofs EopsiBlind FilesModel FilesSpec FilesProofs ToolsModel ToolsSpec.
From Verif Require BenchModel BenchSpec BenchProofs.
Open Scope Z_scope.

(** * Chronometers *)
Import BenchSpec.

Lemma run_app : forall l1 b l2, BenchModel.run b (l1 ++ l2) = (do b1 <- BenchModel.run b l1; BenchModel.run b1 l2).
Proof.
  induction l1 as [|o l1 IH]; intros b l2; cbn [app BenchModel.run bind]; [reflexivity|].
  destruct (BenchModel.exec b o); cbn [bind]; auto.
Qed.
(** one more call after a history *)
Lemma run_more l b o : BenchModel.run BenchModel.new_bm l = Ok b -> Z.of_nat (length l) + 1 < 2 ^ 63 ->
  exists b', BenchModel.exec b o = Ok b' /\ BenchModel.run BenchModel.new_bm (l ++ [o]) = Ok b'.
Proof.
  intros E L. destruct (BenchProofs.history_rel (l ++ [o])) as [b' [E' _]]; [rewrite app_length; cbn [length]; lia|].
  exists b'. split; [|exact E']. rewrite run_app, E in E'. cbn [bind BenchModel.run] in E'.
  destruct (BenchModel.exec b o); cbn [bind] in E'; congruence.
Qed.

Lemma figures_ok s log b : BenchProofs.rel (s, log) b -> Z.of_nat (length log) < 2 ^ 63 -> (2 <= length log)%nat ->
  exists f, figures_of b = Ok f /\ figures_right (running_times log) (Z.of_nat (length (intervals log))) f.
Proof.
  intros R L H2. unfold figures_of.
  destruct (BenchProofs.average_ok s log b R L H2) as [EA NZ]. rewrite EA. cbn [bind].
  assert (TF : BenchModel.too_few b true = Ok false).
  { rewrite (BenchProofs.too_few_true s log b R). destruct (Nat.ltb_spec (length log) 2); [lia|reflexivity]. }
  unfold BenchModel.standardDeviation_squared, BenchModel.min, BenchModel.max. rewrite TF. cbn [bind].
  destruct (BenchProofs.min_max_ok s log b false R L H2) as [mn [mx [E1 [I1 [I2 I3]]]]].
  destruct (BenchProofs.min_max_ok s log b true R L H2) as [mn' [mx' [E2 [I1' [I2' I3']]]]].
  assert (V : exists v, BenchModel.variance b true = Ok v).
  { unfold BenchModel.variance. rewrite TF. cbn [bind]. rewrite EA. cbn [bind].
    destruct (for_up_inv (fun _ (_ : Q) => True) (length (BenchModel.times b) - 1) 1
      (fun i var => do ps <- aget (BenchModel.pauses b) i;
        if true && negb ps then
          do d <- BenchModel.interval b i;
          let x := inject_Z (w64 d) in
          let avg := (inject_Z (sum_z (running_times log)) / inject_Z (Z.of_nat (length (running_times log))))%Q in
          let diff := if negb (Qle_bool x avg) then (x - avg)%Q else (avg - x)%Q in
          Ok (var + diff / inject_Z (Z.of_nat (length (BenchModel.times b)) - 1) * diff)%Q
        else Ok var) (0 # 1)%Q I) as [v [Ev _]].
    - intros i q Hi _. rewrite (BenchProofs.rel_length s log b R) in Hi.
      destruct (nth_error (intervals log) (i - 1)) as [[r d]|] eqn:En.
      + destruct (BenchProofs.interval_ok s log b (i - 1) r d R L En) as [A1 A2].
        replace (S (i - 1)) with i in * by lia. rewrite A2. cbn [bind]. rewrite A1. cbn [bind].
        destruct (true && negb (negb r)); eauto.
      + apply nth_error_None in En. rewrite BenchProofs.intervals_length in En. lia.
    - exists v. exact Ev. }
  destruct V as [v EV]. rewrite EV. cbn [bind]. rewrite E1. cbn [bind]. rewrite E2. cbn [bind].
  rewrite (BenchProofs.cumulative_ok s log b R L). cbn [bind].
  eexists. split; [reflexivity|]. split; [reflexivity|]. cbn [fg_avg fg_min fg_max fg_sd2]. split; [reflexivity|].
  split; [exact I1|]. split; [exact I2'|]. split.
  { intros x Hx. specialize (I3 x Hx). specialize (I3' x Hx). lia. }
  intros HX. destruct (BenchProofs.variance_ok s log b R L H2 HX) as [v' [EV' HV]].
  rewrite EV in EV'. apply Ok_inj in EV'. subst v'. rewrite HV.
  assert (SQ : forall l, BenchProofs.sum_q l = sum_q l) by (induction l as [|a l IH]; [reflexivity|]; cbn [BenchProofs.sum_q fold_right sum_q]; rewrite <- IH; reflexivity).
  rewrite SQ. reflexivity.
Qed.

(** alternating step()/pause() *)
Section Alt.
Variables t0 t1 : nat -> Z.
Definition alt (i : nat) : list BenchModel.op := [BenchModel.Step (t0 i) []; BenchModel.Pause (t1 i) []].
Definition alts (s n : nat) : list BenchModel.op := flat_map alt (seq s n).
Definition lap (i : nat) : Z := Z.quot (t1 i - t0 i) 1000.
Definition stamps (i : nat) : list stamp := [{| at_ := t0 i; label := []; ran := false |}; {| at_ := t1 i; label := []; ran := true |}].

Lemma alts_length s n : length (alts s n) = (2 * n)%nat.
Proof. revert s. induction n as [|n IH]; intros s; [reflexivity|]. unfold alts in *. cbn [seq flat_map alt app length]. rewrite IH. lia. Qed.
Lemma alts_snoc n : alts 0 (S n) = alts 0 n ++ alt n.
Proof. unfold alts. rewrite seq_S, flat_map_app. cbn [flat_map Nat.add]. rewrite app_nil_r. reflexivity. Qed.
Lemma alts_run n : forall s log, log <> [] -> fold_left c_exec (alts s n) (Paused, log) = (Paused, log ++ flat_map stamps (seq s n)).
Proof.
  induction n as [|n IH]; intros s log H; [cbn; rewrite app_nil_r; reflexivity|].
  unfold alts in *. cbn [seq flat_map alt app fold_left]. destruct log as [|a log]; [congruence|].
  cbn [c_exec c_step app]. rewrite IH by discriminate. cbn [app]. rewrite <- !app_assoc. reflexivity.
Qed.
Lemma stamps_length m : forall s, length (flat_map stamps (seq s m)) = (2 * m)%nat.
Proof. induction m as [|m IH]; intros s; [reflexivity|]. cbn [seq flat_map stamps app length]. rewrite IH. lia. Qed.
Lemma alts_times n : forall s x, running_times (x :: flat_map stamps (seq s n)) = map lap (seq s n) /\
  length (intervals (x :: flat_map stamps (seq s n))) = (2 * n)%nat.
Proof.
  induction n as [|n IH]; intros s x; [split; reflexivity|].
  destruct (IH (S s) {| at_ := t1 s; label := []; ran := true |}) as [E1 E2].
  split.
  - unfold running_times in *. cbn [seq flat_map stamps app intervals ran at_ filter fst map]. cbn [snd]. f_equal. exact E1.
  - rewrite BenchProofs.intervals_length. cbn [length]. rewrite stamps_length. lia.
Qed.
Lemma alts_stop n t : (0 < n)%nat -> exists log, c_run (alts 0 n ++ [BenchModel.Stop t []]) = (Stopped, log) /\
  length log = (2 * n)%nat /\ running_times log = map lap (seq 0 n) /\ length (intervals log) = (2 * n - 1)%nat.
Proof.
  intros H. destruct n as [|n]; [lia|]. unfold c_run. rewrite fold_left_app.
  exists (flat_map stamps (seq 0 (S n))).
  assert (E : fold_left c_exec (alts 0 (S n)) fresh = (Paused, flat_map stamps (seq 0 (S n)))).
  { unfold alts. cbn [seq flat_map alt app fold_left]. cbn [c_exec c_step fresh app].
    pose proof (alts_run n 1 [{| at_ := t0 0%nat; label := []; ran := false |}; {| at_ := t1 0%nat; label := []; ran := true |}]) as A.
    unfold alts in A. rewrite A by discriminate. reflexivity. }
  rewrite E. split; [reflexivity|].
  split; [apply stamps_length|]. destruct (alts_times n 1 {| at_ := t1 0%nat; label := []; ran := true |}) as [E1 E2]. split.
  - unfold running_times in *. cbn [seq flat_map stamps app intervals ran at_ filter fst map snd]. f_equal. exact E1.
  - rewrite BenchProofs.intervals_length, stamps_length. reflexivity.
Qed.
(** the figures after n laps *)
Lemma alts_figures n t b : (0 < n)%nat -> Z.of_nat n < 2 ^ 61 -> BenchModel.run BenchModel.new_bm (alts 0 n) = Ok b ->
  exists b' f, BenchModel.stop b t [] = Ok b' /\ figures_of b' = Ok f /\ figures_right (map lap (seq 0 n)) (2 * Z.of_nat n - 1) f.
Proof.
  intros H L E. destruct (run_more _ b (BenchModel.Stop t []) E) as [b' [E1 E2]]; [rewrite alts_length; lia|].
  exists b'. destruct (BenchProofs.history_rel (alts 0 n ++ [BenchModel.Stop t []])) as [b2 [E3 [R LR]]].
  { rewrite app_length, alts_length. cbn [length]. lia. }
  rewrite E2 in E3. apply Ok_inj in E3. subst b2.
  destruct (alts_stop n t H) as [log [EL [LL [RT IL]]]]. rewrite EL in R, LR. cbn [snd] in LR.
  destruct (figures_ok _ log b' R LR ltac:(lia)) as [f [Ef Rf]].
  exists f. split; [exact E1|]. split; [exact Ef|]. rewrite RT, IL in Rf.
  replace (2 * Z.of_nat n - 1) with (Z.of_nat (2 * n - 1)) by lia. exact Rf.
Qed.
End Alt.

(** * polyfact: arguments *)
Lemma pparse_ok os : forall a, Forall (fun o => ~ pbad o /\ popt_long o) os ->
  0 < pf_bits a < 2 ^ 63 -> 0 <= pf_degree a < 2 ^ 63 -> 0 < pf_n a < 2 ^ 63 ->
  pparse os a = Ok {| pf_bits := last_of opt_pbits (pf_bits a) os; pf_degree := last_of opt_pdegree (pf_degree a) os;
                      pf_n := last_of opt_pcount (pf_n a) os; pf_quiet := pf_quiet a || quiet_asked os |} /\
  0 < last_of opt_pbits (pf_bits a) os < 2 ^ 63 /\ 0 <= last_of opt_pdegree (pf_degree a) os < 2 ^ 63 /\
  0 < last_of opt_pcount (pf_n a) os < 2 ^ 63.
Proof.
  induction os as [|o os IH]; intros a F B D N.
  - cbn. rewrite orb_false_r. destruct a; auto.
  - inversion F as [|x y [NB L] F']; subst.
    assert (W : forall z, 0 <= z < 2 ^ 63 -> w64 z = z) by (intros z Hz; apply w64_small; unfold M64; lia).
    destruct o as [z|z|z| |]; cbn [pbad popt_long] in NB, L; cbn [pparse last_of fold_left opt_pbits opt_pdegree opt_pcount].
    + destruct (Z.leb_spec z 0); [lia|]. rewrite (W z) by lia.
      apply (IH {| pf_bits := z; pf_degree := pf_degree a; pf_n := pf_n a; pf_quiet := pf_quiet a |} F'); cbn; lia.
    + destruct (Z.ltb_spec z 0); [lia|]. rewrite (W z) by lia.
      apply (IH {| pf_bits := pf_bits a; pf_degree := z; pf_n := pf_n a; pf_quiet := pf_quiet a |} F'); cbn; lia.
    + destruct (Z.leb_spec z 0); [lia|]. rewrite (W z) by lia.
      apply (IH {| pf_bits := pf_bits a; pf_degree := pf_degree a; pf_n := z; pf_quiet := pf_quiet a |} F'); cbn; lia.
    + destruct (IH {| pf_bits := pf_bits a; pf_degree := pf_degree a; pf_n := pf_n a; pf_quiet := true |} F' B D N) as [E R].
      split; [|exact R]. rewrite E. cbn [pf_bits pf_degree pf_n pf_quiet orb quiet_asked existsb]. rewrite orb_true_r. reflexivity.
    + exfalso. apply NB. exact Logic.I.
Qed.
Lemma pparse_bad os1 o os2 : forall a, Forall (fun o => ~ pbad o) os1 -> pbad o -> pparse (os1 ++ o :: os2) a = Exit 1.
Proof.
  induction os1 as [|q os1 IH]; intros a F B; cbn [app pparse].
  - destruct o as [z|z|z| |]; cbn [pbad] in B; try contradiction; [| | |reflexivity].
    + destruct (Z.leb_spec z 0); [reflexivity|lia].
    + destruct (Z.ltb_spec z 0); [reflexivity|lia].
    + destruct (Z.leb_spec z 0); [reflexivity|lia].
  - inversion F; subst. destruct q as [z|z|z| |]; cbn [pbad] in H1; try (apply IH; assumption); [| | |exfalso; auto].
    + destruct (Z.leb_spec z 0); [lia|apply IH; assumption].
    + destruct (Z.ltb_spec z 0); [lia|apply IH; assumption].
    + destruct (Z.leb_spec z 0); [lia|apply IH; assumption].
Qed.

(** * polyfact: the experiments *)
Section PF.
Variable p : Z.
Hypothesis Hp : 1 < p.
Hypothesis Hnb : num_bits p + 7 < 2 ^ 64.
Variable sha : list Z -> list Z.
Hypothesis HS : is_sha sha.
Variable rand : nat -> Z.
Variable fuel : nat.

Lemma zp_full0 st seed index : zp_inv p st ->
  exists st', zp_generate sha rand p fuel st seed (index mod 2 ^ 64) 0 = Ok (st', drawn sha p seed index) /\ zp_inv p st'.
Proof.
  intros [W M]. destruct (zp_generate_ok sha HS rand p fuel st seed (index mod 2 ^ 64) 0 W) as [st' [E [W' [M' _]]]].
  - rewrite M. apply p_mod_ok; assumption.
  - lia.
  - exists st'. rewrite E. split; [|split; [exact W'|congruence]].
    unfold zp_value, drawn, zp_width. rewrite M. cbn [Z.eqb]. reflexivity.
Qed.
Lemma drawn_field seed index : in_field p (drawn sha p seed index).
Proof. apply Z.mod_pos_bound. lia. Qed.

Definition proots (seed : Z) (d j : nat) : list Z := map (fun i => drawn sha p seed (Z.of_nat (j * d + i))) (seq 0 d).

Lemma pf_roots_ok seed d j : forall zp roots, zp_inv p zp -> length roots = d ->
  exists zp', pf_roots sha rand fuel p d seed (zp, mask_pos d j 0, roots) = Ok (zp', mask_pos d (S j) 0, proots seed d j) /\ zp_inv p zp'.
Proof.
  intros zp roots I L. unfold pf_roots.
  set (g := fun i => drawn sha p seed (Z.of_nat (j * d + i))).
  destruct (for_up_inv (fun i '(zp, k, r) => zp_inv p zp /\ k = mask_pos d j i /\ r = map g (seq 0 i) ++ skipn i roots) d 0
     (fun i '(zp, k, roots) =>
       do (zp1, v) <- zp_generate sha rand p fuel zp seed k 0;
       do roots1 <- aset roots i v;
       Ok (zp1, w64 (k + 1), roots1)) (zp, mask_pos d j 0, roots)) as [[[zp' ix] r] [E [I' [X R]]]].
  - split; [exact I|]. split; reflexivity.
  - intros i [[z x] r] Hi [Iz [X R]]. cbn [Nat.add] in Hi.
    rewrite X. unfold mask_pos at 1. destruct (zp_full0 z seed (Z.of_nat (j * d + i)) Iz) as [z' [Ez Iz']]. rewrite Ez. cbn [bind].
    assert (LS : length (skipn i roots) = S (d - S i)) by (rewrite skipn_length; lia).
    destruct (skipn i roots) as [|a t] eqn:Es; [discriminate|].
    assert (ES : skipn (S i) roots = t).
    { replace (S i) with (1 + i)%nat by lia. rewrite <- skipn_skipn, Es. reflexivity. }
    assert (ST : aset r i (g i) = Ok (map g (seq 0 i) ++ g i :: t)).
    { rewrite R. pose proof (mid_set (map g (seq 0 i)) a t (g i)) as M. rewrite map_length, seq_length in M. exact M. }
    change (drawn sha p seed (Z.of_nat (j * d + i))) with (g i). rewrite ST. cbn [bind]. eexists. split; [reflexivity|].
    split; [exact Iz'|]. split; [apply mask_step|]. rewrite map_seq_S, <- app_assoc, ES. reflexivity.
  - cbn [Nat.add] in *. rewrite E. exists zp'. split; [|exact I']. rewrite X, R, mask_row, skipn_all2 by lia. rewrite app_nil_r. reflexivity.
Qed.

Variable clock : nat -> Z.
Variable canzass : nat -> poly -> list (poly * Z).
#[local] Notation gen0 := (fun j => clock (4 * j)%nat).
#[local] Notation gen1 := (fun j => clock (4 * j + 1)%nat).
#[local] Notation fac0 := (fun j => clock (4 * j + 2)%nat).
#[local] Notation fac1 := (fun j => clock (4 * j + 3)%nat).
Definition ppoly (seed : Z) (d j : nat) : poly := build_from_roots p (proots seed d j).
Definition dots_at (a : pargs) (j : nat) : Z :=
  if pf_quiet a then 0 else (Z.of_nat j + pf_n a / 10 - 1) / (pf_n a / 10).

Lemma dots_step q j : 0 < q -> 0 <= j -> (j + q - 1) / q + (if j mod q =? 0 then 1 else 0) = (j + 1 + q - 1) / q.
Proof.
  intros Hq Hj. pose proof (Z.div_mod j q ltac:(lia)) as E. pose proof (Z.mod_pos_bound j q Hq) as B.
  replace (j + 1 + q - 1) with (j + 1 * q) by lia. rewrite Z.div_add by lia.
  set (a := j / q) in *. set (r := j mod q) in *. destruct (Z.eqb_spec r 0) as [e|e].
  - replace (j + q - 1) with (a * q + (q - 1)) by lia. rewrite Z.div_add_l by lia. rewrite (Z.div_small (q - 1)) by lia. lia.
  - replace (j + q - 1) with ((a + 1) * q + (r - 1)) by lia. rewrite Z.div_add_l by lia. rewrite (Z.div_small (r - 1)) by lia. lia.
Qed.

Lemma pf_round_ok a seed j : forall zp roots polys bg bf,
  (pf_quiet a = true \/ 10 <= pf_n a) -> zp_inv p zp -> length roots = Z.to_nat (pf_degree a) -> (j < length polys)%nat ->
  Z.of_nat j < 2 ^ 61 ->
  BenchModel.run BenchModel.new_bm (alts gen0 gen1 0 j) = Ok bg -> BenchModel.run BenchModel.new_bm (alts fac0 fac1 0 j) = Ok bf ->
  exists zp' bg' bf',
    pf_round sha rand fuel clock canzass p a seed j
      (zp, mask_pos (Z.to_nat (pf_degree a)) j 0, roots, polys, bg, bf, dots_at a j) =
    Ok (zp', mask_pos (Z.to_nat (pf_degree a)) (S j) 0, proots seed (Z.to_nat (pf_degree a)) j,
        upd polys j (ppoly seed (Z.to_nat (pf_degree a)) j), bg', bf', dots_at a (S j)) /\ zp_inv p zp' /\
    BenchModel.run BenchModel.new_bm (alts gen0 gen1 0 (S j)) = Ok bg' /\ BenchModel.run BenchModel.new_bm (alts fac0 fac1 0 (S j)) = Ok bf'.
Proof.
  intros zp roots polys bg bf Q I LR LP LJ EG EF. unfold pf_round.
  set (d := Z.to_nat (pf_degree a)) in *.
  destruct (run_more _ bg (BenchModel.Step (gen0 j) []) EG) as [bg1 [G1 R1]]; [rewrite alts_length; lia|].
  cbn [BenchModel.exec] in G1. rewrite G1. cbn [bind].
  destruct (pf_roots_ok seed d j zp roots I LR) as [zp' [ER I']]. rewrite ER. cbn [bind].
  fold (ppoly seed d j). rewrite aset_ok by exact LP. cbn [bind].
  destruct (run_more _ bg1 (BenchModel.Pause (gen1 j) []) R1) as [bg2 [G2 R2]]; [rewrite app_length, alts_length; cbn [length]; lia|].
  cbn [BenchModel.exec] in G2. rewrite G2. cbn [bind].
  destruct (run_more _ bf (BenchModel.Step (fac0 j) []) EF) as [bf1 [G3 R3]]; [rewrite alts_length; lia|].
  cbn [BenchModel.exec] in G3. rewrite G3. cbn [bind].
  assert (LC : lead_coeff (ppoly seed d j) = 1).
  { destruct (build_shape p (proots seed d j) Hp) as [[_ [N1 L1]] _]. fold (ppoly seed d j) in N1, L1. unfold lead_coeff. exact L1. }
  unfold fact_call. rewrite LC. cbn [Z.eqb Pos.eqb bind].
  destruct (run_more _ bf1 (BenchModel.Pause (fac1 j) []) R3) as [bf2 [G4 R4]]; [rewrite app_length, alts_length; cbn [length]; lia|].
  cbn [BenchModel.exec] in G4. rewrite G4. cbn [bind].
  rewrite <- app_assoc in R2, R4.
  assert (DT : (if pf_quiet a then Ok (dots_at a j)
     else if pf_n a / 10 =? 0 then UB DivByZero
     else Ok (if Z.of_nat j mod (pf_n a / 10) =? 0 then dots_at a j + 1 else dots_at a j)) = Ok (dots_at a (S j))).
  { unfold dots_at. destruct (pf_quiet a); [reflexivity|]. destruct Q as [Q|Q]; [discriminate|].
    assert (0 < pf_n a / 10) by (apply Z.div_str_pos; lia).
    destruct (Z.eqb_spec (pf_n a / 10) 0); [lia|]. f_equal.
    replace (Z.of_nat (S j)) with (Z.of_nat j + 1) by lia. rewrite <- dots_step by lia.
    destruct (Z.of_nat j mod (pf_n a / 10) =? 0); lia. }
  rewrite DT. cbn [bind]. exists zp', bg2, bf2. split; [reflexivity|]. split; [exact I'|].
  rewrite !alts_snoc. split; [exact R2|exact R4].
Qed.

Lemma pf_rounds_ok a seed pos : 0 < pf_n a < 2 ^ 61 -> 0 <= pf_degree a -> (pf_quiet a = true \/ 10 <= pf_n a) ->
  let n := Z.to_nat (pf_n a) in let d := Z.to_nat (pf_degree a) in
  exists zp k roots bg bf,
    for_up n 0 (pf_round sha rand fuel clock canzass p a seed)
      (new_zpprf p pos, 0, repeat 0 d, repeat [] n, BenchModel.new_bm, BenchModel.new_bm, 0) =
    Ok (zp, k, roots, map (ppoly seed d) (seq 0 n), bg, bf, dots_at a n) /\
    BenchModel.run BenchModel.new_bm (alts gen0 gen1 0 n) = Ok bg /\ BenchModel.run BenchModel.new_bm (alts fac0 fac1 0 n) = Ok bf.
Proof.
  intros N DG Q n d.
  destruct (for_up_inv (fun j '(zp, k, roots, polys, bg, bf, dots) => zp_inv p zp /\ k = mask_pos d j 0 /\ length roots = d /\
       polys = map (ppoly seed d) (seq 0 j) ++ repeat [] (n - j) /\
       BenchModel.run BenchModel.new_bm (alts gen0 gen1 0 j) = Ok bg /\ BenchModel.run BenchModel.new_bm (alts fac0 fac1 0 j) = Ok bf /\
       dots = dots_at a j) n 0 (pf_round sha rand fuel clock canzass p a seed)
      (new_zpprf p pos, 0, repeat 0 d, repeat [] n, BenchModel.new_bm, BenchModel.new_bm, 0))
    as [[[[[[[zp k] roots] polys] bg] bf] dots] [E [_ [_ [_ [EP [EG [EF ED]]]]]]]].
  - split; [split; [apply new_prf_wf|reflexivity]|]. split; [reflexivity|]. split; [apply repeat_length|].
    rewrite Nat.sub_0_r. split; [reflexivity|]. split; [reflexivity|]. split; [reflexivity|].
    unfold dots_at. destruct (pf_quiet a); [reflexivity|]. destruct Q as [Q|Q]; [discriminate|].
    assert (0 < pf_n a / 10) by (apply Z.div_str_pos; lia). symmetry. apply Z.div_small. lia.
  - intros j [[[[[[zp k] roots] polys] bg] bf] dots] Hj [I [X [LR [EP [EG [EF ED]]]]]]. cbn [Nat.add] in Hj.
    destruct (pf_round_ok a seed j zp roots polys bg bf Q I LR) as [zp' [bg' [bf' [E [I' [EG' EF']]]]]]; try assumption.
    + rewrite EP, app_length, map_length, seq_length, repeat_length. lia.
    + lia.
    + rewrite X, ED. fold d in E. rewrite E. eexists. split; [reflexivity|]. split; [exact I'|]. split; [reflexivity|].
      split; [unfold proots; rewrite map_length, seq_length; reflexivity|]. split; [|auto].
      rewrite EP. replace (n - j)%nat with (S (n - S j)) by lia. cbn [repeat].
      pose proof (mid_set (map (ppoly seed d) (seq 0 j)) [] (repeat [] (n - S j)) (ppoly seed d j)) as M.
      rewrite map_length, seq_length in M. rewrite aset_ok in M by (rewrite app_length, map_length, seq_length; cbn [length]; lia).
      apply Ok_inj in M. rewrite M. rewrite map_seq_S, <- app_assoc. reflexivity.
  - exists zp, k, roots, bg, bf. cbn [Nat.add] in *. rewrite E. split; [|auto]. rewrite EP, ED, Nat.sub_diag. cbn [repeat]. rewrite app_nil_r. reflexivity.
Qed.
End PF.

(** between ten and nineteen dots *)
Lemma dots_range n : 10 <= n -> 10 <= (n + n / 10 - 1) / (n / 10) <= 19.
Proof.
  intros H. assert (Q : 0 < n / 10) by (apply Z.div_str_pos; lia).
  pose proof (Z.div_mod n 10 ltac:(lia)) as E. pose proof (Z.mod_pos_bound n 10 ltac:(lia)) as M.
  set (q := n / 10) in *. split.
  - apply Z.div_le_lower_bound; lia.
  - apply Z.lt_succ_r. apply Z.div_lt_upper_bound; lia.
Qed.

Section PFMain.
Variable sha : list Z -> list Z.
Hypothesis HS : is_sha sha.
Variable rand : nat -> Z.
Variable fuel : nat.
Variable found : Z -> Z.
Variable clock : nat -> Z.
Variable canzass : nat -> poly -> list (poly * Z).

Lemma num_bits_big p : 2 <= num_bits p -> 0 <= p -> 1 < p.
Proof.
  unfold num_bits. intros H P. destruct (Z.eqb_spec p 0); [lia|].
  rewrite Z.abs_eq in H by lia. destruct (Z.eq_dec p 1); [subst; cbn in H; lia|lia].
Qed.
Lemma polyfact_tiny os now pos : Forall (fun o => ~ pbad o /\ popt_long o) os -> last_of opt_pbits 128 os = 1 ->
  polyfact sha rand fuel found clock canzass os now pos = Abort.
Proof.
  intros F B. destruct (pparse_ok os pdefault F) as [E _]; [cbn; lia|cbn; lia|cbn; lia|].
  unfold polyfact. rewrite E. cbn [bind pf_bits pdefault]. rewrite B. reflexivity.
Qed.
Lemma polyfact_few os now pos : Forall (fun o => ~ pbad o /\ popt_long o) os -> 1 < last_of opt_pbits 128 os ->
  1 < found (last_of opt_pbits 128 os) -> num_bits (found (last_of opt_pbits 128 os)) + 7 < 2 ^ 64 ->
  quiet_asked os = false -> last_of opt_pcount 100 os < 10 ->
  polyfact sha rand fuel found clock canzass os now pos = UB DivByZero.
Proof.
  intros F B P1 NB Q N. destruct (pparse_ok os pdefault F) as [E [RB [RD RN]]]; [cbn; lia|cbn; lia|cbn; lia|].
  unfold polyfact. rewrite E. cbn [pf_bits pf_degree pf_n pf_quiet pdefault] in *. rewrite Q in *. cbn [orb bind pf_bits pf_degree pf_n pf_quiet] in *.
  set (b := last_of opt_pbits 128 os) in *. set (n := last_of opt_pcount 100 os) in *. set (d := last_of opt_pdegree 60 os) in *.
  unfold gen_prime. rewrite (s64_small b) by lia. destruct (Z.leb_spec b 1); [lia|]. cbn [bind].
  set (p := found b) in *. clearbody p.
  destruct (Z.to_nat n) as [|m] eqn:Em; [lia|]. cbn [for_up].
  match goal with |- context [bind (pf_round ?a1 ?a2 ?a3 ?a4 ?a5 ?a6 ?a ?s ?j ?st) _] => set (X := pf_round a1 a2 a3 a4 a5 a6 a s j st) end.
  assert (EX : X = UB DivByZero); [|rewrite EX; reflexivity].
  unfold X, pf_round. cbn [BenchModel.step BenchModel.new_bm].
  destruct (run_more [] BenchModel.new_bm (BenchModel.Step (clock (4 * 0)%nat) []) eq_refl) as [bg1 [G1 R1]]; [cbn; lia|].
  cbn [BenchModel.exec] in G1. rewrite G1. cbn [bind pf_degree pf_quiet pf_n].
  destruct (pf_roots_ok p P1 NB sha HS rand fuel (now mod p) (Z.to_nat d) 0 (new_zpprf p pos) (repeat 0 (Z.to_nat d))) as [zp' [ER _]].
  { split; [apply new_prf_wf|reflexivity]. }
  { apply repeat_length. }
  change (mask_pos (Z.to_nat d) 0 0) with 0 in ER. rewrite ER. cbn [bind].
  rewrite aset_ok by (cbn [repeat length]; lia). cbn [bind].
  destruct (run_more _ bg1 (BenchModel.Pause (clock (4 * 0 + 1)%nat) []) R1) as [bg2 [G2 R2]]; [cbn; lia|].
  cbn [BenchModel.exec] in G2. rewrite G2. cbn [bind].
  destruct (run_more [] BenchModel.new_bm (BenchModel.Step (clock (4 * 0 + 2)%nat) []) eq_refl) as [bf1 [G3 R3]]; [cbn; lia|].
  cbn [BenchModel.exec] in G3. rewrite G3. cbn [bind].
  assert (LC : lead_coeff (build_from_roots p (proots p sha (now mod p) (Z.to_nat d) 0)) = 1).
  { destruct (build_shape p (proots p sha (now mod p) (Z.to_nat d) 0) P1) as [[_ [N1 L1]] _]. exact L1. }
  unfold fact_call. rewrite LC. cbn [Z.eqb Pos.eqb bind].
  destruct (run_more _ bf1 (BenchModel.Pause (clock (4 * 0 + 3)%nat) []) R3) as [bf2 [G4 R4]]; [cbn; lia|].
  cbn [BenchModel.exec] in G4. rewrite G4. cbn [bind].
  rewrite (Z.div_small n 10) by lia. reflexivity.
Qed.
Lemma polyfact_ok os now pos : Forall (fun o => ~ pbad o /\ popt_long o) os -> 1 < last_of opt_pbits 128 os ->
  let p := found (last_of opt_pbits 128 os) in
  let n := Z.to_nat (last_of opt_pcount 100 os) in
  let d := Z.to_nat (last_of opt_pdegree 60 os) in
  1 < p -> num_bits p + 7 < 2 ^ 64 -> last_of opt_pcount 100 os < 2 ^ 61 ->
  quiet_asked os = true \/ 10 <= last_of opt_pcount 100 os ->
  exists r, polyfact sha rand fuel found clock canzass os now pos = Ok r /\ pr_modulo r = p /\
    pr_polys r = map (ppoly p sha (now mod p) d) (seq 0 n) /\
    pr_dots r = (if quiet_asked os then 0
                 else (last_of opt_pcount 100 os + last_of opt_pcount 100 os / 10 - 1) / (last_of opt_pcount 100 os / 10)) /\
    figures_right (map (fun j => Z.quot (clock (4 * j + 3)%nat - clock (4 * j + 2)%nat) 1000) (seq 0 n)) (2 * Z.of_nat n - 1) (pr_fact r) /\
    match pr_gen r with
    | Some g => quiet_asked os = false /\
        figures_right (map (fun j => Z.quot (clock (4 * j + 1)%nat - clock (4 * j)%nat) 1000) (seq 0 n)) (2 * Z.of_nat n - 1) g
    | None => quiet_asked os = true
    end.
Proof.
  intros F B p n d P1 NB N61 Q. destruct (pparse_ok os pdefault F) as [E [RB [RD RN]]]; [cbn; lia|cbn; lia|cbn; lia|].
  unfold polyfact. rewrite E. cbn [pf_bits pf_degree pf_n pf_quiet pdefault] in *.
  cbn [orb bind pf_bits pf_degree pf_n pf_quiet] in *.
  unfold gen_prime. rewrite (s64_small (last_of opt_pbits 128 os)) by lia.
  destruct (Z.leb_spec (last_of opt_pbits 128 os) 1); [lia|]. cbn [bind]. fold p n d.
  destruct (pf_rounds_ok p P1 NB sha HS rand fuel clock canzass
    {| pf_bits := last_of opt_pbits 128 os; pf_degree := last_of opt_pdegree 60 os; pf_n := last_of opt_pcount 100 os; pf_quiet := quiet_asked os |}
    (now mod p) pos) as [zp [k [roots [bg [bf [ER [EG EF]]]]]]]; cbn [pf_n pf_degree pf_quiet]; [lia|lia|exact Q|].
  cbn [pf_n pf_degree pf_quiet] in ER, EG, EF. fold n d in ER, EG, EF. rewrite ER. cbn [bind].
  assert (HN : (0 < n)%nat) by (unfold n; lia). assert (HN61 : Z.of_nat n < 2 ^ 61) by (unfold n; lia).
  destruct (alts_figures _ _ n (clock (4 * n)%nat) bg HN HN61 EG) as [bg1 [g [G1 [G2 G3]]]]. rewrite G1. cbn [bind].
  destruct (alts_figures _ _ n (clock (4 * n + 1)%nat) bf HN HN61 EF) as [bf1 [f [F1 [F2 F3]]]]. rewrite F1. cbn [bind].
  assert (NZ : Z.of_nat n = last_of opt_pcount 100 os) by (unfold n; rewrite Z2Nat.id; lia).
  destruct (quiet_asked os) eqn:EQ.
  - cbn [bind]. rewrite F2. cbn [bind]. eexists. split; [reflexivity|]. cbn [pr_modulo pr_polys pr_dots pr_gen pr_fact].
    split; [reflexivity|]. split; [reflexivity|]. split; [reflexivity|]. split; [exact F3|reflexivity].
  - rewrite G2. cbn [bind]. rewrite F2. cbn [bind]. eexists. split; [reflexivity|]. cbn [pr_modulo pr_polys pr_dots pr_gen pr_fact].
    split; [reflexivity|]. split; [reflexivity|]. split.
    + unfold dots_at. cbn [pf_quiet pf_n]. rewrite NZ. reflexivity.
    + split; [exact F3|]. split; [reflexivity|exact G3].
Qed.

End PFMain.
