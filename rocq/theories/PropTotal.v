(** C130: the probability of a wrong or missing result over everything random:
    where an ideal hash function puts the data, the dummies, the coefficients. *)
From Coq Require Import Reals Lra Znumtheory Permutation.
From Verif Require Import Base Spec Lib NtlMiss NtlMissProofs StrIntModel HashBucketsModel HashBucketsSpec HashBucketsProofs.
From Verif Require Import PRFModel PRFSpec PRFProofs PolyModel PolySpec PolyProofs InterpProofs PolyObjProofs.
From Verif Require Import EopsiModel EopsiSpec EopsiProofs EopsiBlind EopsiRun EopsiFacts CountSpec CountProofs DummySpec DummyProofs PropEopsi PropCount PropDummy.
From Verif Require Import FactorExists.
From Verif Require Import CherparsModel CherparsSpec CherparsProofs PropCherpars TotalSpec TotalProofs TotalCount.
Open Scope Z_scope.

Lemma padded_field p b raw : 0 < p -> 0 <= b < num_bits p -> Forall (fun v => 0 <= v < 2 ^ b) raw -> Forall (in_field p) (padded_data p b raw).
Proof.
  intros Hp Hb F. unfold padded_data. apply Forall_forall. intros z Hz. apply in_map_iff in Hz. destruct Hz as [v [<- Hv]].
  rewrite Forall_forall in F. specialize (F v Hv). unfold in_field, padded, pad_width.
  assert (LO := num_bits_lower p ltac:(lia)). rewrite Z.abs_eq in LO by lia.
  assert (E : 2 ^ (num_bits p - 1) = 2 ^ b * 2 ^ (num_bits p - b - 1)) by (rewrite <- Z.pow_add_r by lia; f_equal; lia).
  assert (0 < 2 ^ (num_bits p - b - 1)) by (apply Z.pow_pos_nonneg; lia). nia.
Qed.

(** A run is given the data of the clients.  Under an ideal hash function every
    placing of the elements into the L buckets is equally likely, and so is every
    vector of field elements for the dummies and coefficients.  Among all these
    outcomes at most the given fraction is bad; whenever the outcome of a run is
    not bad, the run ends and the requester reports exactly the intersection. *)
Theorem C130_ideal_hash : forall sha p L h D b rawA rawB,
  is_sha sha -> prime p -> 2 < p -> num_bits p < 2 ^ 63 -> (0 < L)%nat -> (2 * h < D)%nat -> 0 <= b < num_bits p ->
  Forall (fun v => 0 <= v < 2 ^ b) rawA -> Forall (fun v => 0 <= v < 2 ^ b) rawB -> NoDup rawA -> NoDup rawB ->
  distinct_points sha p D ->
  let pad := num_bits p - b - 1 in
  let mA := (L * h - length rawA)%nat in let mB := (L * h - length rawB)%nat in
  let N := (mA + mB + 2 * h * L)%nat in
  exists bad : list nat * list Z -> bool,
  (INR (length (filter bad (outcomes p L N rawA rawB))) <=
    (probability L (length rawA) (h + 1) + probability L (length rawB) (h + 1) + INR L / IZR (2 ^ pad) + INR ((mA + mB) * h) / IZR p) *
    INR (length (outcomes p L N rawA rawB)))%R /\
  forall al rand fuel hw sA sB nt posA posB key canzass berlekamp k0,
  algo_valid al -> factors_correctly p canzass -> factors_correctly p berlekamp ->
  let outcome := (placing al L pad rawA rawB, dummies sha p (rand posA mod p) mA ++ dummies sha p (rand posB mod p) mB ++ all_coeffs sha p L D h key) in
  In outcome (outcomes p L N rawA rawB) /\
  (bad outcome = false -> exists r vs,
    session sha rand fuel p canzass berlekamp hw L h D al b rawA rawB sA sB key nt posA posB k0 = Ok (r, Some vs) /\
    NoDup vs /\ forall v, In v vs <-> In v rawA /\ In v rawB /\ (v = 0 -> pad = 0)).
Proof.
  intros sha p L h D b rawA rawB HS HP HO HLong HL HD HW HA HB NA NB ND pad mA mB N.
  exists (bad_outcome p pad L h rawA rawB). split.
  - rewrite Nat.add_1_r. apply (bad_count p b L h rawA rawB HP HO HL HW NA NB); apply padded_field; try assumption; lia.
  - intros al rand fuel hw sA sB nt posA posB key canzass berlekamp k0 AV HC HBe outcome.
    assert (INV : In (snd outcome) (vectors p N)).
    { apply vectors_in. assert (H := all_coeffs_vector sha p L D h key ltac:(lia)). apply vectors_in in H as [H1 H2]. unfold outcome, N. cbn [snd].
      rewrite !app_length, !dummies_length, H1. split; [lia|]. apply Forall_app. split; [apply dummies_field; lia|]. apply Forall_app. split; [apply dummies_field; lia|exact H2]. }
    split.
    + unfold outcomes. apply in_prod; [|exact INV]. apply in_assignments_iff. unfold placing. split; [apply map_length|].
      apply Forall_forall. intros i Hi. apply in_map_iff in Hi. destruct Hi as [v [<- _]]. apply index_of_lt. exact HL.
    + intros G. unfold bad_outcome in G. apply orb_false_elim in G. destruct G as [G G3]. apply orb_false_elim in G. destruct G as [G1 G2].
      unfold outcome in G1, G2, G3. cbn [fst snd] in G1, G2, G3.
      assert (fA : fits al L h (padded_data p b rawA)) by exact (crowded_fits _ _ _ _ _ (placing_A al L pad rawA rawB) G1).
      assert (fB : fits al L h (padded_data p b rawB)) by exact (crowded_fits _ _ _ _ _ (placing_B al L pad rawA rawB NA NB) G2).
      assert (ST : setting sha p L h D al b rawA rawB) by (constructor; assumption).
      destruct (unspoiled_run sha p L h D (al_of L (map (padded pad) (everyone rawA rawB)) (placing al L pad rawA rawB)) al b rawA rawB rand fuel hw sA sB nt posA posB key canzass berlekamp k0 ST ND HC HBe) as [_ R].
      * apply (al_of_same al L pad rawA rawB rawA HL). auto.
      * apply (al_of_same al L pad rawA rawB rawB HL). auto.
      * exact (R G3).
Qed.
Print Assumptions C130_ideal_hash.

(** With the number of buckets L that cherpars prints for capacity h (-l) and
    2^n data (-n): twice the probability it prints, and the terms for the random
    field elements. *)
Theorem C130_cherpars : forall os c out sha p D b rawA rawB,
  cparse os cdefault = Ok c -> cherpars os = Ok out ->
  let L := Z.to_nat (co_h out) in let h := Z.to_nat (ca_l c) in
  is_sha sha -> prime p -> 2 < p -> num_bits p < 2 ^ 63 -> (2 * h < D)%nat -> 0 <= b < num_bits p ->
  Forall (fun v => 0 <= v < 2 ^ b) rawA -> Forall (fun v => 0 <= v < 2 ^ b) rawB -> NoDup rawA -> NoDup rawB ->
  Z.of_nat (length rawA) <= 2 ^ ca_n c -> Z.of_nat (length rawB) <= 2 ^ ca_n c ->
  distinct_points sha p D ->
  let pad := num_bits p - b - 1 in
  let mA := (L * h - length rawA)%nat in let mB := (L * h - length rawB)%nat in
  let N := (mA + mB + 2 * h * L)%nat in
  exists bad : list nat * list Z -> bool,
  (INR (length (filter bad (outcomes p L N rawA rawB))) <=
    (2 * co_prob out + INR L / IZR (2 ^ pad) + INR ((mA + mB) * h) / IZR p) * INR (length (outcomes p L N rawA rawB)))%R /\
  forall al rand fuel hw sA sB nt posA posB key canzass berlekamp k0,
  algo_valid al -> factors_correctly p canzass -> factors_correctly p berlekamp ->
  let outcome := (placing al L pad rawA rawB, dummies sha p (rand posA mod p) mA ++ dummies sha p (rand posB mod p) mB ++ all_coeffs sha p L D h key) in
  In outcome (outcomes p L N rawA rawB) /\
  (bad outcome = false -> exists r vs,
    session sha rand fuel p canzass berlekamp hw L h D al b rawA rawB sA sB key nt posA posB k0 = Ok (r, Some vs) /\
    NoDup vs /\ forall v, In v vs <-> In v rawA /\ In v rawB /\ (v = 0 -> pad = 0)).
Proof.
  intros os c out sha p D b rawA rawB CP CH L h HS HP HO HLong HD HW HA HB NA NB LenA LenB ND pad mA mB N.
  assert (SND := cherpars_sound_l os c out CP CH). fold L h in SND.
  assert (HL : (0 < L)%nat).
  { destruct (cparse_sane _ _ _ sane_default CP) as [SL [SN SP]].
    assert (NN : ca_n c < 64).
    { unfold cherpars in CH. rewrite CP in CH. cbn [bind] in CH. unfold to_size in CH. destruct (Z.ltb_spec (ca_n c) 64); [assumption|discriminate]. }
    destruct (cherpars_choice_l os c CP NN) as [out' [mu [O' [M [H _]]]]]. assert (out' = out) by congruence. subst out'.
    unfold L. rewrite H. enough (1 <= ceil (IZR (2 ^ ca_n c) / IZR mu)) by lia. apply ceil_pos.
    apply Rmult_lt_0_compat; [apply IZR_lt; apply Z.pow_pos_nonneg; lia|]. apply Rinv_0_lt_compat. apply IZR_lt. lia. }
  destruct (C130_ideal_hash sha p L h D b rawA rawB HS HP HO HLong HL HD HW HA HB NA NB ND) as [bad [B K]].
  exists bad. split; [|exact K]. eapply Rle_trans; [exact B|]. apply Rmult_le_compat_r; [apply pos_INR|].
  assert (PA : (probability L (length rawA) (h + 1) <= co_prob out)%R) by (eapply Rle_trans; [apply (probability_mono L (length rawA) (Z.to_nat (2 ^ ca_n c)) (h + 1) h HL); lia|exact SND]).
  assert (PB : (probability L (length rawB) (h + 1) <= co_prob out)%R) by (eapply Rle_trans; [apply (probability_mono L (length rawB) (Z.to_nat (2 ^ ca_n c)) (h + 1) h HL); lia|exact SND]).
  fold pad. fold mA mB. lra.
Qed.
Print Assumptions C130_cherpars.

(** The running example with data of two bits (so a pad of three bits): three
    buckets of two, three elements each.  The fraction of bad outcomes is at most
    2/9 + 3/8 + 12/61 < 1, so some outcome is good. *)
Lemma ex_crowding : probability 3 3 3 = (/ 9)%R.
Proof.
  unfold probability. rewrite all_length. replace (length (filter (crowded 3 3) (assignments 3 3))) with 3%nat by (vm_compute; reflexivity).
  change (3 ^ 3)%nat with 27%nat. rewrite !INR_IZR_INZ. cbn [Z.of_nat Pos.of_succ_nat Pos.succ]. lra.
Qed.
Lemma some_good {A} (bad : A -> bool) (l : list A) (c : R) : (INR (length (filter bad l)) <= c * INR (length l))%R -> (c < 1)%R -> l <> [] ->
  exists x, In x l /\ bad x = false.
Proof.
  intros H C NE. destruct (existsb (fun x => negb (bad x)) l) eqn:E.
  - apply existsb_exists in E. destruct E as [x [I Q]]. exists x. split; [exact I|]. now apply negb_true_iff.
  - exfalso. assert (F : filter bad l = l).
    { clear -E. induction l as [|x l IH]; [reflexivity|]. cbn [existsb filter] in *. apply orb_false_elim in E. destruct E as [E1 E2].
      apply negb_false_iff in E1. rewrite E1. f_equal. now apply IH. }
    rewrite F in H. assert (0 < INR (length l))%R by (apply lt_0_INR; destruct l; [contradiction|cbn; lia]). nra.
Qed.
Lemma ex_data2 : Forall (fun v => 0 <= v < 2 ^ 2) [0; 1; 3] /\ Forall (fun v => 0 <= v < 2 ^ 2) [1; 3; 2].
Proof. split; repeat constructor; lia. Qed.
Example C130_nonvacuous :
  let all := outcomes 61 3 18 [0; 1; 3] [1; 3; 2] in
  exists bad : list nat * list Z -> bool,
  (INR (length (filter bad all)) <= (4 / 5) * INR (length all))%R /\ (exists o, In o all /\ bad o = false) /\
  forall key, let o := ([0; 2; 0; 1]%nat, dummies ex_sha 61 (ex_rand 0%nat mod 61) 3 ++ dummies ex_sha 61 (ex_rand 5%nat mod 61) 3 ++ all_coeffs ex_sha 61 3 5 2 key) in
    In o all /\ (bad o = false -> exists r vs,
      session ex_sha ex_rand 10 61 ex_factor ex_factor 4 3 2 5 ex_algo 2 [0; 1; 3] [1; 3; 2] 77 88 key 1 0 5 0 = Ok (r, Some vs) /\
      forall v, In v vs <-> v = 1 \/ v = 3).
Proof.
  assert (N3 : forall x y z : Z, x <> y -> x <> z -> y <> z -> NoDup [x; y; z]) by (intros x y z A B C; repeat constructor; cbn; intuition congruence).
  destruct (C130_ideal_hash ex_sha 61 3 2 5 2 [0; 1; 3] [1; 3; 2] ex_is_sha prime_61 ltac:(lia) ltac:(vm_compute; reflexivity) ltac:(lia) ltac:(lia) ltac:(vm_compute; split; congruence)
    (proj1 ex_data2) (proj2 ex_data2) ltac:(apply N3; lia) ltac:(apply N3; lia) ex_distinct) as [bad [B K]].
  assert (PD : num_bits 61 - 2 - 1 = 3) by (vm_compute; reflexivity). rewrite PD in K. rewrite PD in B. cbn [length Nat.mul Nat.add Nat.sub] in B, K.
  rewrite ex_crowding in B. change (2 ^ 3) with 8 in B. change (INR 3) with (INR (Z.to_nat 3)) in B. change (INR 12) with (INR (Z.to_nat 12)) in B.
  rewrite !INR_IZR_INZ, !Z2Nat.id in B by lia.
  set (all := outcomes 61 3 18 [0; 1; 3] [1; 3; 2]) in *. intros all'.
  assert (EP : placing ex_algo 3 3 [0; 1; 3] [1; 3; 2] = [0; 2; 0; 1]%nat) by (vm_compute; reflexivity).
  assert (NN := proj1 (K ex_algo ex_rand 10%nat 4%nat 77 88 1%nat 0%nat 5%nat 0 ex_factor ex_factor 0%nat ex_algo_valid ex_factor_ok ex_factor_ok)).
  assert (P0 := pos_INR (length all)).
  assert (B' : (INR (length (filter bad all)) <= (4 / 5) * INR (length all))%R) by (rewrite !INR_IZR_INZ in *; eapply Rle_trans; [exact B|]; apply Rmult_le_compat_r; lra).
  exists bad. split; [exact B'|]. split.
  - apply (some_good bad all (4 / 5)%R B'); [lra|]. intros E. rewrite E in NN. destruct NN.
  - intros key o. destruct (K ex_algo ex_rand 10%nat 4%nat 77 88 1%nat 0%nat 5%nat key ex_factor ex_factor 0%nat ex_algo_valid ex_factor_ok ex_factor_ok) as [I X].
    rewrite EP in I, X. split; [exact I|]. intros G. destruct (X G) as (r & vs & E & _ & V). exists r, vs. split; [exact E|].
    clear -V. intros v. rewrite V. cbn [In]. lia.
Qed.

(** Capacity 4 for 2 data, target probability 2^-2 (cherpars -l 4 -n 1 -p -2),
    p = 1009 and data of one bit: at most 3/5 of the outcomes are bad. *)
Lemma prime_1009 : prime 1009.
Proof.
  constructor; [lia|]. intros n Hn. apply Zgcd_1_rel_prime.
  assert (F : forallb (fun m => Z.gcd (Z.of_nat m) 1009 =? 1) (seq 1 1008) = true) by (vm_compute; reflexivity).
  rewrite forallb_forall in F. specialize (F (Z.to_nat n)). rewrite Z2Nat.id in F by lia. apply Z.eqb_eq. apply F. apply in_seq. lia.
Qed.
Definition ex_copts2 : list copt := [Cl 4; Cn 1; Cp (-2)].
Lemma ex_cparse2 : cparse ex_copts2 cdefault = Ok {| ca_l := 4; ca_n := 1; ca_p := -2; ca_quiet := false |}.
Proof.
  unfold ex_copts2. cbn [cparse Z.ltb Z.leb Z.compare Pos.compare Pos.compare_cont cdefault ca_l ca_n ca_p ca_quiet].
  destruct (Rge_dec (-2) (- epsilon)) as [G|G]; [unfold epsilon in G; lra|reflexivity].
Qed.
Lemma ceil_le_2 x : (x <= 2)%R -> ceil x <= 2.
Proof. intros H. unfold ceil. destruct (base_Int_part (- x)) as [_ B]. enough (-3 < Int_part (- x)) by lia. apply lt_IZR. lra. Qed.
Lemma ex_distinct2 : distinct_points ex_sha 1009 9.
Proof.
  unfold distinct_points. replace (points ex_sha 1009 (num_bits 1009) 9) with [11; 297; 598; 131; 688; 989; 266; 567; 100] by (vm_compute; reflexivity).
  repeat constructor; cbn; intuition congruence.
Qed.
Example C130_cherpars_nonvacuous : exists out bad, cherpars ex_copts2 = Ok out /\
  let L := Z.to_nat (co_h out) in let m := (L * 4 - 2 + (L * 4 - 2))%nat in
  let all := outcomes 1009 L (m + 2 * 4 * L) [0; 1] [1; 0] in
  all <> [] /\ (INR (length (filter bad all)) <= (3 / 5) * INR (length all))%R /\ (exists o, In o all /\ bad o = false) /\
  forall key, let o := (placing ex_algo L 8 [0; 1] [1; 0], dummies ex_sha 1009 (ex_rand 0%nat mod 1009) (L * 4 - 2) ++ dummies ex_sha 1009 (ex_rand 5%nat mod 1009) (L * 4 - 2) ++ all_coeffs ex_sha 1009 L 9 4 key) in
    In o all /\ (bad o = false -> exists r vs,
      session ex_sha ex_rand 10 1009 (factor 1009 prime_1009) (factor 1009 prime_1009) 4 L 4 9 ex_algo 1 [0; 1] [1; 0] 77 88 key 1 0 5 0 = Ok (r, Some vs) /\
      forall v, In v vs <-> v = 1).
Proof.
  destruct (cherpars_choice_l ex_copts2 _ ex_cparse2 ltac:(cbn; lia)) as [out [mu [O [M [HL [_ [_ [P [G _]]]]]]]]].
  cbn [ca_l ca_n ca_p] in *. change (2 ^ 1) with 2 in *.
  assert (T : Rpower 2 (-2) = (/ 4)%R).
  { replace (-2)%R with (Ropp (INR 2)) by (cbn; ring). rewrite Rpower_Ropp, Rpower_pow by lra. cbn. lra. }
  rewrite T in G.
  assert (B : (co_prob out <= / 4)%R).
  { destruct G as [G|G]; [exact G|]. subst mu. rewrite P. unfold chernoff.
    replace (2 / 1)%R with 2%R by field. rewrite ceil_IZR. replace (4 - 1)%R with (INR 3 * 1)%R by (cbn; ring).
    replace (4 / 1)%R with 4%R by field. replace (Rpower 4 4) with (4 ^ 4)%R by (rewrite <- (Rpower_pow 4 4) by lra; f_equal; cbn; ring).
    rewrite <- exp_pow. pose proof exp_le_3 as E3. pose proof (exp_pos 1) as E0.
    assert (E27 : (exp 1 ^ 3 <= 3 ^ 3)%R) by (apply pow_incr; lra).
    replace (3 ^ 3)%R with 27%R in E27 by ring. replace (4 ^ 4)%R with 256%R by ring. lra. }
  assert (LB : 1 <= co_h out <= 2).
  { rewrite HL. assert (0 < IZR mu)%R by (apply IZR_lt; lia). assert (1 <= IZR mu)%R by (apply IZR_le; lia).
    split; [apply ceil_pos; apply Rmult_lt_0_compat; [lra|now apply Rinv_0_lt_compat]|].
    apply ceil_le_2. apply (Rmult_le_reg_r (IZR mu)); [assumption|]. unfold Rdiv. rewrite Rmult_assoc, Rinv_l by lra. lra. }
  assert (DA : Forall (fun v => 0 <= v < 2 ^ 1) [0; 1]) by (repeat constructor; lia).
  assert (DB : Forall (fun v => 0 <= v < 2 ^ 1) [1; 0]) by (repeat constructor; lia).
  assert (N2 : forall x y : Z, x <> y -> NoDup [x; y]) by (intros x y A; repeat constructor; cbn; intuition congruence).
  destruct (C130_cherpars ex_copts2 _ out ex_sha 1009 9 1 [0; 1] [1; 0] ex_cparse2 O ex_is_sha prime_1009 ltac:(lia) ltac:(vm_compute; reflexivity) ltac:(cbn; lia) ltac:(vm_compute; split; congruence)
    DA DB ltac:(apply N2; lia) ltac:(apply N2; lia) ltac:(cbn; lia) ltac:(cbn; lia) ex_distinct2) as [bad [BD K]].
  assert (PD : num_bits 1009 - 1 - 1 = 8) by (vm_compute; reflexivity). rewrite PD in K, BD. clear PD. cbn [ca_l length] in BD, K.
  change (Z.to_nat 4) with 4%nat in BD, K.
  exists out, bad. cbv zeta. set (L := Z.to_nat (co_h out)) in *. set (m := (L * 4 - 2 + (L * 4 - 2))%nat) in *.
  set (all := outcomes 1009 L (m + 2 * 4 * L) [0; 1] [1; 0]) in *. split; [exact O|].
  assert (LN : (1 <= L <= 2)%nat) by (unfold L; lia).
  assert (NE : all <> []).
  { intros E. assert (NN := proj1 (K ex_algo ex_rand 10%nat 4%nat 77 88 1%nat 0%nat 5%nat 0 _ _ 0%nat ex_algo_valid (factor_correct 1009 prime_1009) (factor_correct 1009 prime_1009))).
    rewrite E in NN. destruct NN. }
  assert (L2 : (INR L <= 2)%R) by (replace 2%R with (INR 2) by (cbn; ring); apply le_INR; lia).
  assert (M48 : (INR (m * 4) <= 48)%R) by (replace 48%R with (INR (Z.to_nat 48)) by (rewrite INR_IZR_INZ, Z2Nat.id by lia; reflexivity); apply le_INR; unfold m; lia).
  assert (P0 := pos_INR (length all)).
  assert (B' : (INR (length (filter bad all)) <= (3 / 5) * INR (length all))%R).
  { eapply Rle_trans; [exact BD|]. apply Rmult_le_compat_r; [exact P0|]. change (2 ^ 8) with 256. lra. }
  split; [exact NE|]. split; [exact B'|]. split; [apply (some_good bad all (3 / 5)%R B' ltac:(lra) NE)|].
  intros key. destruct (K ex_algo ex_rand 10%nat 4%nat 77 88 1%nat 0%nat 5%nat key _ _ 0%nat ex_algo_valid (factor_correct 1009 prime_1009) (factor_correct 1009 prime_1009)) as [I X].
  split; [exact I|]. intros Gd. destruct (X Gd) as (r & vs & E & _ & V). exists r, vs. split; [exact E|].
  clear -V. intros v. rewrite V. cbn [In]. split; [|lia]. intros [[<-|[<-|[]]] [_ Q]]; [specialize (Q eq_refl); discriminate|reflexivity].
Qed.
