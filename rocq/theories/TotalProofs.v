(** Lemmas for C130. *)
From Coq Require Import Znumtheory Lia.
From Verif Require Import Base Spec Lib NtlMiss NtlMissProofs StrIntModel HashBucketsModel HashBucketsSpec HashBucketsProofs.
From Verif Require Import PRFModel PRFSpec PRFProofs PolyModel PolySpec PolyProofs InterpProofs PolyObjProofs.
From Verif Require Import EopsiModel EopsiSpec EopsiProofs EopsiBlind EopsiRun EopsiFacts CountSpec CountProofs DummySpec DummyProofs PropEopsi PropCount PropDummy.
From Verif Require CherparsModel CherparsSpec CherparsProofs TotalSpec.

(** two algorithms that put the elements of a list into the same buckets *)
Definition same_places (al al' : halgo Z) (L : nat) (zs : list Z) : Prop := forall z, In z zs -> index_of al' L z = index_of al L z.
Lemma same_belonging al al' L zs j : same_places al al' L zs -> belonging al' L j zs = belonging al L j zs.
Proof. intros H. unfold belonging. apply filter_ext_in. intros z Hz. now rewrite (H z Hz). Qed.
Lemma same_free al al' L h zs j : same_places al al' L zs -> free al' L h zs j = free al L h zs j.
Proof. intros H. unfold free. now rewrite (same_belonging al al' L zs j H). Qed.
Lemma same_filled al al' L h zs ds j : same_places al al' L zs -> filled_up al' L h zs ds j = filled_up al L h zs ds j.
Proof.
  intros H. unfold filled_up, free_before. rewrite (same_belonging al al' L zs j H), (same_free al al' L h zs j H).
  replace (map (free al' L h zs) (seq 0 j)) with (map (free al L h zs) (seq 0 j)); [reflexivity|].
  apply map_ext. intros i. symmetry. now apply same_free.
Qed.

(** the choices that may spoil a run *)
Definition spoiled (p pad : Z) (L h : nat) (al : halgo Z) (zA zB : list Z) (xs : list Z) : bool :=
  meets L h al zA zB xs ||
  (if in_dec (list_eq_dec Z.eq_dec) (skipn ((L * h - length zA) + (L * h - length zB)) xs)
        (wrong p pad L h (bucketA L h al zA xs) (bucketB L h al zA zB xs)) then true else false).

Section Count.
Variables (p pad : Z) (L h : nat) (al : halgo Z) (zA zB : list Z).
Hypothesis HPr : prime p.
Hypothesis HOdd : 2 < p.
Hypothesis HL : (0 < L)%nat.
Hypothesis W0 : 0 <= pad.
Hypothesis FA : Forall (in_field p) zA.
Hypothesis FB : Forall (in_field p) zB.
Hypothesis fitA : fits al L h zA.
Hypothesis fitB : fits al L h zB.
#[local] Notation mA := (L * h - length zA)%nat.
#[local] Notation mB := (L * h - length zB)%nat.
#[local] Notation n := (2 * h * L)%nat.
#[local] Notation N := (mA + mB + n)%nat.
Lemma spoiled_count :
  Z.of_nat (length (filter (spoiled p pad L h al zA zB) (vectors p N))) * (2 ^ pad * p) <=
    (Z.of_nat L * p + Z.of_nat ((mA + mB) * h) * 2 ^ pad) * p ^ Z.of_nat N.
Proof.
  assert (P2 : 0 < 2 ^ pad) by (apply Z.pow_pos_nonneg; lia).
  set (bA := bucketA L h al zA). set (bB := bucketB L h al zA zB).
  set (mt := meets L h al zA zB).
  set (wr := fun xs => if in_dec (list_eq_dec Z.eq_dec) (skipn (mA + mB) xs) (wrong p pad L h (bA xs) (bB xs)) then true else false).
  assert (XP : forall k xs, In xs (vectors p (mA + mB + k)) -> forall j, (j < L)%nat ->
     length (bA xs j) = h /\ length (bB xs j) = h /\ Forall (in_field p) (bA xs j) /\ Forall (in_field p) (bB xs j)).
  { intros k xs Hx j Hj. destruct (xs_parts p L h zA zB HL k xs Hx) as (LdA & LdB & FdA & FdB).
    unfold bA, bB, bucketA, bucketB. split; [now apply filled_length|]. split; [now apply filled_length|]. split; now apply filled_field. }
  change (spoiled p pad L h al zA zB) with (fun xs => mt xs || wr xs).
  assert (S1 : forall (f g : list Z -> bool) l, (length (filter (fun x => f x || g x) l) <= length (filter f l) + length (filter g l))%nat).
  { clear. intros f g. induction l as [|x l IH]; [cbn; lia|]. cbn [filter]. destruct (f x); destruct (g x); cbn [orb length]; lia. }
  specialize (S1 mt wr (vectors p N)).
  assert (C1 : Z.of_nat (length (filter mt (vectors p N))) * p <= Z.of_nat ((mA + mB) * h) * p ^ Z.of_nat N) by now apply meets_count.
  assert (C2 : Z.of_nat (length (filter wr (vectors p N))) * 2 ^ pad <= Z.of_nat L * p ^ Z.of_nat N).
  { rewrite vectors_app. eapply Z.le_trans; [apply (filter_flat_bound wr _ (2 ^ pad) (Z.of_nat L * p ^ Z.of_nat n))|].
    - intros ds Hds. rewrite filter_map_length. assert (Hd := Hds). apply vectors_in in Hd as [LD _].
      rewrite <- (Nat.add_0_r (mA + mB)) in Hds.
      eapply Z.le_trans; [|apply (wrong_count p pad L h (bA ds) (bB ds) HPr HOdd W0 (XP 0%nat ds Hds))].
      apply Z.mul_le_mono_nonneg_r; [lia|]. apply Nat2Z.inj_le. apply NoDup_incl_length; [apply NoDup_filter, vectors_nodup|].
      intros cs Hcs. apply filter_In in Hcs as [_ Hw]. unfold wr in Hw.
      rewrite skipn_app in Hw. rewrite skipn_all2 in Hw by lia. rewrite LD, Nat.sub_diag in Hw. cbn [app skipn] in Hw.
      assert (E1 : bA (ds ++ cs) = bA ds).
      { unfold bA, bucketA, dumA. rewrite slice_app_l by (rewrite LD; lia). reflexivity. }
      assert (E2 : bB (ds ++ cs) = bB ds).
      { unfold bB, bucketB, dumB. rewrite slice_app_l by (rewrite LD; lia). reflexivity. }
      rewrite E1, E2 in Hw. destruct (in_dec _ cs _) as [Hin|]; [exact Hin|discriminate].
    - rewrite vectors_length by lia. rewrite (Nat2Z.inj_add (mA + mB) n), Z.pow_add_r by lia. apply Z.eq_le_incl. ring. }
  apply Nat2Z.inj_le in S1. rewrite Nat2Z.inj_add in S1.
  revert S1 C1 C2. generalize (p ^ Z.of_nat N) (Z.of_nat (length (filter mt (vectors p N)))) (Z.of_nat (length (filter wr (vectors p N)))).
  generalize (Z.of_nat (length (filter (fun xs => mt xs || wr xs) (vectors p N)))) (Z.of_nat ((mA + mB) * h)) (Z.of_nat L).
  clear -P2 HOdd. intros w M Lz X a c S1 C1 C2. apply (Z.mul_le_mono_nonneg_r _ _ (2 ^ pad * p)) in S1; [|nia].
  apply (Z.mul_le_mono_nonneg_r _ _ (2 ^ pad)) in C1; [|lia]. apply (Z.mul_le_mono_nonneg_r _ _ p) in C2; [|lia]. lia.
Qed.
End Count.

(** a run whose choices are not spoiled for some algorithm with the same places *)
Lemma unspoiled_run sha p L h D al al' b rawA rawB rand fuel hw sA sB nt posA posB key canzass berlekamp k0 :
  setting sha p L h D al' b rawA rawB -> distinct_points sha p D -> factors_correctly p canzass -> factors_correctly p berlekamp ->
  let zA := padded_data p b rawA in let zB := padded_data p b rawB in let pad := pad_width p b in
  same_places al al' L zA -> same_places al al' L zB ->
  let mA := (L * h - length rawA)%nat in let mB := (L * h - length rawB)%nat in
  let choices := dummies sha p (rand posA mod p) mA ++ dummies sha p (rand posB mod p) mB ++ all_coeffs sha p L D h key in
  In choices (vectors p (mA + mB + 2 * h * L)) /\
  (spoiled p pad L h al zA zB choices = false -> exists r vs,
    session sha rand fuel p canzass berlekamp hw L h D al' b rawA rawB sA sB key nt posA posB k0 = Ok (r, Some vs) /\
    NoDup vs /\ forall v, In v vs <-> In v rawA /\ In v rawB /\ (v = 0 -> pad = 0)).
Proof.
  intros ST ND HC HB zA zB pad PA PB mA mB choices.
  assert (W0 : 0 <= pad) by (unfold pad, pad_width; pose proof (st_width _ _ _ _ _ _ _ _ _ ST); lia).
  assert (HPr := st_prime _ _ _ _ _ _ _ _ _ ST). assert (HOdd := st_odd _ _ _ _ _ _ _ _ _ ST). assert (HL := st_buckets _ _ _ _ _ _ _ _ _ ST).
  assert (LA : length zA = length rawA) by apply map_length. assert (LB : length zB = length rawB) by apply map_length.
  assert (fitA := st_fitA _ _ _ _ _ _ _ _ _ ST). assert (fitB := st_fitB _ _ _ _ _ _ _ _ _ ST). fold zA in fitA. fold zB in fitB.
  assert (INV : In choices (vectors p (mA + mB + 2 * h * L))).
  { apply vectors_in. assert (H := all_coeffs_vector sha p L D h key ltac:(lia)). apply vectors_in in H as [H1 H2]. unfold choices.
    rewrite !app_length, !dummies_length, H1. split; [lia|]. apply Forall_app. split; [apply dummies_field; lia|]. apply Forall_app. split; [apply dummies_field; lia|exact H2]. }
  split; [exact INV|]. intros GOOD.
  destruct (sess_facts ST key rand fuel hw sA sB nt posA posB k0 canzass berlekamp HC HB) as (r & RA & RB & E & FL & X & _).
  destruct (X ND) as (vss & ES & F2). exists r, (concat vss). split; [exact ES|].
  set (bA := bucketA L h al zA) in *. set (bB := bucketB L h al zA zB) in *.
  unfold spoiled in GOOD. apply orb_false_elim in GOOD. destruct GOOD as [B1 B2]. fold bA bB in B2.
  destruct (C123_tables _ _ _ _ _ _ _ _ _ rand fuel hw sA sB key nt posA posB ST) as (r' & E' & CT). rewrite E in E'. apply Ok_inj in E'. subst r'.
  assert (DA : dumA L h zA choices = dummies sha p (rand posA mod p) mA).
  { unfold dumA, choices. rewrite LA. fold mA. assert (H := slice_app_r [] (dummies sha p (rand posA mod p) mA)
      (dummies sha p (rand posB mod p) mB ++ all_coeffs sha p L D h key)). rewrite dummies_length in H. exact H. }
  assert (DB : dumB L h zA zB choices = dummies sha p (rand posB mod p) mB).
  { unfold dumB, choices. rewrite LA, LB. fold mA mB. assert (H := slice_app_r (dummies sha p (rand posA mod p) mA) (dummies sha p (rand posB mod p) mB)
      (all_coeffs sha p L D h key)). rewrite !dummies_length in H. exact H. }
  assert (SAME : forall j, (j < L)%nat -> RA j = bA choices j /\ RB j = bB choices j).
  { intros j Hj. destruct (FL j Hj) as (_ & _ & _ & _ & _ & _ & _ & _ & [m3 C3] & [m4 C4]). destruct (CT j Hj) as [[m5 C5] [m6 C6]].
    fold zA mA in C5. fold zB mB in C6. rewrite (same_filled al al' L h zA _ j PA) in C5. rewrite (same_filled al al' L h zB _ j PB) in C6.
    unfold bA, bB, bucketA, bucketB. rewrite DA, DB. split; congruence. }
  assert (SK : skipn (mA + mB) choices = all_coeffs sha p L D h key).
  { unfold choices. rewrite app_assoc, skipn_app. rewrite app_length, !dummies_length, Nat.sub_diag.
    rewrite skipn_all2 by (rewrite app_length, !dummies_length; lia). reflexivity. }
  apply (exact_run ST key r RA RB vss FL); [|exact F2].
  intros j z Hj Rz [v Hv] Z0 (A & B & CA & CB & HR). rewrite Hv in *.
  assert (EAB : A = bA choices j /\ B = bB choices j).
  { destruct (FL j Hj) as (_ & _ & _ & _ & _ & _ & _ & _ & [m3 C3] & [m4 C4]). destruct (SAME j Hj) as [<- <-].
    destruct CA as [m5 C5]. destruct CB as [m6 C6]. split; congruence. }
  destruct EAB as [-> ->].
  rewrite <- (coefA_all sha p L D h key j Hj), <- (coefB_all sha p L D h key j Hj) in HR.
  destruct (wrong_right p pad L h (bA choices) (bB choices) (all_coeffs sha p L D h key) j v W0) as [I1 I2];
    [apply all_coeffs_vector; lia| |exact Hj|exact Rz|intros ->; destruct Z0; reflexivity|exact HR|].
  { intros Hin. rewrite LA, LB in B2. fold mA mB in B2. rewrite SK in B2. destruct (in_dec _ _ _) as [|NI]; [discriminate|]. now apply NI. }
  fold zA zB. rewrite (same_belonging al al' L zA j PA), (same_belonging al al' L zB j PB).
  unfold mA, mB in INV. rewrite <- LA, <- LB in INV.
  assert (fA : fits al L h zA) by (intros i Hi; rewrite <- (same_belonging al al' L zA i PA); apply fitA; exact Hi).
  assert (fB : fits al L h zB) by (intros i Hi; rewrite <- (same_belonging al al' L zB i PB); apply fitB; exact Hi).
  exact (no_meeting p L h al zA zB HL fA fB (2 * h * L)%nat choices j (padded pad v) INV B1 Hj I1 I2).
Qed.
