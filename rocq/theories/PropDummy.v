(** C123: the dummies, and the probability of a wrong result over all random choices. *)
From Coq Require Import Znumtheory.
From Verif Require Import Base Spec Lib NtlMiss NtlMissProofs StrIntModel HashBucketsModel HashBucketsSpec HashBucketsProofs.
From Verif Require Import PRFModel PRFSpec PRFProofs PolyModel PolySpec PolyProofs InterpProofs PolyObjProofs.
From Verif Require Import EopsiModel EopsiSpec EopsiProofs EopsiBlind EopsiRun EopsiFacts CountSpec CountProofs DummySpec DummyProofs PropEopsi PropCount.

(** The tables after blinding, exactly: bucket j of a client holds the client's
    data that hash to j and then its next dummies; the dummies are the first
    L*h - (number of data) elements of the stream whose seed is the client's
    rand() result. *)
Theorem C123_tables : forall sha p L h D al b rawA rawB rand fuel hw sA sB key nt posA posB,
  setting sha p L h D al b rawA rawB ->
  exists r, exchange sha rand fuel p hw L h D al b rawA rawB sA sB key nt posA posB = Ok r /\
    forall j, (j < L)%nat ->
      contents (rr_tableA r) j (filled_up al L h (padded_data p b rawA) (dummies sha p (rand posA mod p) (L * h - length rawA)) j) /\
      contents (rr_tableB r) j (filled_up al L h (padded_data p b rawB) (dummies sha p (rand posB mod p) (L * h - length rawB)) j).
Proof.
  intros sha p L h D al b rawA rawB rand fuel hw sA sB key nt posA posB ST.
  destruct (exch_facts ST key rand fuel hw sA sB nt posA posB) as (r & RA & RB & E & _). exists r. split; [exact E|].
  assert (DA := data_eq ST rawA (st_dataA _ _ _ _ _ _ _ _ _ ST)). assert (DB := data_eq ST rawB (st_dataB _ _ _ _ _ _ _ _ _ ST)).
  assert (FA := st_fitA _ _ _ _ _ _ _ _ _ ST). assert (FB := st_fitB _ _ _ _ _ _ _ _ _ ST). rewrite <- DA in FA. rewrite <- DB in FB.
  assert (Hnb : num_bits p + 7 < 2 ^ 64) by (assert (H := st_long _ _ _ _ _ _ _ _ _ ST); lia).
  unfold exchange in E. cbv zeta in E. apply bind_ok in E as (hA0 & EA0 & E). rewrite EA0 in E. cbn [bind] in E.
  apply bind_ok in E as ([[[cA hA] zA] mA] & EA & E). apply bind_ok in E as ([[[cB hB] zB] mB] & EB & E).
  apply bind_ok in E as ([cS t] & _ & E). apply bind_ok in E as ([[cA1 zA1] q] & _ & E). apply Ok_inj in E. subst r. cbn [rr_tableA rr_tableB].
  intros j Hj. rewrite <- DA, <- DB. destruct ST as [HSh HPr HOdd HLong HAl HL HDeg HW HdA HdB HfA HfB].
  split; [eapply (blind_table sha rand fuel p hw L h D al b rawA sA nt posA)|eapply (blind_table sha rand fuel p hw L h D al b rawB sB nt posB)]; eassumption.
Qed.
Print Assumptions C123_tables.

Lemma slice_app_l i k (a c : list Z) : (i + k <= length a)%nat -> slice i k (a ++ c) = slice i k a.
Proof.
  intros H. unfold slice. rewrite skipn_app, firstn_app, skipn_length. replace (k - (length a - i))%nat with 0%nat by lia. cbn [firstn]. apply app_nil_r.
Qed.
Lemma slice_app_r (a c d : list Z) : slice (length a) (length c) (a ++ c ++ d) = c.
Proof.
  unfold slice. rewrite skipn_app, Nat.sub_diag, skipn_all. cbn [app skipn]. rewrite firstn_app, Nat.sub_diag, firstn_all. cbn [firstn]. apply app_nil_r.
Qed.
Lemma dummies_length sha p s m : length (dummies sha p s m) = m.
Proof. unfold dummies. now rewrite map_length, seq_length. Qed.
Lemma dummies_field sha p s m : 0 < p -> Forall (fun c => 0 <= c < p) (dummies sha p s m).
Proof. intros Hp. apply Forall_forall. intros x Hx. apply in_map_iff in Hx as (i & <- & _). apply Z.mod_pos_bound. exact Hp. Qed.

(** All random choices of a run: the dummies of both clients and the coefficients
    of the random polynomials, N field elements together.  For fixed data all
    but a fraction of at most L/2^pad + m*h/p of the p^N possible choices give
    exactly the intersection, whatever the secrets, the source of randomness and
    the factoring algorithms; m is the number of dummies. *)
Theorem C123_total_error : forall sha p L h D al b rawA rawB,
  setting sha p L h D al b rawA rawB -> distinct_points sha p D ->
  let pad := num_bits p - b - 1 in
  let mA := (L * h - length rawA)%nat in let mB := (L * h - length rawB)%nat in
  let N := (mA + mB + 2 * h * L)%nat in
  exists W, NoDup W /\ incl W (vectors p N) /\
  Z.of_nat (length W) * (2 ^ pad * p) <= (Z.of_nat L * p + Z.of_nat ((mA + mB) * h) * 2 ^ pad) * p ^ Z.of_nat N /\
  forall rand fuel hw sA sB nt posA posB key canzass berlekamp k0, factors_correctly p canzass -> factors_correctly p berlekamp ->
  let choices := dummies sha p (rand posA mod p) mA ++ dummies sha p (rand posB mod p) mB ++ all_coeffs sha p L D h key in
  exists r vs, session sha rand fuel p canzass berlekamp hw L h D al b rawA rawB sA sB key nt posA posB k0 = Ok (r, Some vs) /\
    In choices (vectors p N) /\
    (~ In choices W -> NoDup vs /\ forall v, In v vs <-> In v rawA /\ In v rawB /\ (v = 0 -> pad = 0)).
Proof.
  intros sha p L h D al b rawA rawB ST ND pad mA mB N.
  assert (W0 : 0 <= pad) by (unfold pad; pose proof (st_width _ _ _ _ _ _ _ _ _ ST); lia).
  assert (P2 : 0 < 2 ^ pad) by (apply Z.pow_pos_nonneg; lia).
  assert (HPr := st_prime _ _ _ _ _ _ _ _ _ ST). assert (HOdd := st_odd _ _ _ _ _ _ _ _ _ ST). assert (HL := st_buckets _ _ _ _ _ _ _ _ _ ST).
  set (zA := padded_data p b rawA). set (zB := padded_data p b rawB).
  assert (LA : length zA = length rawA) by apply map_length. assert (LB : length zB = length rawB) by apply map_length.
  assert (FA : Forall (in_field p) zA) by exact (data_field ST rawA (st_dataA _ _ _ _ _ _ _ _ _ ST)).
  assert (FB : Forall (in_field p) zB) by exact (data_field ST rawB (st_dataB _ _ _ _ _ _ _ _ _ ST)).
  assert (fitA := st_fitA _ _ _ _ _ _ _ _ _ ST). assert (fitB := st_fitB _ _ _ _ _ _ _ _ _ ST). fold zA in fitA. fold zB in fitB.
  set (n := (2 * h * L)%nat) in *.
  set (bA := bucketA L h al zA). set (bB := bucketB L h al zA zB).
  set (mt := meets L h al zA zB).
  set (wr := fun xs => if in_dec (list_eq_dec Z.eq_dec) (skipn (mA + mB) xs) (wrong p pad L h (bA xs) (bB xs)) then true else false).
  assert (EN : N = (L * h - length zA + (L * h - length zB) + n)%nat) by (unfold N, mA, mB; rewrite LA, LB; reflexivity).
  assert (XP : forall k xs, In xs (vectors p (mA + mB + k)) -> forall j, (j < L)%nat ->
     length (bA xs j) = h /\ length (bB xs j) = h /\ Forall (in_field p) (bA xs j) /\ Forall (in_field p) (bB xs j)).
  { intros k xs Hx j Hj. unfold mA, mB in Hx. rewrite <- LA, <- LB in Hx. destruct (xs_parts p L h zA zB HL k xs Hx) as (LdA & LdB & FdA & FdB).
    unfold bA, bB, bucketA, bucketB. split; [now apply filled_length|]. split; [now apply filled_length|]. split; now apply filled_field. }
  exists (filter (fun xs => mt xs || wr xs) (vectors p N)). split; [apply NoDup_filter, vectors_nodup|].
  split; [intros x Hx; apply filter_In in Hx; apply Hx|]. split.
  - assert (S1 : forall (f g : list Z -> bool) l, (length (filter (fun x => f x || g x) l) <= length (filter f l) + length (filter g l))%nat).
    { clear. intros f g. induction l as [|x l IH]; [cbn; lia|]. cbn [filter]. destruct (f x); destruct (g x); cbn [orb length]; lia. }
    specialize (S1 mt wr (vectors p N)).
    assert (C1 : Z.of_nat (length (filter mt (vectors p N))) * p <= Z.of_nat ((mA + mB) * h) * p ^ Z.of_nat N).
    { rewrite EN. unfold mA, mB. rewrite <- LA, <- LB. now apply meets_count. }
    assert (C2 : Z.of_nat (length (filter wr (vectors p N))) * 2 ^ pad <= Z.of_nat L * p ^ Z.of_nat N).
    { unfold N. rewrite vectors_app. eapply Z.le_trans; [apply (filter_flat_bound wr _ (2 ^ pad) (Z.of_nat L * p ^ Z.of_nat n))|].
      - intros ds Hds. rewrite filter_map_length. assert (Hd := Hds). apply vectors_in in Hd as [LD _].
        rewrite <- (Nat.add_0_r (mA + mB)) in Hds.
        eapply Z.le_trans; [|apply (wrong_count p pad L h (bA ds) (bB ds) HPr HOdd W0 (XP 0%nat ds Hds))].
        apply Z.mul_le_mono_nonneg_r; [lia|]. apply Nat2Z.inj_le. apply NoDup_incl_length; [apply NoDup_filter, vectors_nodup|].
        intros cs Hcs. apply filter_In in Hcs as [_ Hw]. unfold wr in Hw.
        rewrite skipn_app in Hw. rewrite skipn_all2 in Hw by lia. rewrite LD, Nat.sub_diag in Hw. cbn [app skipn] in Hw.
        assert (E1 : bA (ds ++ cs) = bA ds).
        { unfold bA, bucketA, dumA. rewrite slice_app_l by (rewrite LD; unfold mA; lia). reflexivity. }
        assert (E2 : bB (ds ++ cs) = bB ds).
        { unfold bB, bucketB, dumB. rewrite slice_app_l by (rewrite LD; unfold mA, mB; lia). reflexivity. }
        rewrite E1, E2 in Hw. destruct (in_dec _ cs _) as [Hin|]; [exact Hin|discriminate].
      - rewrite vectors_length by lia. rewrite (Nat2Z.inj_add (mA + mB) n), Z.pow_add_r by lia. apply Z.eq_le_incl. ring. }
    apply Nat2Z.inj_le in S1. rewrite Nat2Z.inj_add in S1.
    revert S1 C1 C2. generalize (p ^ Z.of_nat N) (Z.of_nat (length (filter mt (vectors p N)))) (Z.of_nat (length (filter wr (vectors p N)))).
    generalize (Z.of_nat (length (filter (fun xs => mt xs || wr xs) (vectors p N)))) (Z.of_nat ((mA + mB) * h)) (Z.of_nat L).
    intros w M Lz X a c S1 C1 C2. apply (Z.mul_le_mono_nonneg_r _ _ (2 ^ pad * p)) in S1; [|nia].
    apply (Z.mul_le_mono_nonneg_r _ _ (2 ^ pad)) in C1; [|lia]. apply (Z.mul_le_mono_nonneg_r _ _ p) in C2; [|lia]. lia.
  - intros rand fuel hw sA sB nt posA posB key canzass berlekamp k0 HC HB choices.
    assert (INV : In choices (vectors p N)).
    { apply vectors_in. assert (H := all_coeffs_vector sha p L D h key ltac:(lia)). apply vectors_in in H as [H1 H2]. unfold choices, N.
      rewrite !app_length, !dummies_length, H1. split; [lia|]. apply Forall_app. split; [apply dummies_field; lia|]. apply Forall_app. split; [apply dummies_field; lia|exact H2]. }
    destruct (sess_facts ST key rand fuel hw sA sB nt posA posB k0 canzass berlekamp HC HB) as (r & RA & RB & E & FL & X & _).
    destruct (X ND) as (vss & ES & F2). exists r, (concat vss). split; [exact ES|]. split; [exact INV|]. intros HW.
    assert (BAD : mt choices = false /\ wr choices = false).
    { destruct (mt choices || wr choices) eqn:EW; [exfalso; apply HW; apply filter_In; split; assumption|]. now apply orb_false_elim in EW. }
    destruct BAD as [B1 B2].
    destruct (C123_tables _ _ _ _ _ _ _ _ _ rand fuel hw sA sB key nt posA posB ST) as (r' & E' & CT). rewrite E in E'. apply Ok_inj in E'. subst r'.
    assert (DA : dumA L h zA choices = dummies sha p (rand posA mod p) mA).
    { unfold dumA, choices. rewrite LA. fold mA. assert (H := slice_app_r [] (dummies sha p (rand posA mod p) mA)
        (dummies sha p (rand posB mod p) mB ++ all_coeffs sha p L D h key)). rewrite dummies_length in H. exact H. }
    assert (DB : dumB L h zA zB choices = dummies sha p (rand posB mod p) mB).
    { unfold dumB, choices. rewrite LA, LB. fold mA mB. assert (H := slice_app_r (dummies sha p (rand posA mod p) mA) (dummies sha p (rand posB mod p) mB)
        (all_coeffs sha p L D h key)). rewrite !dummies_length in H. exact H. }
    assert (SAME : forall j, (j < L)%nat -> RA j = bA choices j /\ RB j = bB choices j).
    { intros j Hj. destruct (FL j Hj) as (_ & _ & _ & _ & _ & _ & _ & _ & [m3 C3] & [m4 C4]). destruct (CT j Hj) as [[m5 C5] [m6 C6]].
      fold zA mA in C5. fold zB mB in C6. unfold bA, bB, bucketA, bucketB. rewrite DA, DB. split; congruence. }
    assert (SK : skipn (mA + mB) choices = all_coeffs sha p L D h key).
    { unfold choices. rewrite app_assoc, skipn_app. rewrite app_length, !dummies_length, Nat.sub_diag.
      rewrite skipn_all2 by (rewrite app_length, !dummies_length; lia). reflexivity. }
    apply (exact_run ST key r RA RB vss FL); [|exact F2].
    intros j z Hj Rz [v Hv] Z0 (A & B & CA & CB & HR). rewrite Hv in *.
    assert (EAB : A = bA choices j /\ B = bB choices j).
    { destruct (FL j Hj) as (_ & _ & _ & _ & _ & _ & _ & _ & [m3 C3] & [m4 C4]). destruct (SAME j Hj) as [<- <-].
      destruct CA as [m5 C5]. destruct CB as [m6 C6]. split; congruence. }
    destruct EAB as [-> ->].
    rewrite <- (coefA_all sha p L D h key j Hj), <- (coefB_all sha p L D h key j Hj) in HR.
    destruct (wrong_right p pad L h (bA choices) (bB choices) (all_coeffs sha p L D h key) j v W0) as [I1 I2];
      [apply all_coeffs_vector; lia| |exact Hj|exact Rz|intros ->; destruct Z0; reflexivity|exact HR|].
    { intros Hin. unfold wr in B2. rewrite SK in B2. destruct (in_dec _ _ _) as [|NI]; [discriminate|]. now apply NI. }
    rewrite EN in INV. exact (no_meeting p L h al zA zB HL fitA fitB n choices j (padded pad v) INV B1 Hj I1 I2).
Qed.
Print Assumptions C123_total_error.

(** The running example (p = 61, three buckets of two, pad of two bits, three
    elements each, hence three dummies each): bucket 0 of the first client is
    its element 0 and the dummy 58; the fraction of bad choices is at most
    231/244, so some choice is good; the choices of the run with temporary key
    100, which reports 12, are bad. *)
#[local] Notation ex_run key := (session ex_sha ex_rand 10 61 ex_factor ex_factor 4 3 2 5 ex_algo 3 [0; 1; 4] [1; 3; 0] 77 88 key 1 0 5 0).
#[local] Notation ex_choices key := (dummies ex_sha 61 (ex_rand 0%nat mod 61) 3 ++ dummies ex_sha 61 (ex_rand 5%nat mod 61) 3 ++ all_coeffs ex_sha 61 3 5 2 key).
Lemma some_outside p n W c d : 0 < p -> 0 <= c < d -> Z.of_nat (length W) * d <= c * p ^ Z.of_nat n -> exists cs, In cs (vectors p n) /\ ~ In cs W.
Proof.
  intros Hp Hc CNT. assert (0 < p ^ Z.of_nat n) by (apply Z.pow_pos_nonneg; lia).
  assert (NI : ~ incl (vectors p n) W).
  { intros HI. apply NoDup_incl_length in HI; [|apply vectors_nodup]. apply Nat2Z.inj_le in HI. rewrite vectors_length in HI by lia. nia. }
  assert (F : ~ Forall (fun cs => In cs W) (vectors p n)) by (intros F; rewrite Forall_forall in F; exact (NI F)).
  apply neg_Forall_Exists_neg in F; [|intros x; apply in_dec, list_eq_dec, Z.eq_dec].
  apply Exists_exists in F as (cs & I1 & I2). eauto.
Qed.
Lemma ex_total : exists W, Z.of_nat (length W) * 244 <= 231 * 61 ^ Z.of_nat 18 /\
  forall key, exists r vs, ex_run key = Ok (r, Some vs) /\ (~ In (ex_choices key) W -> forall v, In v vs <-> v = 1).
Proof.
  destruct (C123_total_error _ _ _ _ _ _ _ _ _ ex_setting ex_distinct) as (W & ND & INC & CNT & K).
  assert (PD : num_bits 61 - 3 - 1 = 2) by (vm_compute; reflexivity). rewrite PD in CNT, K. clear PD INC.
  exists W. split; [exact CNT|]. intros key.
  destruct (K ex_rand 10%nat 4%nat 77 88 1%nat 0%nat 5%nat key ex_factor ex_factor 0%nat ex_factor_ok ex_factor_ok) as (r & vs & E & _ & X). exists r, vs. split; [exact E|].
  intros HN. destruct (X HN) as [_ SET]. clear -SET.
  intros v. rewrite SET. cbn [In]. split.
  - intros [A [B C]]. assert (v <> 0) by (intros V0; specialize (C V0); discriminate). lia.
  - intros ->. split; [auto|]. split; [auto|discriminate].
Qed.
Lemma ex_bad_choices W : (forall key, exists r vs, ex_run key = Ok (r, Some vs) /\ (~ In (ex_choices key) W -> forall v, In v vs <-> v = 1)) -> In (ex_choices 100) W.
Proof.
  intros K. destruct (in_dec (list_eq_dec Z.eq_dec) (ex_choices 100) W) as [HI|HN]; [exact HI|exfalso].
  destruct (K 100) as (r & vs & E & X). destruct C46_nonvacuous as [_ (r' & vs' & E' & I12)].
  rewrite E in E'. apply Ok_inj in E'. injection E' as _ <-. apply (X HN) in I12. lia.
Qed.
Example C123_nonvacuous :
  setting ex_sha 61 3 2 5 ex_algo 3 [0; 1; 4] [1; 3; 0] /\ distinct_points ex_sha 61 5 /\
  filled_up ex_algo 3 2 (padded_data 61 3 [0; 1; 4]) (dummies ex_sha 61 (ex_rand 0%nat mod 61) 3) 0 = [0; 58] /\
  exists W, Z.of_nat (length W) * 244 <= 231 * 61 ^ Z.of_nat 18 /\ (exists xs, In xs (vectors 61 18) /\ ~ In xs W) /\ In (ex_choices 100) W.
Proof.
  split; [exact ex_setting|]. split; [exact ex_distinct|]. split; [vm_compute; reflexivity|].
  destruct ex_total as (W & CNT & K). exists W. split; [exact CNT|].
  split; [apply (some_outside _ _ _ 231 244); [lia|lia|exact CNT]|apply ex_bad_choices; exact K].
Qed.
