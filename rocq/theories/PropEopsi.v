(** Properties of the protocol's computations: C06, C07, C43-C50, C62, C63, C69
    and the part of C17 about setRawData. *)
From Verif Require Import Base Spec Lib NtlMiss NtlMissProofs StrIntModel HashBucketsModel HashBucketsSpec HashBucketsProofs.
From Verif Require Import PRFModel PRFSpec PRFProofs PolyModel PolySpec PolyProofs InterpProofs PolyObjProofs FactorExists.
From Verif Require Import EopsiModel EopsiSpec EopsiProofs EopsiBlind EopsiRun EopsiFacts EopsiExtra EopsiHist.
From Coq Require Import Znumtheory.

(** A concrete run for the examples: a hash function, the prime 61, 3 buckets
    of 2 elements, 5 points, data of 3 bits (so 2 bits of padding). *)
Definition ex_sha (x : list Z) : list Z :=
  map (fun i => (((le_val x) mod 1000003 * 6364136223846793005 + Z.of_nat (length x)) / 2 ^ (8 + 3 * Z.of_nat i)) mod 256) (seq 0 20).
Lemma ex_is_sha : is_sha ex_sha.
Proof.
  intros x. split; [reflexivity|]. unfold ex_sha. apply Forall_forall. intros b Hb. apply in_map_iff in Hb.
  destruct Hb as [i [<- _]]. apply Z.mod_pos_bound. lia.
Qed.
Definition ex_algo : halgo Z := mkHalgo (fun z => [z mod 256; 0]) 2.
Lemma ex_algo_valid : algo_valid ex_algo.
Proof. split; cbn; intros; lia. Qed.
Definition ex_rand (k : nat) : Z := Z.of_nat (k * k * 31 + 7).
Lemma prime_61 : prime 61.
Proof.
  constructor; [lia|]. intros n Hn. apply Zgcd_1_rel_prime.
  assert (F : forall m, (m < 61)%nat -> (0 < m)%nat -> Z.gcd (Z.of_nat m) 61 = 1).
  { intros m H1 H2. do 61 (destruct m as [|m]; [try reflexivity; exfalso; lia|]). exfalso. lia. }
  replace n with (Z.of_nat (Z.to_nat n)) by lia. apply F; lia.
Qed.
Definition ex_factor := factor 61 prime_61.
Lemma ex_factor_ok : factors_correctly 61 ex_factor.
Proof. exact (factor_correct 61 prime_61). Qed.
Lemma ex_setting : setting ex_sha 61 3 2 5 ex_algo 3 [0; 1; 4] [1; 3; 0].
Proof.
  split; try lia; try exact ex_is_sha; try exact prime_61; try exact ex_algo_valid; try (vm_compute; split; congruence).
  - repeat constructor; lia.
  - repeat constructor; lia.
  - intros j Hj. do 3 (destruct j as [|j]; [vm_compute; lia|]). lia.
  - intros j Hj. do 3 (destruct j as [|j]; [vm_compute; lia|]). lia.
Qed.
Lemma ex_distinct : distinct_points ex_sha 61 5.
Proof.
  unfold distinct_points. replace (points ex_sha 61 (num_bits 61) 5) with [60; 41; 22; 3; 48] by (vm_compute; reflexivity).
  repeat constructor; cbn; intuition congruence.
Qed.

(** *** C06: padding embeds the data in the field *)
Theorem C06_padding_embeds : forall p b, 0 < p -> num_bits p < 2 ^ 63 -> 0 <= b < num_bits p ->
  (forall v, 0 <= v < 2 ^ b ->
     zeroPad v (w64 (num_bits p - b - 1)) = v * 2 ^ (num_bits p - b - 1) /\
     0 <= zeroPad v (w64 (num_bits p - b - 1)) < p /\
     zeroPad v (w64 (num_bits p - b - 1)) mod p = zeroPad v (w64 (num_bits p - b - 1))) /\
  (forall v v', 0 <= v < 2 ^ b -> 0 <= v' < 2 ^ b ->
     zeroPad v (w64 (num_bits p - b - 1)) mod p = zeroPad v' (w64 (num_bits p - b - 1)) mod p -> v = v').
Proof.
  intros p b Hp Hnb Hb.
  assert (A : forall v, 0 <= v < 2 ^ b ->
     zeroPad v (w64 (num_bits p - b - 1)) = v * 2 ^ (num_bits p - b - 1) /\
     0 <= zeroPad v (w64 (num_bits p - b - 1)) < p /\
     zeroPad v (w64 (num_bits p - b - 1)) mod p = zeroPad v (w64 (num_bits p - b - 1))).
  { intros v Hv.
    assert (EZ : zeroPad v (w64 (num_bits p - b - 1)) = v * 2 ^ (num_bits p - b - 1)).
    { rewrite w64_small by (unfold M64; lia). apply zeroPad_mul_l. lia. }
    rewrite EZ. assert (R : 0 <= v * 2 ^ (num_bits p - b - 1) < p).
    { split; [apply Z.mul_nonneg_nonneg; [lia|apply Z.pow_nonneg; lia]|].
      apply Z.lt_le_trans with (2 ^ b * 2 ^ (num_bits p - b - 1)).
      - apply Z.mul_lt_mono_pos_r; [apply Z.pow_pos_nonneg; lia|lia].
      - rewrite <- Z.pow_add_r by lia. replace (b + (num_bits p - b - 1)) with (num_bits p - 1) by lia.
        pose proof (num_bits_lower p ltac:(lia)). lia. }
    split; [reflexivity|]. split; [exact R|]. apply Z.mod_small. exact R. }
  split; [exact A|]. intros v v' Hv Hv' E. destruct (A v Hv) as [E1 [_ M1]]. destruct (A v' Hv') as [E2 [_ M2]].
  rewrite M1, M2, E1, E2 in E. apply Z.mul_reg_r in E; [exact E|]. apply Z.pow_nonzero; lia.
Qed.
Print Assumptions C06_padding_embeds.
Example C06_nonvacuous : 2 < 61 /\ num_bits 61 < 2 ^ 63 /\ 0 <= 3 < num_bits 61 /\ zeroPad 5 (w64 (num_bits 61 - 3 - 1)) mod 61 = 20.
Proof. repeat split; try lia; reflexivity. Qed.

(** *** C07: data as wide as the field *)
Theorem C07_wide_data : forall sha p rand fuel hw L h D al b rawA rawB sA sB key nt posA posB k0 canzass berlekamp,
  prime p -> 2 < p -> num_bits p < 2 ^ 63 -> is_sha sha -> algo_valid al -> (0 < L)%nat -> (2 * h < D)%nat ->
  factors_correctly p canzass -> factors_correctly p berlekamp -> b = num_bits p ->
  let pad := w64 (num_bits p - b - 1) in
  let run := session sha rand fuel p canzass berlekamp hw L h D al b rawA rawB sA sB key nt posA posB k0 in
  let stored raw := map (fun v => zeroPad v pad mod p) raw in
  (* the pad size wraps around and padding halves *)
  pad = 2 ^ 64 - 1 /\ (forall v, 0 <= v -> zeroPad v pad = v / 2) /\
  (forall v, 0 <= v -> zeroPad (2 * v) pad = zeroPad (2 * v + 1) pad) /\
  (* every run that ends reports nothing, whatever the data; and it ends if the halved data fit *)
  (forall r vs, run = Ok (r, vs) -> vs = Some []) /\
  (fits al L h (stored rawA) -> fits al L h (stored rawB) -> distinct_points sha p D -> exists r, run = Ok (r, Some [])).
Proof.
  intros sha p rand fuel hw L h D al b rawA rawB sA sB key nt posA posB k0 canzass berlekamp HP Hp2 Hnb HS VA HL HD HC HB Eb pad run stored.
  assert (EP : pad = wide) by (unfold pad; rewrite Eb; apply wide_pad).
  destruct (wide_session p HP Hp2 Hnb sha HS rand fuel hw L h D al b rawA rawB sA sB key nt posA posB VA HL HD canzass berlekamp HC HB k0 Eb) as [W1 W2].
  split; [exact EP|]. split; [intros v Hv; rewrite EP; apply wide_zeroPad; exact Hv|]. split.
  { intros v Hv. rewrite EP, !wide_zeroPad by lia. replace (2 * v + 1) with (1 + v * 2) by lia. rewrite Z.div_add by lia.
    replace (2 * v) with (v * 2) by lia. rewrite Z.div_mul by lia. reflexivity. }
  split; [exact W2|]. intros FA FB ND. apply W1; [split; assumption|exact ND].
Qed.
Print Assumptions C07_wide_data.
(** both parties hold 9 and 10: nothing is reported *)
Example C07_nonvacuous : prime 61 /\ algo_valid ex_algo /\ distinct_points ex_sha 61 5 /\
  factors_correctly 61 ex_factor /\
  fits ex_algo 3 2 (map (fun v => zeroPad v (w64 (num_bits 61 - 6 - 1)) mod 61) [9; 10]) /\ 6 = num_bits 61.
Proof.
  split; [exact prime_61|]. split; [exact ex_algo_valid|]. split; [exact ex_distinct|]. split; [exact (ex_factor_ok)|].
  split; [|reflexivity]. intros j Hj. do 3 (destruct j as [|j]; [vm_compute; lia|]). lia.
Qed.

(** *** C43: t - q is the value of the combined polynomial *)
Theorem C43_unblinding : forall sha p L h D al b rawA rawB rand fuel hw sA sB key nt posA posB,
  setting sha p L h D al b rawA rawB ->
  exists r, exchange sha rand fuel p hw L h D al b rawA rawB sA sB key nt posA posB = Ok r /\
    (* the tables hold the padded data, filled up to h with field elements *)
    (forall j, (j < L)%nat -> exists RA RB fA fB, contents (rr_tableA r) j RA /\ contents (rr_tableB r) j RB /\
       RA = belonging al L j (padded_data p b rawA) ++ fA /\ RB = belonging al L j (padded_data p b rawB) ++ fB /\
       length RA = h /\ length RB = h /\ Forall (fun z => 0 <= z < p) (fA ++ fB)) /\
    (* and t - q is PA*wA + PB*wB at every point *)
    (forall j i RA RB, (j < L)%nat -> (i < D)%nat -> contents (rr_tableA r) j RA -> contents (rr_tableB r) j RB ->
       exists t q x, entry (rr_t r) j i = Ok t /\ entry (rr_q r) j i = Ok q /\ nth_error (points sha p (num_bits p) D) i = Some x /\
         (t - q) mod p = (prod_value p RA x * omega_value p (coeffsA sha p L D h key j) x +
                          prod_value p RB x * omega_value p (coeffsB sha p L D h key j) x) mod p).
Proof.
  intros sha p L h D al b rawA rawB rand fuel hw sA sB key nt posA posB ST.
  destruct (exch_facts ST key rand fuel hw sA sB nt posA posB) as [r [RA [RB [E [FL [_ [_ [vt [vq [Et [Eq HV]]]]]]]]]]].
  exists r. split; [exact E|]. split.
  - intros j Hj. destruct (FL j Hj) as [fA [fB [EA [EB [LA [LB [FA [FB [CA CB]]]]]]]]]. exists (RA j), (RB j), fA, fB.
    repeat (split; [assumption|]). apply Forall_app. split; assumption.
  - intros j i RA' RB' Hj Hi [mA CA'] [mB CB']. destruct (FL j Hj) as [fA [fB [_ [_ [_ [_ [_ [_ [[nA CA] [nB CB]]]]]]]]]].
    rewrite CA in CA'. rewrite CB in CB'. apply Ok_inj in CA'. apply Ok_inj in CB'. injection CA' as <- _. injection CB' as <- _.
    exists (vt j i), (vq j i), (nth i (points sha p (num_bits p) D) 0). rewrite Et, Eq, !(entry_table2 Hj Hi). split; [reflexivity|]. split; [reflexivity|].
    split; [apply nth_error_nth'; unfold points; rewrite map_length, seq_length; exact Hi|]. apply HV; assumption.
Qed.
Print Assumptions C43_unblinding.
Example C43_nonvacuous : setting ex_sha 61 3 2 5 ex_algo 3 [0; 1; 4] [1; 3; 0] /\
  exists r, exchange ex_sha ex_rand 10 61 4 3 2 5 ex_algo 3 [0; 1; 4] [1; 3; 0] 77 88 99 1 0 5 = Ok r /\ length (rr_t r) = 3%nat.
Proof.
  split; [exact ex_setting|]. destruct (C43_unblinding _ _ _ _ _ _ _ _ _ ex_rand 10%nat 4%nat 77 88 99 1%nat 0%nat 5%nat ex_setting) as [r [E _]].
  exists r. split; [exact E|]. vm_compute in E. apply Ok_inj in E. subst r. reflexivity.
Qed.

(** *** C44: the polynomial the requester interpolates *)
Theorem C44_degree : forall sha p L h D al b rawA rawB rand fuel hw sA sB key nt posA posB canzass berlekamp k0,
  setting sha p L h D al b rawA rawB -> factors_correctly p canzass -> factors_correctly p berlekamp ->
  (distinct_points sha p D ->
   exists r, exchange sha rand fuel p hw L h D al b rawA rawB sA sB key nt posA posB = Ok r /\
    forall j, (j < L)%nat -> exists RA RB f ys,
      contents (rr_tableA r) j RA /\ contents (rr_tableB r) j RB /\
      length ys = D /\
      (forall i t q, (i < D)%nat -> entry (rr_t r) j i = Ok t -> entry (rr_q r) j i = Ok q -> nth i ys 0 = (t - q) mod p) /\
      interpolate p (points sha p (num_bits p) D) ys = Ok f /\
      is_poly p f /\ degree f = (2 * h)%nat /\ last f 0 = 2 /\
      forall z, value p f z = (prod_value p RA z * omega_value p (coeffsA sha p L D h key j) z +
                               prod_value p RB z * omega_value p (coeffsB sha p L D h key j) z) mod p) /\
  (* two equal points make NTL's interpolation fail *)
  (~ distinct_points sha p D ->
   session sha rand fuel p canzass berlekamp hw L h D al b rawA rawB sA sB key nt posA posB k0 = Abort).
Proof.
  intros sha p L h D al b rawA rawB rand fuel hw sA sB key nt posA posB canzass berlekamp k0 ST HC HB. split.
  - intros ND. pose proof ST as ST'. destruct ST' as [HSh HPr HOdd HLong HAl HL HDeg HW HdA HdB HfA HfB].
    rewrite <- (data_eq ST rawA HdA) in HfA. rewrite <- (data_eq ST rawB HdB) in HfB.
    destruct (interpolated p HPr HOdd HLong sha HSh rand fuel hw L h D al b rawA rawB sA sB key nt posA posB HAl HL HDeg HfA HfB ND) as [r [E HJ]].
    exists r. split; [exact E|]. intros j Hj. destruct (HJ j Hj) as [RA [RB [f [ys [CA [CB [[LY DR] REST]]]]]]].
    exists RA, RB, f, ys. split; [exact CA|]. split; [exact CB|]. split; [exact LY|]. split; [exact DR|exact REST].
  - intros ND. destruct (sess_facts ST key rand fuel hw sA sB nt posA posB k0 canzass berlekamp HC HB) as [r [RA [RB [_ [_ [_ X]]]]]]. apply X. exact ND.
Qed.
Print Assumptions C44_degree.
Example C44_nonvacuous : setting ex_sha 61 3 2 5 ex_algo 3 [0; 1; 4] [1; 3; 0] /\ distinct_points ex_sha 61 5 /\
  factors_correctly 61 ex_factor /\ (* and equal points do occur *) ~ distinct_points ex_sha 13 14.
Proof.
  split; [exact ex_setting|]. split; [exact ex_distinct|]. split; [exact (ex_factor_ok)|].
  intros ND. assert (I : incl (points ex_sha 13 (num_bits 13) 14) (map Z.of_nat (seq 0 13))).
  { intros x Hx. apply in_map_iff in Hx. destruct Hx as [k [<- _]]. unfold key_stream.
    match goal with |- In (?a mod 13) _ => pose proof (Z.mod_pos_bound a 13 ltac:(lia)) as B; set (y := a mod 13) in * end.
    apply in_map_iff. exists (Z.to_nat y). split; [lia|apply in_seq; lia]. }
  apply (NoDup_incl_length ND) in I. unfold points in I. rewrite !map_length, !seq_length in I. lia.
Qed.

(** *** C45: completeness *)
Theorem C45_complete : forall sha p L h D al b rawA rawB rand fuel hw sA sB key nt posA posB canzass berlekamp k0,
  setting sha p L h D al b rawA rawB -> distinct_points sha p D ->
  factors_correctly p canzass -> factors_correctly p berlekamp ->
  exists r vs, session sha rand fuel p canzass berlekamp hw L h D al b rawA rawB sA sB key nt posA posB k0 = Ok (r, Some vs) /\
    forall v, In v rawA -> In v rawB -> v <> 0 \/ num_bits p - b - 1 = 0 -> In v vs.
Proof.
  intros sha p L h D al b rawA rawB rand fuel hw sA sB key nt posA posB canzass berlekamp k0 ST ND HC HB.
  destruct (sess_facts ST key rand fuel hw sA sB nt posA posB k0 canzass berlekamp HC HB) as [r [RA [RB [_ [FL [X _]]]]]].
  destruct (X ND) as [vss [E F2]]. exists r, (concat vss). split; [exact E|]. intros v IA IB NZ.
  apply (roots_of_run ST key r RA RB vss FL F2). destruct (common_is_root ST key r RA RB v FL IA IB) as [j [Hj BR]].
  exists j. split; [exact Hj|]. split; [|split; [|exact BR]].
  - assert (F := data_field ST rawA (st_dataA _ _ _ _ _ _ _ _ _ ST)). rewrite Forall_forall in F. apply F. apply in_map. exact IA.
  - intros ->. destruct NZ as [NZ|NZ]; [congruence|exact NZ].
Qed.
Print Assumptions C45_complete.
Example C45_nonvacuous : setting ex_sha 61 3 2 5 ex_algo 3 [0; 1; 4] [1; 3; 0] /\ distinct_points ex_sha 61 5 /\
  factors_correctly 61 ex_factor /\ In 1 [0; 1; 4] /\ In 1 [1; 3; 0].
Proof. split; [exact ex_setting|]. split; [exact ex_distinct|]. split; [exact (ex_factor_ok)|]. cbn. auto. Qed.

(** *** C46: a value is reported iff it is a root; exactness without accidents *)
Theorem C46_explained : forall sha p L h D al b rawA rawB rand fuel hw sA sB key nt posA posB canzass berlekamp k0,
  setting sha p L h D al b rawA rawB -> distinct_points sha p D ->
  factors_correctly p canzass -> factors_correctly p berlekamp ->
  let pad := num_bits p - b - 1 in
  exists r vs, session sha rand fuel p canzass berlekamp hw L h D al b rawA rawB sA sB key nt posA posB k0 = Ok (r, Some vs) /\
    let is_root j z := exists RA RB, contents (rr_tableA r) j RA /\ contents (rr_tableB r) j RB /\
      combined p RA RB (coeffsA sha p L D h key j) (coeffsB sha p L D h key j) z = 0 in
    (forall v, In v vs <-> (exists j, (j < L)%nat /\ 0 <= v * 2 ^ pad < p /\ is_root j (v * 2 ^ pad)) /\ (v = 0 -> pad = 0)) /\
    (* if only common elements are roots, the result is the intersection *)
    ((forall j v, (j < L)%nat -> 0 <= v * 2 ^ pad < p -> (v = 0 -> pad = 0) -> is_root j (v * 2 ^ pad) ->
        In v rawA /\ In v rawB /\ index_of al L (v * 2 ^ pad) = j) ->
     NoDup vs /\ forall v, In v vs <-> In v rawA /\ In v rawB /\ (v = 0 -> pad = 0)).
Proof.
  intros sha p L h D al b rawA rawB rand fuel hw sA sB key nt posA posB canzass berlekamp k0 ST ND HC HB pad.
  destruct (sess_facts ST key rand fuel hw sA sB nt posA posB k0 canzass berlekamp HC HB) as [r [RA [RB [_ [FL [X _]]]]]].
  destruct (X ND) as [vss [E F2]]. exists r, (concat vss). split; [exact E|]. cbv zeta. split.
  - intros v. rewrite (roots_of_run ST key r RA RB vss FL F2 v). split.
    + intros [j [Hj [R [Z0 BR]]]]. split; [|exact Z0]. exists j. split; [exact Hj|]. split; [exact R|exact BR].
    + intros [[j [Hj [R BR]]] Z0]. exists j. split; [exact Hj|]. split; [exact R|]. split; [exact Z0|exact BR].
  - intros NA. apply (exact_run ST key r RA RB vss FL); [|exact F2].
    intros j z Hj Rz [v Hv] Z0 BR. rewrite Hv in *. assert (P2 : 0 < 2 ^ pad).
    { apply Z.pow_pos_nonneg; [lia|]. unfold pad. pose proof (st_width _ _ _ _ _ _ _ _ _ ST). lia. }
    destruct (NA j v Hj) as [IA [IB IX]]; [exact Rz|intros ->; apply Z0; reflexivity|exact BR|].
    split; apply belonging_in; (split; [|exact IX]); unfold padded_data; apply in_map_iff; exists v; (split; [reflexivity|assumption]).
Qed.
Print Assumptions C46_explained.
Definition items_of (t : hb Z) (j : nat) : list Z := match getBucket t j with Ok m => mv_items m | _ => [] end.
Lemma items_contents t j R : contents t j R -> R = items_of t j.
Proof. intros [m E]. unfold items_of. rewrite E. reflexivity. Qed.
Definition ex_roots (r : run_result) (key : Z) (j : nat) : list Z :=
  filter (fun v => combined 61 (items_of (rr_tableA r) j) (items_of (rr_tableB r) j) (coeffsA ex_sha 61 3 5 2 key j) (coeffsB ex_sha 61 3 5 2 key j) (v * 4) =? 0)
    (map Z.of_nat (seq 0 16)).
#[local] Notation ex_run key := (session ex_sha ex_rand 10 61 ex_factor ex_factor 4 3 2 5 ex_algo 3 [0; 1; 4] [1; 3; 0] 77 88 key 1 0 5 0).
(** with temporary key 99 exactly the common element 1 (not 0) is reported; with
    key 100 the hypothesis fails: 12, held by nobody, is reported *)
Example C46_nonvacuous : (exists r vs, ex_run 99 = Ok (r, Some vs) /\ NoDup vs /\ forall v, In v vs <-> v = 1) /\
  (exists r vs, ex_run 100 = Ok (r, Some vs) /\ In 12 vs).
Proof.
  assert (RT : forall r key j z, (exists RA RB, contents (rr_tableA r) j RA /\ contents (rr_tableB r) j RB /\
      combined 61 RA RB (coeffsA ex_sha 61 3 5 2 key j) (coeffsB ex_sha 61 3 5 2 key j) z = 0) ->
      combined 61 (items_of (rr_tableA r) j) (items_of (rr_tableB r) j) (coeffsA ex_sha 61 3 5 2 key j) (coeffsB ex_sha 61 3 5 2 key j) z = 0).
  { intros r key j z [RA [RB [CA [CB E]]]]. rewrite <- (items_contents _ _ _ CA), <- (items_contents _ _ _ CB). exact E. }
  split.
  - destruct (C46_explained _ _ _ _ _ _ _ _ _ ex_rand 10%nat 4%nat 77 88 99 1%nat 0%nat 5%nat ex_factor ex_factor 0%nat ex_setting ex_distinct ex_factor_ok ex_factor_ok) as [r [vs [E [_ EX]]]].
    exists r, vs. split; [exact E|].
    assert (ER : exchange ex_sha ex_rand 10 61 4 3 2 5 ex_algo 3 [0; 1; 4] [1; 3; 0] 77 88 99 1 0 5 = Ok r).
    { unfold session in E. apply bind_ok in E. destruct E as [r' [E1 E]]. apply bind_ok in E. destruct E as [x [_ E]]. apply Ok_inj in E. congruence. }
    destruct EX as [ND SET].
    + intros j v Hj Hv Z0 HR. apply RT in HR. change (num_bits 61 - 3 - 1) with 2 in *. change (2 ^ 2) with 4 in *.
      assert (NZ : v <> 0) by (intros V0; specialize (Z0 V0); discriminate).
      assert (IV : In v (ex_roots r 99 j)).
      { apply filter_In. split; [apply in_map_iff; exists (Z.to_nat v); split; [lia|apply in_seq; lia]|apply Z.eqb_eq; exact HR]. }
      vm_compute in ER. apply Ok_inj in ER. subst r. clear E HR RT.
      destruct j as [|[|[|j]]]; [| | |lia]; vm_compute in IV.
      * destruct IV as [IV|[]]. congruence.
      * destruct IV as [IV|[]]. subst v. cbn. auto 10.
      * contradiction.
    + split; [exact ND|]. intros v. rewrite SET. change (num_bits 61 - 3 - 1) with 2. cbn [In]. split.
      * intros [A [B C]]. assert (v <> 0) by (intros V0; specialize (C V0); discriminate). lia.
      * intros ->. split; [auto|]. split; [auto|discriminate].
  - destruct (C46_explained _ _ _ _ _ _ _ _ _ ex_rand 10%nat 4%nat 77 88 100 1%nat 0%nat 5%nat ex_factor ex_factor 0%nat ex_setting ex_distinct ex_factor_ok ex_factor_ok) as [r [vs [E [RO _]]]].
    exists r, vs. split; [exact E|].
    assert (ER : exchange ex_sha ex_rand 10 61 4 3 2 5 ex_algo 3 [0; 1; 4] [1; 3; 0] 77 88 100 1 0 5 = Ok r).
    { unfold session in E. apply bind_ok in E. destruct E as [r' [E1 E]]. apply bind_ok in E. destruct E as [x [_ E]]. apply Ok_inj in E. congruence. }
    apply RO. split; [|discriminate]. exists 0%nat. split; [lia|]. change (num_bits 61 - 3 - 1) with 2. change (12 * 2 ^ 2) with 48. split; [lia|].
    vm_compute in ER. apply Ok_inj in ER. subst r. clear E RO RT. exists [0; 58], [12; 0].
    split; [eexists; vm_compute; reflexivity|]. split; [eexists; vm_compute; reflexivity|]. vm_compute. reflexivity.
Qed.

(** *** C47: a false positive needs one particular coefficient *)
Theorem C47_one_coefficient :
  (forall p RA RB, prime p -> forall z, prod_value p RA z <> 0 -> forall ca cb,
     exists c0, 0 <= c0 < p /\ forall c, 0 <= c < p -> (combined p RA RB (c :: ca) cb z = 0 <-> c = c0)) /\
  (forall p RA RB, prime p -> forall z, prod_value p RB z <> 0 -> forall ca cb,
     exists c0, 0 <= c0 < p /\ forall c, 0 <= c < p -> (combined p RA RB ca (c :: cb) z = 0 <-> c = c0)) /\
  (* z is no common root iff one of the two products is not 0 *)
  (forall p RA RB z, prime p -> 0 <= z < p -> Forall (fun r => 0 <= r < p) (RA ++ RB) ->
     (In z RA /\ In z RB <-> prod_value p RA z = 0 /\ prod_value p RB z = 0)) /\
  (* these coefficients are stream elements no other coefficient uses *)
  (forall sha p L D h key j, (0 < h)%nat ->
     coeffsA sha p L D h key j = key_stream sha p (num_bits p) key (omegaA_pos L D h j 0) ::
       map (fun c => key_stream sha p (num_bits p) key (omegaA_pos L D h j c)) (seq 1 (h - 1)) /\
     coeffsB sha p L D h key j = key_stream sha p (num_bits p) key (omegaB_pos L D h j 0) ::
       map (fun c => key_stream sha p (num_bits p) key (omegaB_pos L D h j c)) (seq 1 (h - 1))).
Proof.
  split; [intros; apply constant_coefficient; assumption|]. split.
  { intros p RA RB HP z N ca cb. destruct (constant_coefficient p RB RA cb ca z HP N) as [c0 [R U]]. exists c0. split; [exact R|].
    intros c Hc. rewrite combined_comm. apply U. exact Hc. }
  split.
  { intros p RA RB z HP Hz F. apply Forall_app in F. destruct F as [FA FB]. rewrite !prod_value_zero by assumption. reflexivity. }
  intros sha p L D h key j Hh. unfold coeffsA, coeffsB. destruct h as [|h]; [lia|]. cbn [Nat.sub]. rewrite Nat.sub_0_r. split; reflexivity.
Qed.
Print Assumptions C47_one_coefficient.
Example C47_nonvacuous : prime 61 /\ prod_value 61 [4; 16] 12 <> 0 /\ combined 61 [4; 16] [12; 3] [23; 7] [1; 2] 12 <> 0 /\
  exists c, 0 <= c < 61 /\ combined 61 [4; 16] [12; 3] [c; 7] [1; 2] 12 = 0.
Proof.
  split; [exact prime_61|]. assert (N : prod_value 61 [4; 16] 12 <> 0) by (vm_compute; discriminate). split; [exact N|]. split; [vm_compute; discriminate|].
  destruct C47_one_coefficient as [K _]. destruct (K 61 [4; 16] [12; 3] prime_61 12 N [7] [1; 2]) as [c0 [R U]]. exists c0. split; [exact R|]. apply U; [exact R|reflexivity].
Qed.

(** *** C48: 0 is never reported when padding is in use *)
Theorem C48_zero_lost : forall sha p L h D al b rawA rawB rand fuel hw sA sB key nt posA posB canzass berlekamp k0 r vs,
  setting sha p L h D al b rawA rawB -> factors_correctly p canzass -> factors_correctly p berlekamp ->
  0 < num_bits p - b - 1 ->
  session sha rand fuel p canzass berlekamp hw L h D al b rawA rawB sA sB key nt posA posB k0 = Ok (r, Some vs) -> ~ In 0 vs.
Proof.
  intros sha p L h D al b rawA rawB rand fuel hw sA sB key nt posA posB canzass berlekamp k0 r vs ST HC HB PW E.
  destruct (ListDec.NoDup_dec Z.eq_dec (points sha p (num_bits p) D)) as [ND|ND].
  - destruct (C46_explained _ _ _ _ _ _ _ _ _ rand fuel hw sA sB key nt posA posB canzass berlekamp k0 ST ND HC HB) as [r' [vs' [E' [RO _]]]].
    rewrite E in E'. apply Ok_inj in E'. injection E' as <- <-. intros I. apply RO in I. destruct I as [_ Z0]. specialize (Z0 eq_refl). lia.
  - destruct (C44_degree _ _ _ _ _ _ _ _ _ rand fuel hw sA sB key nt posA posB canzass berlekamp k0 ST HC HB) as [_ X]. rewrite (X ND) in E. discriminate.
Qed.
Print Assumptions C48_zero_lost.
(** in the example run both clients hold 0; 1 is reported, 0 is not *)
Example C48_nonvacuous : exists r vs, session ex_sha ex_rand 10 61 ex_factor ex_factor 4 3 2 5 ex_algo 3 [0; 1; 4] [1; 3; 0] 77 88 99 1 0 5 0 = Ok (r, Some vs) /\
  In 0 [0; 1; 4] /\ In 0 [1; 3; 0] /\ In 1 vs /\ ~ In 0 vs.
Proof.
  destruct (C45_complete _ _ _ _ _ _ _ _ _ ex_rand 10%nat 4%nat 77 88 99 1%nat 0%nat 5%nat ex_factor ex_factor 0%nat ex_setting ex_distinct
    (ex_factor_ok) (ex_factor_ok)) as [r [vs [E HC]]].
  exists r, vs. split; [exact E|]. split; [cbn; auto|]. split; [cbn; auto|]. split; [apply HC; [cbn; auto|cbn; auto|left; lia]|].
  eapply C48_zero_lost; [exact ex_setting|exact ex_factor_ok|exact ex_factor_ok| |exact E]. vm_compute. reflexivity.
Qed.

(** *** C49: blinding is a one-time pad *)
(** [pad] turns [plain] into the view [view] *)
Definition pads_to (p : Z) (L D : nat) (plain pad view : nat -> nat -> Z) : Prop :=
  forall j i, (j < L)%nat -> (i < D)%nat -> 0 <= pad j i < p /\ (plain j i + pad j i) mod p = view j i.
Theorem C49_one_time_pad :
  (* what the clients outsource: the values of the bucket polynomials, plus the stream of their secret *)
  (forall sha p L h D al b rawA rawB rand fuel hw sA sB key nt posA posB, setting sha p L h D al b rawA rawB ->
   exists r, exchange sha rand fuel p hw L h D al b rawA rawB sA sB key nt posA posB = Ok r /\
     exists RA RB : nat -> list Z,
       (forall j, (j < L)%nat -> contents (rr_tableA r) j (RA j) /\ contents (rr_tableB r) j (RB j)) /\
       let value_at R j i := prod_value p (R j) (nth i (points sha p (num_bits p) D) 0) in
       let stream s j i := key_stream sha p (num_bits p) (s mod p) (mask_pos D j i) in
       (exists viewA, rr_blindA r = table2 L D viewA /\ pads_to p L D (value_at RA) (stream sA) viewA) /\
       (exists viewB, rr_blindB r = table2 L D viewB /\ pads_to p L D (value_at RB) (stream sB) viewB)) /\
  (* for all data and every view there is exactly one such pad *)
  (forall p L D plain view, 0 < p -> (forall j i, (j < L)%nat -> (i < D)%nat -> 0 <= view j i < p) ->
     (exists pad, pads_to p L D plain pad view) /\
     (forall pad pad', pads_to p L D plain pad view -> pads_to p L D plain pad' view ->
        forall j i, (j < L)%nat -> (i < D)%nat -> pad j i = pad' j i)).
Proof.
  split.
  - intros sha p L h D al b rawA rawB rand fuel hw sA sB key nt posA posB ST.
    destruct (exch_facts ST key rand fuel hw sA sB nt posA posB) as [r [RA [RB [E [FL [EA [EB _]]]]]]].
    exists r. split; [exact E|]. exists RA, RB. split.
    { intros j Hj. destruct (FL j Hj) as [fA [fB [_ [_ [_ [_ [_ [_ [CA CB]]]]]]]]]. split; assumption. }
    assert (Hp : 0 < p) by (pose proof (st_odd _ _ _ _ _ _ _ _ _ ST); lia).
    assert (G : forall s R, pads_to p L D (fun j i => prod_value p (R j) (nth i (points sha p (num_bits p) D) 0))
       (fun j i => key_stream sha p (num_bits p) (s mod p) (mask_pos D j i)) (blind_cell p sha s D (points sha p (num_bits p) D) R)).
    { intros s R j i Hj Hi. split; [apply Z.mod_pos_bound; exact Hp|]. unfold blind_cell. destruct (Nat.ltb_spec i D); [reflexivity|lia]. }
    cbv zeta. split; [exists (blind_cell p sha sA D (points sha p (num_bits p) D) RA)|exists (blind_cell p sha sB D (points sha p (num_bits p) D) RB)]; (split; [assumption|apply G]).
  - intros p L D plain view Hp HV. split.
    + exists (fun j i => (view j i - plain j i) mod p). intros j i Hj Hi. split; [apply Z.mod_pos_bound; exact Hp|].
      rewrite Z.add_mod_idemp_r by lia. replace (plain j i + (view j i - plain j i)) with (view j i) by lia. apply Z.mod_small. apply HV; assumption.
    + intros pad pad' H1 H2 j i Hj Hi. destruct (H1 j i Hj Hi) as [R1 E1]. destruct (H2 j i Hj Hi) as [R2 E2].
      apply (cong_eq (p := p)); [exact R1|exact R2|].
      assert (C : cong p (plain j i + pad j i) (plain j i + pad' j i)) by (unfold cong; congruence).
      transitivity (plain j i + pad j i - plain j i); [apply cong_refl'; lia|]. rewrite C. apply cong_refl'. lia.
Qed.
Print Assumptions C49_one_time_pad.
Example C49_nonvacuous : setting ex_sha 61 3 2 5 ex_algo 3 [0; 1; 4] [1; 3; 0] /\
  exists r, exchange ex_sha ex_rand 10 61 4 3 2 5 ex_algo 3 [0; 1; 4] [1; 3; 0] 77 88 99 1 0 5 = Ok r /\ rr_blindA r <> rr_blindB r.
Proof.
  split; [exact ex_setting|]. destruct (C43_unblinding _ _ _ _ _ _ _ _ _ ex_rand 10%nat 4%nat 77 88 99 1%nat 0%nat 5%nat ex_setting) as [r [E _]].
  exists r. split; [exact E|]. vm_compute in E. apply Ok_inj in E. subst r. vm_compute. discriminate.
Qed.

(** *** C50: stream positions *)
Theorem C50_positions :
  (* t and q are built from these positions of the stream of the temporary key *)
  (forall sha rand fuel p c key A B a b, is_sha sha -> 1 < p -> num_bits p + 7 < 2 ^ 64 -> party_ok p c -> co_unknowns c = [] ->
     let L := co_length c in let D := co_degree c in let h := co_height c in
     (forall j i, (j < L)%nat -> (i < D)%nat -> A j i = Ok (a j i) /\ B j i = Ok (b j i)) ->
     exists c' tq, computeTOrQ sha rand fuel p c key A B = Ok (c', tq) /\
       forall j i, (j < L)%nat -> (i < D)%nat -> exists x, nth_error (points sha p (num_bits p) D) i = Some x /\
         let stream u := key_stream sha p (num_bits p) key (use_pos L D h u) in
         entry tq j i = Ok ((stream (MaskOf j i)
           + a j i * value p (map (fun k => stream (CoeffA j k)) (seq 0 h) ++ [1]) x
           + b j i * value p (map (fun k => stream (CoeffB j k)) (seq 0 h) ++ [1]) x) mod p)) /\
  (* no position is used twice *)
  (forall L D h u v, (h <= D)%nat -> Z.of_nat (2 * L * D + L * h) <= 2 ^ 64 ->
     use_ok L D h u -> use_ok L D h v -> use_pos L D h u = use_pos L D h v -> u = v) /\
  (* unless the buckets are larger than the number of points *)
  (forall L D h, (0 < L)%nat -> (D < h)%nat -> exists j c,
     use_ok L D h (CoeffA j c) /\ use_ok L D h (CoeffB 0 0) /\ use_pos L D h (CoeffA j c) = use_pos L D h (CoeffB 0 0)).
Proof.
  split; [|split; [intros L D h u v H1 H2 H3 H4 H5; exact (use_distinct L D h u v H1 H2 H3 H4 H5)|exact use_reused]].
  intros sha rand fuel p c key A B a b HS Hp Hnb PK EU L D h HAB.
  assert (PO : points_of sha p c D = points sha p (num_bits p) D).
  { unfold points_of. rewrite EU. cbn [length Nat.eqb]. destruct PK as [_ [-> _]]. reflexivity. }
  assert (LP : length (points sha p (num_bits p) D) = D) by (unfold points; rewrite map_length, seq_length; reflexivity).
  destruct (computeTOrQ_ok sha HS rand fuel p Hp c key A B a b (party_core p Hp Hnb c PK)) as [c' [E _]].
  { fold D. rewrite PO, LP. lia. }
  { exact HAB. }
  fold L D in E. eexists _, _. split; [exact E|]. intros j i Hj Hi. rewrite PO. exists (nth i (points sha p (num_bits p) D) 0).
  split; [apply nth_error_nth'; rewrite LP; exact Hi|]. cbv zeta. rewrite (entry_table2 Hj Hi). f_equal. unfold tq_value, omegaA, omegaB, omega_value.
  destruct PK as [_ [_ ->]]. reflexivity.
Qed.
Print Assumptions C50_positions.
Example C50_nonvacuous : party_ok 61 (new_core 61 3 2 5 0) /\ (2 <= 5)%nat /\ Z.of_nat (2 * 3 * 5 + 3 * 2) <= 2 ^ 64 /\
  use_pos 3 5 2 (CoeffB 2 1) = 35 /\ (* reuse: 3 buckets of 4 elements, 2 points *) use_pos 3 2 4 (CoeffA 1 2) = use_pos 3 2 4 (CoeffB 0 0).
Proof. split; [apply new_party|]. split; [lia|]. split; [cbn; lia|]. split; reflexivity. Qed.

(** *** C62: the number of threads asked for does not matter *)
Theorem C62_threads : forall sha rand fuel p hw hw' c secret raw n bits h zp nt nt',
  blind sha rand fuel p hw c secret raw n bits h zp nt = blind sha rand fuel p hw' c secret raw n bits h zp nt'.
Proof. reflexivity. Qed.
Print Assumptions C62_threads.
Example C62_nonvacuous : exists h0 r, new_hb 3 2 (Some ex_algo) = Ok h0 /\
  blind ex_sha ex_rand 10 61 4 (new_core 61 3 2 5 0) 77 [0; 1; 4] 3 (Some 3) h0 (new_zpprf 61 0) 8 = Ok r.
Proof.
  destruct (blind_new 61 ltac:(lia) ltac:(reflexivity) ex_sha ex_is_sha ex_rand 10%nat 4%nat 3 2 5 ex_algo 3 [0; 1; 4] 77 8 0 ex_algo_valid ltac:(lia)) as [h0 [E0 [B _]]].
  exists h0. destruct B as [c' [h' [z' [R [E _]]]]]; [|eexists; split; [exact E0|exact E]].
  intros j Hj. do 3 (destruct j as [|j]; [vm_compute; lia|]). lia.
Qed.

(** *** C63: the evaluation points *)
Theorem C63_points : forall sha rand fuel p canzass berlekamp hw, is_sha sha -> 1 < p -> num_bits p + 7 < 2 ^ 64 ->
  let run := run_pops sha rand fuel p canzass berlekamp hw in
  (* two parties with the same field size and degree, with any histories (that do not change these), use the same points *)
  (forall L h D pos L' h' pos' ops ops' c c',
     forallb keeps_shape ops = true -> forallb keeps_shape ops' = true ->
     run (new_core p L h D pos) ops = Ok c -> run (new_core p L' h' D pos') ops' = Ok c' ->
     (co_unknowns c = [] \/ co_unknowns c = points sha p (num_bits p) D) /\
     (co_unknowns c <> [] -> co_unknowns c' <> [] -> co_unknowns c = co_unknowns c')) /\
  (* once there, they never change, whatever the party does *)
  (forall c ops c', co_unknowns c <> [] -> run c ops = Ok c' -> co_unknowns c' = co_unknowns c) /\
  (* so a degree raised after first use makes the next computation read out of bounds *)
  (forall c d key A B, party_ok p c -> co_unknowns c <> [] -> (length (co_unknowns c) < d)%nat -> (0 < co_length c)%nat ->
     (forall j i, exists a b, A j i = Ok a /\ B j i = Ok b) ->
     computeTOrQ sha rand fuel p (setDegree c d) key A B = UB OutOfBounds).
Proof.
  intros sha rand fuel p canzass berlekamp hw HS Hp Hnb run. split; [|split].
  - intros L h D pos L' h' pos' ops ops' c c' K1 K2 E1 E2.
    assert (I0 : forall L h pos, points_inv sha p p D (new_core p L h D pos)).
    { intros. split; [reflexivity|]. split; [reflexivity|]. split; [|left; reflexivity]. split; [apply new_prf_wf|]. split; apply (nb_ok p Hp Hnb). }
    destruct (pops_inv sha rand fuel p canzass berlekamp hw HS p D ops _ _ (I0 L h pos) K1 E1) as [_ [_ [_ U1]]].
    destruct (pops_inv sha rand fuel p canzass berlekamp hw HS p D ops' _ _ (I0 L' h' pos') K2 E2) as [_ [_ [_ U2]]].
    split; [exact U1|]. intros N1 N2. destruct U1 as [U1|U1]; [congruence|]. destruct U2 as [U2|U2]; congruence.
  - intros c ops c' N E. exact (pops_kept sha rand fuel p canzass berlekamp hw ops c c' N E).
  - intros c d key A B PK N LT LL HAB. apply (tq_short sha rand fuel p canzass berlekamp hw HS); try assumption.
    apply (party_core p Hp Hnb) in PK. exact PK.
Qed.
Print Assumptions C63_points.
Example C63_nonvacuous : exists c, run_pops ex_sha ex_rand 10 61 ex_factor ex_factor 4 (new_core 61 3 2 5 0)
    [PTQ 9 (fun _ _ => Ok 1) (fun _ _ => Ok 2)] = Ok c /\
  co_unknowns c = [60; 41; 22; 3; 48] /\
  computeTOrQ ex_sha ex_rand 10 61 (setDegree c 6) 9 (fun _ _ => Ok 1) (fun _ _ => Ok 2) = UB OutOfBounds.
Proof.
  destruct (run_pops ex_sha ex_rand 10 61 ex_factor ex_factor 4 (new_core 61 3 2 5 0) [PTQ 9 (fun _ _ => Ok 1) (fun _ _ => Ok 2)]) as [c| | | |] eqn:E;
    try (vm_compute in E; discriminate E).
  exists c. split; [reflexivity|]. vm_compute in E. apply Ok_inj in E. subst c. split; vm_compute; reflexivity.
Qed.

(** *** C69: a degree lowered after first use leaves data unmasked *)
Theorem C69_lowered_degree : forall sha rand fuel p hw c secret raw b k ml al h zp nt,
  1 < p -> num_bits p + 7 < 2 ^ 64 -> is_sha sha -> party_ok p c -> zp_inv p zp -> algo_valid al ->
  (0 < co_length c)%nat -> k = co_length c -> new_hb k ml (Some al) = Ok h ->
  fits al k ml (map (fun v => zeroPad v (w64 (num_bits p - b - 1)) mod p) raw) ->
  (* the points were generated for a larger degree *)
  (co_degree c < length (co_unknowns c))%nat ->
  exists c' h' zp' m, blind sha rand fuel p hw c secret raw (length raw) (Some b) h zp nt = Ok (c', h', zp', m) /\
    forall j i x, (j < co_length c)%nat -> (co_degree c <= i)%nat -> nth_error (co_unknowns c) i = Some x ->
    exists R, contents h' j R /\ entry m j i = Ok (prod_value p R x).
Proof.
  intros sha rand fuel p hw c secret raw b k ml al h zp nt Hp Hnb HS PK ZI VA HL EK EH FT LT.
  assert (NU : co_unknowns c <> []) by (intros X; rewrite X in LT; cbn in LT; lia).
  assert (PO : points_of sha p c (co_degree c) = co_unknowns c).
  { unfold points_of. destruct (co_unknowns c); [congruence|reflexivity]. }
  destruct (new_hb_ok k ml (Some al) VA) as [h0 [E0 [W [K0 [M0 [A0 B0]]]]]]. assert (h0 = h) by congruence. subst h0.
  assert (NB : forall j bk, nth_error (hb_buckets h) j = Some bk -> bk = mkMvec [] false /\ (j < k)%nat).
  { intros j bk Hj. rewrite B0 in Hj. apply nth_repeat in Hj. exact Hj. }
  destruct (blind_ok p Hp Hnb sha HS rand fuel hw c secret raw b h zp nt al PK W A0 ltac:(lia) ltac:(lia) ZI) as [B1 _].
  { rewrite PO. lia. }
  { intros j bk Hj. destruct (NB j bk Hj) as [-> _]. cbn. lia. }
  rewrite K0, M0 in B1. destruct B1 as [c' [h' [zp' [R [E [HR [U [SC [PK' [W' [A' [K' [M' I']]]]]]]]]]]]].
  { intros j bk Hj. destruct (NB j bk Hj) as [-> Hl]. cbn [mv_items length]. apply FT. exact Hl. }
  eexists c', h', zp', _. split; [exact E|]. intros j i x Hj Hi Hx.
  destruct (HR j (mkMvec [] false)) as [f [mk [ER [LR [FR CR]]]]]; [rewrite B0; apply nth_repeat_some; lia|].
  exists (R j). split.
  { exists mk. unfold getBucket. destruct (Nat.ltb_spec j (hb_k h')); [|lia]. apply aget_ok. exact CR. }
  rewrite PO. assert (Hl : (i < length (co_unknowns c))%nat) by (apply nth_error_Some; congruence).
  pose proof (entry_table2 (f := blind_cell p sha secret (co_degree c) (co_unknowns c) R) Hj Hl) as ET. unfold table2 in ET. rewrite ET. f_equal. unfold blind_cell.
  destruct (Nat.ltb_spec i (co_degree c)); [lia|]. f_equal. apply nth_error_nth. exact Hx.
Qed.
Print Assumptions C69_lowered_degree.
(** points for degree 5 cached, degree now 3: columns 3 and 4 of the outsourced
    rows are the bare values of the bucket polynomials *)
Example C69_nonvacuous : exists c h c' h' zp' m, party_ok 61 (setDegree c 3) /\ co_unknowns c = [60; 41; 22; 3; 48] /\
  new_hb 3 2 (Some ex_algo) = Ok h /\
  blind ex_sha ex_rand 10 61 4 (setDegree c 3) 77 [0; 1; 4] 3 (Some 3) h (new_zpprf 61 0) 1 = Ok (c', h', zp', m) /\
  entry m 0 3 = Ok (prod_value 61 [0; 58] 3) /\ contents h' 0 [0; 58].
Proof.
  destruct (getUnknowns_ok ex_sha ex_is_sha ex_rand 10%nat 61 (new_core 61 3 2 5 0) 5) as [c [E [U [SC K]]]].
  { apply (party_core 61); [lia|reflexivity|]. apply new_party. }
  assert (EU : co_unknowns c = [60; 41; 22; 3; 48]) by (rewrite U; vm_compute; reflexivity).
  assert (PK : party_ok 61 (setDegree c 3)).
  { destruct (same_party 61 (new_core 61 3 2 5 0) c (new_party 61 3 2 5) SC K) as [P1 [P2 P3]]. split; [exact P1|]. split; [exact P2|exact P3]. }
  destruct (new_hb_ok 3 2 (Some ex_algo) ex_algo_valid) as [h [Eh _]].
  destruct SC as [_ [_ [_ [S4 _]]]].
  destruct (C69_lowered_degree ex_sha ex_rand 10 61 4 (setDegree c 3) 77 [0; 1; 4] 3 3 2 ex_algo h (new_zpprf 61 0) 1) as [c' [h' [zp' [m [EB HM]]]]];
    try assumption; try lia; try reflexivity.
  - exact ex_is_sha.
  - apply new_zp.
  - exact ex_algo_valid.
  - cbn [setDegree co_length]. rewrite S4. cbn. lia.
  - cbn [setDegree co_length]. rewrite S4. reflexivity.
  - intros j Hj. do 3 (destruct j as [|j]; [vm_compute; lia|]). lia.
  - cbn [setDegree co_degree co_unknowns]. rewrite EU. cbn. lia.
  - exists c, h, c', h', zp', m. split; [exact PK|]. split; [exact EU|]. split; [exact Eh|]. split; [exact EB|].
    destruct (HM 0%nat 3%nat 3) as [R [CR ER]].
    + cbn [setDegree co_length]. rewrite S4. cbn. lia.
    + cbn. lia.
    + cbn [setDegree co_unknowns]. rewrite EU. reflexivity.
    + assert (R = [0; 58]).
      { unfold getUnknowns in E. vm_compute in E. apply Ok_inj in E. injection E as <-. vm_compute in Eh. apply Ok_inj in Eh. subst h.
        vm_compute in EB. apply Ok_inj in EB. injection EB as _ <- _ _. destruct CR as [mk CR]. vm_compute in CR. apply Ok_inj in CR. congruence. }
      subst R. split; [exact ER|exact CR].
Qed.

(** *** C17 (second part): a table is filled once *)
Theorem C17_setRawData_twice : forall sha rand fuel p hw c secret secret2 raw raw2 b b2 k ml al h zp nt nt2 c' h' zp' m,
  1 < p -> num_bits p + 7 < 2 ^ 64 -> is_sha sha -> party_ok p c -> zp_inv p zp -> algo_valid al ->
  (0 < co_length c)%nat -> k = co_length c -> new_hb k ml (Some al) = Ok h ->
  (co_unknowns c = [] \/ (co_degree c <= length (co_unknowns c))%nat) ->
  (* after a successful first call, a second one with any non-empty data set ends the process *)
  blind sha rand fuel p hw c secret raw (length raw) (Some b) h zp nt = Ok (c', h', zp', m) -> raw2 <> [] ->
  blind sha rand fuel p hw c' secret2 raw2 (length raw2) (Some b2) h' zp' nt2 = Exit 1.
Proof.
  intros sha rand fuel p hw c secret secret2 raw raw2 b b2 k ml al h zp nt nt2 c' h' zp' m Hp Hnb HS PK ZI VA HL EK EH DU E N2.
  assert (DP : (co_degree c <= length (points_of sha p c (co_degree c)))%nat).
  { unfold points_of. destruct DU as [DU|DU]; [rewrite DU; cbn [length Nat.eqb]; unfold points; rewrite map_length, seq_length; lia|].
    destruct (Nat.eqb_spec (length (co_unknowns c)) 0); [unfold points; rewrite map_length, seq_length; lia|lia]. }
  destruct (new_hb_ok k ml (Some al) VA) as [h0 [E0 [W [K0 [M0 [A0 B0]]]]]]. assert (h0 = h) by congruence. subst h0.
  assert (NB : forall j bk, nth_error (hb_buckets h) j = Some bk -> bk = mkMvec [] false /\ (j < k)%nat).
  { intros j bk Hj. rewrite B0 in Hj. apply nth_repeat in Hj. exact Hj. }
  destruct (blind_ok p Hp Hnb sha HS rand fuel hw c secret raw b h zp nt al PK W A0 ltac:(lia) ltac:(lia) ZI DP) as [B1 B2].
  { intros j bk Hj. destruct (NB j bk Hj) as [-> _]. cbn. lia. }
  rewrite K0, M0 in B1, B2.
  destruct (fits_dec al k ml (map (field_value p b) raw)) as [FT|NF].
  - destruct B1 as [c1 [h1 [zp1 [R [E1 [HR [U [SC [PK' [W' [A' [K' [M' I']]]]]]]]]]]]].
    { intros j bk Hj. destruct (NB j bk Hj) as [-> Hl]. cbn [mv_items length]. apply FT. exact Hl. }
    rewrite E in E1. apply Ok_inj in E1. injection E1 as <- <- <- _.
    assert (SZ : forall j bk, nth_error (hb_buckets h') j = Some bk -> length (mv_items bk) = ml /\ (j < k)%nat).
    { intros j bk Hj. assert (Hjk : (j < k)%nat).
      { assert (j < length (hb_buckets h'))%nat by (apply nth_error_Some; congruence). destruct W' as [WL _]. lia. }
      destruct (HR j (mkMvec [] false)) as [f [mk [ER [LR [FR CR]]]]]; [rewrite B0; apply nth_repeat_some; exact Hjk|].
      rewrite CR in Hj. injection Hj as <-. split; [exact LR|exact Hjk]. }
    destruct SC as [_ [_ [S3 [S4 _]]]].
    destruct (blind_ok p Hp Hnb sha HS rand fuel hw c' secret2 raw2 b2 h' zp' nt2 al PK' W' A' ltac:(lia) ltac:(lia) I') as [_ B4].
    { unfold points_of. rewrite U. destruct (Nat.eqb_spec (length (points_of sha p c (co_degree c))) 0); [unfold points; rewrite map_length, seq_length; lia|lia]. }
    { intros j bk Hj. destruct (SZ j bk Hj) as [SL _]. lia. }
    apply B4. destruct raw2 as [|v raw2]; [congruence|]. set (z := field_value p b2 v).
    assert (Hi : (index_of al k z < k)%nat) by (apply index_lt; lia).
    destruct (HR (index_of al k z) (mkMvec [] false)) as [f [mk [ER [LR [FR CR]]]]]; [rewrite B0; apply nth_repeat_some; exact Hi|].
    eexists _, _. split; [exact CR|]. cbn [mv_items]. rewrite LR, M', K'.
    assert (IN : In z (belonging al k (index_of al k z) (map (field_value p b2) (v :: raw2)))).
    { unfold belonging. apply filter_In. split; [left; reflexivity|apply Nat.eqb_refl]. }
    destruct (belonging al k (index_of al k z) (map (field_value p b2) (v :: raw2))); [contradiction|cbn [length]; lia].
  - rewrite B2 in E; [discriminate|].
    assert (EX : exists j, (j < k)%nat /\ (ml < length (belonging al k j (map (field_value p b) raw)))%nat).
    { assert (G : forall n, (forall j, (j < n)%nat -> (length (belonging al k j (map (field_value p b) raw)) <= ml)%nat) \/
        exists j, (j < n)%nat /\ (ml < length (belonging al k j (map (field_value p b) raw)))%nat).
      { clear. induction n as [|n IH]; [left; intros; lia|]. destruct IH as [IH|[j [Hj IH]]]; [|right; exists j; split; [lia|exact IH]].
        destruct (Nat.le_gt_cases (length (belonging al k n (map (field_value p b) raw))) ml).
        - left. intros j Hj. destruct (Nat.eq_dec j n) as [->|]; [assumption|apply IH; lia].
        - right. exists n. split; [lia|assumption]. }
      destruct (G k) as [X|X]; [contradiction|exact X]. }
    destruct EX as [j [Hj Hl]]. exists j, (mkMvec [] false). split; [rewrite B0; apply nth_repeat_some; exact Hj|exact Hl].
Qed.
Print Assumptions C17_setRawData_twice.
Example C17_twice_nonvacuous : exists h0 c' h' zp' m, new_hb 3 2 (Some ex_algo) = Ok h0 /\
  blind ex_sha ex_rand 10 61 4 (new_core 61 3 2 5 0) 77 [0; 1; 4] 3 (Some 3) h0 (new_zpprf 61 0) 8 = Ok (c', h', zp', m) /\
  blind ex_sha ex_rand 10 61 4 c' 77 [6] 1 (Some 3) h' zp' 8 = Exit 1.
Proof.
  destruct C62_nonvacuous as [h0 [[[[c' h'] zp'] m] [E0 E]]]. exists h0, c', h', zp', m. split; [exact E0|]. split; [exact E|].
  eapply (C17_setRawData_twice ex_sha ex_rand 10 61 4 (new_core 61 3 2 5 0) 77 77 [0; 1; 4] [6] 3 3 3 2 ex_algo h0 (new_zpprf 61 0) 8 8); try exact E0; try exact E; try lia; try reflexivity.
  - exact ex_is_sha.
  - apply new_party.
  - apply new_zp.
  - exact ex_algo_valid.
  - cbn. lia.
  - left. reflexivity.
  - discriminate.
Qed.

(** *** C83: setFieldsize and setDegree on a new party are the same as
    constructing it with these values (the last of each counts) *)
Inductive setter := SetF (f : Z) | SetD (d : nat).
Definition set_call (s : setter) : pop := match s with SetF f => PSetFieldsize f | SetD d => PSetDegree d end.
Definition last_field (f : Z) (l : list setter) : Z := fold_left (fun f s => match s with SetF g => g | _ => f end) l f.
Definition last_degree (d : nat) (l : list setter) : nat := fold_left (fun d s => match s with SetD e => e | _ => d end) l d.
Theorem C83_setters : forall sha rand fuel p canzass berlekamp hw L h pos l f d,
  run_pops sha rand fuel p canzass berlekamp hw (new_core f L h d pos) (map set_call l) =
  Ok (new_core (last_field f l) L h (last_degree d l) pos).
Proof.
  intros sha rand fuel p cz bk hw L h pos l. induction l as [|s l IH]; intros f d; [reflexivity|].
  cbn [map run_pops last_field last_degree fold_left]. destruct s as [g|e]; cbn [set_call run_pop bind].
  - exact (IH g d).
  - exact (IH f e).
Qed.
Print Assumptions C83_setters.

Example C83_nonvacuous : last_field 61 [SetF 7; SetD 3; SetF 11] = 11 /\ last_degree 9 [SetF 7; SetD 3; SetF 11] = 3%nat.
Proof. split; reflexivity. Qed.

(** C82: a client's intersect never calls Berlekamp's routine *)
Theorem C82_intersect_routine : forall sha rand fuel p canzass berlekamp other c bits t q k0,
  intersect sha rand fuel p canzass berlekamp c bits t q k0 = intersect sha rand fuel p canzass other c bits t q k0.
Proof. intros. reflexivity. Qed.
Print Assumptions C82_intersect_routine.
