(** C122: the probability of a wrong result. *)
From Coq Require Import Znumtheory.
From Verif Require Import Base Spec Lib NtlMiss NtlMissProofs StrIntModel HashBucketsModel HashBucketsSpec HashBucketsProofs.
From Verif Require Import PRFModel PRFSpec PRFProofs PolyModel PolySpec PolyProofs.
From Verif Require Import EopsiModel EopsiSpec EopsiProofs EopsiBlind EopsiRun EopsiFacts CountSpec CountProofs PropEopsi.

Lemma skip_chunks (f : nat -> list Z) m : forall L s j, (forall i, length (f i) = m) -> (j <= L)%nat ->
  skipn (m * j) (concat (map f (seq s L))) = concat (map f (seq (s + j) (L - j))).
Proof.
  induction L as [|L IH]; intros s j Hf Hj.
  - assert (j = 0)%nat as -> by lia. rewrite Nat.mul_0_r, Nat.add_0_r. reflexivity.
  - destruct j as [|j]; [rewrite Nat.mul_0_r, Nat.add_0_r; reflexivity|].
    cbn [seq map concat]. rewrite skipn_app, Hf. rewrite skipn_all2 by (rewrite Hf; nia). cbn [app].
    replace (m * S j - m)%nat with (m * j)%nat by nia. rewrite IH by (exact Hf || lia). f_equal. f_equal. f_equal; lia.
Qed.
Lemma concat_chunks_length (f : nat -> list Z) m L s : (forall i, length (f i) = m) ->
  length (concat (map f (seq s L))) = (m * L)%nat.
Proof. intros Hf. revert s. induction L as [|L IH]; intros s; cbn [seq map concat]; [cbn; lia|]. rewrite app_length, Hf, IH. lia. Qed.

Section Coeffs.
Context (sha : list Z -> list Z) (p : Z) (L D h : nat) (key : Z).
#[local] Notation cA := (coeffsA sha p L D h key).
#[local] Notation cB := (coeffsB sha p L D h key).
Lemma cA_length j : length (cA j) = h. Proof. unfold coeffsA. now rewrite map_length, seq_length. Qed.
Lemma cB_length j : length (cB j) = h. Proof. unfold coeffsB. now rewrite map_length, seq_length. Qed.
Lemma chunk_length j : length (cA j ++ cB j) = (2 * h)%nat.
Proof. rewrite app_length, cA_length, cB_length. lia. Qed.
Lemma skip_coeffs j : (j < L)%nat -> exists t, skipn (2 * h * j) (all_coeffs sha p L D h key) = cA j ++ cB j ++ t.
Proof.
  intros Hj. unfold all_coeffs. rewrite skip_chunks by (exact chunk_length || lia). cbn [Nat.add].
  replace (L - j)%nat with (S (L - j - 1)) by lia. cbn [seq map concat]. rewrite <- app_assoc. eauto.
Qed.
Lemma coefA_all j : (j < L)%nat -> coefA h j (all_coeffs sha p L D h key) = cA j.
Proof.
  intros Hj. unfold coefA, slice. destruct (skip_coeffs j Hj) as [t ->].
  rewrite firstn_app, cA_length, Nat.sub_diag. cbn [firstn]. rewrite app_nil_r. apply firstn_all2. rewrite cA_length. lia.
Qed.
Lemma coefB_all j : (j < L)%nat -> coefB h j (all_coeffs sha p L D h key) = cB j.
Proof.
  intros Hj. unfold coefB, slice. rewrite (Nat.add_comm (2 * h * j) h), <- skipn_skipn. destruct (skip_coeffs j Hj) as [t ->].
  rewrite skipn_app, cA_length, Nat.sub_diag. rewrite skipn_all2 by (rewrite cA_length; lia). cbn [app skipn].
  rewrite firstn_app, cB_length, Nat.sub_diag. cbn [firstn]. rewrite app_nil_r. apply firstn_all2. rewrite cB_length. lia.
Qed.
Lemma all_coeffs_vector : 0 < p -> In (all_coeffs sha p L D h key) (vectors p (2 * h * L)).
Proof.
  intros Hp. apply vectors_in. split; [unfold all_coeffs; now rewrite (concat_chunks_length _ (2 * h)) by exact chunk_length|].
  unfold all_coeffs. apply Forall_forall. intros x Hx. apply in_concat in Hx as (l & Hl & Hx).
  apply in_map_iff in Hl as (j & <- & _). apply in_app_or in Hx as [Hx|Hx]; apply in_map_iff in Hx as (c & <- & _); apply Z.mod_pos_bound; exact Hp.
Qed.
End Coeffs.

(** the tables do not depend on the temporary key *)
Lemma tables_fixed sha rand fuel p hw L h D al b rawA rawB sA sB key key' nt posA posB r r' :
  exchange sha rand fuel p hw L h D al b rawA rawB sA sB key nt posA posB = Ok r ->
  exchange sha rand fuel p hw L h D al b rawA rawB sA sB key' nt posA posB = Ok r' ->
  rr_tableA r = rr_tableA r' /\ rr_tableB r = rr_tableB r'.
Proof.
  unfold exchange. cbv zeta. intros E E'.
  apply bind_ok in E as (hA0 & EA0 & E). rewrite EA0 in E, E'. cbn [bind] in E, E'.
  apply bind_ok in E as ([[[cA hA] zA] mA] & EA & E). rewrite EA in E'. cbn [bind] in E'.
  apply bind_ok in E as ([[[cB hB] zB] mB] & EB & E). rewrite EB in E'. cbn [bind] in E'.
  apply bind_ok in E as ([cS t] & _ & E). apply bind_ok in E as ([[cA1 zA1] q] & _ & E). apply Ok_inj in E. subst r.
  apply bind_ok in E' as ([cS' t'] & _ & E'). apply bind_ok in E' as ([[cA1' zA1'] q'] & _ & E'). apply Ok_inj in E'. subst r'.
  split; reflexivity.
Qed.

(** For fixed inputs the runs differ in the temporary key only, and of that the
    result depends only on the vector of the 2*h*L coefficients drawn from its
    stream.  All but a fraction of at most L / 2^pad of the p^(2hL) possible
    vectors give exactly the intersection (unless a dummy met an element of the
    other client): with coefficients as good as uniformly drawn the result is
    wrong with probability at most L / 2^pad. *)
Theorem C122_error_bound : forall sha p L h D al b rawA rawB rand fuel hw sA sB nt posA posB,
  setting sha p L h D al b rawA rawB -> distinct_points sha p D ->
  let pad := num_bits p - b - 1 in
  let n := (2 * h * L)%nat in
  exists W, NoDup W /\ incl W (vectors p n) /\ Z.of_nat (length W) * 2 ^ pad <= Z.of_nat L * p ^ Z.of_nat n /\
  forall key canzass berlekamp k0, factors_correctly p canzass -> factors_correctly p berlekamp ->
  exists r vs, session sha rand fuel p canzass berlekamp hw L h D al b rawA rawB sA sB key nt posA posB k0 = Ok (r, Some vs) /\
    In (all_coeffs sha p L D h key) (vectors p n) /\
    (no_dummy_met al pad L rawA rawB (rr_tableA r) (rr_tableB r) -> ~ In (all_coeffs sha p L D h key) W ->
       NoDup vs /\ forall v, In v vs <-> In v rawA /\ In v rawB /\ (v = 0 -> pad = 0)).
Proof.
  intros sha p L h D al b rawA rawB rand fuel hw sA sB nt posA posB ST ND pad n.
  assert (W0 : 0 <= pad) by (unfold pad; pose proof (st_width _ _ _ _ _ _ _ _ _ ST); lia).
  assert (P2 : 0 < 2 ^ pad) by (apply Z.pow_pos_nonneg; lia).
  assert (HPr := st_prime _ _ _ _ _ _ _ _ _ ST). assert (HOdd := st_odd _ _ _ _ _ _ _ _ _ ST).
  destruct (exch_facts ST 0 rand fuel hw sA sB nt posA posB) as (r0 & RA & RB & E0 & FL0 & _).
  exists (wrong p pad L h RA RB). split; [apply NoDup_filter, vectors_nodup|].
  split; [intros x Hx; apply filter_In in Hx; apply Hx|].
  assert (FF : forall j, (j < L)%nat -> length (RA j) = h /\ length (RB j) = h /\ Forall (fun c => 0 <= c < p) (RA j) /\ Forall (fun c => 0 <= c < p) (RB j)).
  { intros j Hj. destruct (FL0 j Hj) as (fA & fB & EA & EB & LA & LB & FA & FB & _).
    split; [exact LA|]. split; [exact LB|]. rewrite EA, EB. split; apply Forall_app; (split; [|assumption]).
    - apply Forall_forall. intros x Hx. apply belonging_in in Hx as [Hx _].
      assert (F := data_field ST rawA (st_dataA _ _ _ _ _ _ _ _ _ ST)). rewrite Forall_forall in F. now apply F.
    - apply Forall_forall. intros x Hx. apply belonging_in in Hx as [Hx _].
      assert (F := data_field ST rawB (st_dataB _ _ _ _ _ _ _ _ _ ST)). rewrite Forall_forall in F. now apply F. }
  split; [now apply wrong_count|].
  intros key canzass berlekamp k0 HC HB.
  destruct (sess_facts ST key rand fuel hw sA sB nt posA posB k0 canzass berlekamp HC HB) as (r & RA' & RB' & E & FL & X & _).
  destruct (X ND) as (vss & ES & F2). exists r, (concat vss). split; [exact ES|].
  split; [apply all_coeffs_vector; lia|]. intros HM HW.
  destruct (tables_fixed _ _ _ _ _ _ _ _ _ _ _ _ _ _ _ _ _ _ _ _ _ E0 E) as [TA TB].
  assert (SAME : forall j, (j < L)%nat -> RA' j = RA j /\ RB' j = RB j).
  { intros j Hj. destruct (FL0 j Hj) as (_ & _ & _ & _ & _ & _ & _ & _ & [m1 C1] & [m2 C2]).
    destruct (FL j Hj) as (_ & _ & _ & _ & _ & _ & _ & _ & [m3 C3] & [m4 C4]). rewrite TA in C1. rewrite TB in C2. split; congruence. }
  apply (exact_run ST key r RA' RB' vss FL); [|exact F2].
  intros j z Hj Rz [v Hv] Z0 (A & B & CA & CB & HR). rewrite Hv in *.
  assert (EA : A = RA j /\ B = RB j).
  { destruct (FL j Hj) as (_ & _ & _ & _ & _ & _ & _ & _ & [m3 C3] & [m4 C4]). destruct (SAME j Hj) as [<- <-].
    destruct CA as [m5 C5]. destruct CB as [m6 C6]. split; congruence. }
  destruct EA as [-> ->].
  rewrite <- (coefA_all sha p L D h key j Hj), <- (coefB_all sha p L D h key j Hj) in HR.
  destruct (wrong_right p pad L h RA RB (all_coeffs sha p L D h key) j v W0) as [I1 I2];
    [apply all_coeffs_vector; lia|exact HW|exact Hj|exact Rz|intros ->; destruct Z0; reflexivity|exact HR|].
  destruct (HM j (RA j) (RB j) v Hj CA CB) as (IA & IB & IX); [intros ->; destruct Z0; reflexivity|exact I1|exact I2|].
  split; apply belonging_in; (split; [|exact IX]); unfold padded_data; apply in_map_iff; exists v; (split; [reflexivity|assumption]).
Qed.
Print Assumptions C122_error_bound.

(** For one bucket and one field element that is not in both buckets, exactly
    one in p of the vectors makes it a root (a false positive if it carries the
    pad); one that is in both is always a root.  [vectors p n] lists every
    vector once. *)
Theorem C122_one_in_p :
  (forall p n, 0 <= p -> NoDup (vectors p n) /\ Z.of_nat (length (vectors p n)) = p ^ Z.of_nat n /\
     forall cs, In cs (vectors p n) <-> length cs = n /\ Forall (fun c => 0 <= c < p) cs) /\
  (forall p L h j RA RB z, prime p -> (0 < h)%nat -> (j < L)%nat -> 0 <= z < p ->
   Forall (fun c => 0 <= c < p) RA -> Forall (fun c => 0 <= c < p) RB ->
   let root cs := combined p RA RB (coefA h j cs) (coefB h j cs) z =? 0 in
   (~ (In z RA /\ In z RB) -> Z.of_nat (length (filter root (vectors p (2 * h * L)))) * p = p ^ Z.of_nat (2 * h * L)) /\
   (In z RA -> In z RB -> filter root (vectors p (2 * h * L)) = vectors p (2 * h * L))).
Proof.
  split; [intros; now apply vectors_all|]. intros p L h j RA RB z HP Hh Hj Hz FA FB root. split.
  - intros HN. unfold root. rewrite count_root by assumption. rewrite vectors_length by lia.
    rewrite Z.mul_comm, <- Z.pow_succ_r by lia. f_equal. assert (0 < 2 * h * L)%nat by nia. lia.
  - intros IA IB. apply (prod_value_zero p RA z HP Hz FA) in IA. apply (prod_value_zero p RB z HP Hz FB) in IB.
    assert (T : forall cs, root cs = true).
    { intros cs. unfold root, combined. rewrite IA, IB. apply Z.eqb_eq. rewrite !Z.mul_0_l, Z.add_0_l. apply Z.mod_0_l. lia. }
    induction (vectors p (2 * h * L)) as [|x l IH]; [reflexivity|]. cbn [filter]. now rewrite T, IH.
Qed.
Print Assumptions C122_one_in_p.

(** The running example (p = 61, three buckets of two, pad of two bits): no dummy
    met an element; key 99 gives the intersection, key 100 reports 12 as well,
    so its vector is one of the bad ones; and at least a quarter of the 61^12
    vectors is good. *)
#[local] Notation ex_run key := (session ex_sha ex_rand 10 61 ex_factor ex_factor 4 3 2 5 ex_algo 3 [0; 1; 4] [1; 3; 0] 77 88 key 1 0 5 0).
Lemma ex_no_dummy_met key r : exchange ex_sha ex_rand 10 61 4 3 2 5 ex_algo 3 [0; 1; 4] [1; 3; 0] 77 88 key 1 0 5 = Ok r ->
  no_dummy_met ex_algo 2 3 [0; 1; 4] [1; 3; 0] (rr_tableA r) (rr_tableB r).
Proof.
  intros E j RA RB v Hj CA CB Z0 IA IB. apply items_contents in CA, CB. subst RA RB.
  assert (NZ : v <> 0) by (intros V0; specialize (Z0 V0); discriminate).
  destruct (exch_facts ex_setting 99 ex_rand 10%nat 4%nat 77 88 1%nat 0%nat 5%nat) as (r0 & _ & _ & E0 & _).
  assert (T := tables_fixed _ _ _ _ _ _ _ _ _ _ _ _ _ _ _ _ _ _ _ _ _ E E0).
  destruct T as [TA TB]. rewrite TA in IA. rewrite TB in IB. clear TA TB E.
  vm_compute in E0. apply Ok_inj in E0. subst r0. unfold padded in *. change (2 ^ 2) with 4 in *.
  remember (v * 4) as z eqn:Hz.
  assert (H : z = 4 /\ j = 1%nat).
  { destruct j as [|[|[|j]]]; [| | |lia]; vm_compute in IA, IB; lia. }
  destruct H as [H ->]. assert (v = 1) as -> by lia. subst z. clear IA IB. split; [cbn; auto|]. split; [cbn; auto|]. vm_compute. reflexivity.
Qed.
Lemma some_good p n W : 0 < p -> Z.of_nat (length W) * 4 <= 3 * p ^ Z.of_nat n -> exists cs, In cs (vectors p n) /\ ~ In cs W.
Proof.
  intros Hp CNT. assert (0 < p ^ Z.of_nat n) by (apply Z.pow_pos_nonneg; lia).
  assert (NI : ~ incl (vectors p n) W).
  { intros HI. apply NoDup_incl_length in HI; [|apply vectors_nodup]. apply Nat2Z.inj_le in HI. rewrite vectors_length in HI by lia. lia. }
  assert (F : ~ Forall (fun cs => In cs W) (vectors p n)) by (intros F; rewrite Forall_forall in F; exact (NI F)).
  apply neg_Forall_Exists_neg in F; [|intros x; apply in_dec, list_eq_dec, Z.eq_dec].
  apply Exists_exists in F as (cs & I1 & I2). eauto.
Qed.
Lemma session_exch sha rand fuel p cz bk hw L h D al b rawA rawB sA sB key nt posA posB k0 r o :
  session sha rand fuel p cz bk hw L h D al b rawA rawB sA sB key nt posA posB k0 = Ok (r, o) ->
  exchange sha rand fuel p hw L h D al b rawA rawB sA sB key nt posA posB = Ok r.
Proof. intros E. unfold session in E. apply bind_ok in E. destruct E as [r' [E1 E]]. apply bind_ok in E. destruct E as [x [_ E]]. apply Ok_inj in E. congruence. Qed.
Lemma ex_exch key r vs : ex_run key = Ok (r, Some vs) -> exchange ex_sha ex_rand 10 61 4 3 2 5 ex_algo 3 [0; 1; 4] [1; 3; 0] 77 88 key 1 0 5 = Ok r.
Proof. exact (session_exch _ _ _ _ _ _ _ _ _ _ _ _ _ _ _ _ _ _ _ _ _ _ _). Qed.
Lemma ex_bound : exists W, Z.of_nat (length W) * 4 <= 3 * 61 ^ Z.of_nat 12 /\
  forall key, exists r vs, ex_run key = Ok (r, Some vs) /\ no_dummy_met ex_algo 2 3 [0; 1; 4] [1; 3; 0] (rr_tableA r) (rr_tableB r) /\
    (~ In (all_coeffs ex_sha 61 3 5 2 key) W -> forall v, In v vs <-> v = 1).
Proof.
  destruct (C122_error_bound _ _ _ _ _ _ _ _ _ ex_rand 10%nat 4%nat 77 88 1%nat 0%nat 5%nat ex_setting ex_distinct) as (W & ND & INC & CNT & K).
  assert (PD : num_bits 61 - 3 - 1 = 2) by (vm_compute; reflexivity). rewrite PD in CNT, K. clear PD INC.
  exists W. split; [exact CNT|]. intros key.
  destruct (K key ex_factor ex_factor 0%nat ex_factor_ok ex_factor_ok) as (r & vs & E & _ & X). exists r, vs. split; [exact E|].
  assert (NM := ex_no_dummy_met _ _ (ex_exch _ _ _ E)). split; [exact NM|]. intros HN. destruct (X NM HN) as [_ SET]. clear -SET.
  intros v. rewrite SET. cbn [In]. split.
  - intros [A [B C]]. assert (v <> 0) by (intros V0; specialize (C V0); discriminate). lia.
  - intros ->. split; [auto|]. split; [auto|discriminate].
Qed.
Lemma ex_bad W : (forall key, exists r vs, ex_run key = Ok (r, Some vs) /\ no_dummy_met ex_algo 2 3 [0; 1; 4] [1; 3; 0] (rr_tableA r) (rr_tableB r) /\
    (~ In (all_coeffs ex_sha 61 3 5 2 key) W -> forall v, In v vs <-> v = 1)) -> In (all_coeffs ex_sha 61 3 5 2 100) W.
Proof.
  intros K. destruct (in_dec (list_eq_dec Z.eq_dec) (all_coeffs ex_sha 61 3 5 2 100) W) as [HI|HN]; [exact HI|exfalso].
  destruct (K 100) as (r & vs & E & _ & X). destruct C46_nonvacuous as [_ (r' & vs' & E' & I12)].
  rewrite E in E'. apply Ok_inj in E'. injection E' as _ <-. apply (X HN) in I12. lia.
Qed.
Example C122_nonvacuous :
  setting ex_sha 61 3 2 5 ex_algo 3 [0; 1; 4] [1; 3; 0] /\ distinct_points ex_sha 61 5 /\
  exists W, Z.of_nat (length W) * 4 <= 3 * 61 ^ Z.of_nat 12 /\ (exists cs, In cs (vectors 61 12) /\ ~ In cs W) /\
    In (all_coeffs ex_sha 61 3 5 2 100) W /\
    exists r vs, ex_run 99 = Ok (r, Some vs) /\ no_dummy_met ex_algo 2 3 [0; 1; 4] [1; 3; 0] (rr_tableA r) (rr_tableB r) /\
      (~ In (all_coeffs ex_sha 61 3 5 2 99) W -> forall v, In v vs <-> v = 1).
Proof.
  split; [exact ex_setting|]. split; [exact ex_distinct|]. destruct ex_bound as (W & CNT & K). exists W. split; [exact CNT|].
  split; [apply some_good; [lia|exact CNT]|]. split; [apply ex_bad; exact K|exact (K 99)].
Qed.
