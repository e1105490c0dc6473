(** The properties of a run, derived from EopsiRun. *)
From Verif Require Import Base Spec Lib NtlMiss NtlMissProofs StrIntModel HashBucketsModel HashBucketsSpec HashBucketsProofs.
From Verif Require Import PRFModel PRFSpec PRFProofs PolyModel PolySpec PolyProofs InterpProofs PolyObjProofs.
From Verif Require Import EopsiModel EopsiSpec EopsiProofs EopsiBlind EopsiRun.
From Coq Require Import Znumtheory.

Lemma Forall2_length {A B} (R : A -> B -> Prop) l m : Forall2 R l m -> length l = length m.
Proof. induction 1; cbn [length]; congruence. Qed.
Lemma prime_prod_zero p a b : prime p -> (a * b) mod p = 0 -> a mod p = 0 \/ b mod p = 0.
Proof. intros HP E. apply (proj2 (cong_0_iff _)) in E. apply (prime_cong_mul HP) in E. destruct E as [E|E]; apply cong_0_iff in E; auto. Qed.

Lemma prod_value_zero p rs z : prime p -> 0 <= z < p -> Forall (in_field p) rs -> (prod_value p rs z = 0 <-> In z rs).
Proof.
  intros HP Hz F. unfold prod_value. change (fold_right (fun r acc => (z - r) * acc) 1 rs) with (roots_product rs z).
  rewrite <- cong_0_iff. rewrite (roots_product_zero p HP rs z). split.
  - intros [r [Hr E]]. rewrite Forall_forall in F. assert (z = r) by (apply (cong_eq (p := p)); [exact Hz|apply F; exact Hr|exact E]). subst. exact Hr.
  - intros H. exists z. split; [exact H|reflexivity].
Qed.

Section F.
Context {sha : list Z -> list Z} {p : Z} {L h D : nat} {al : halgo Z} {b : Z} {rawA rawB : list Z}.
Hypothesis ST : setting sha p L h D al b rawA rawB.
#[local] Notation w := (pad_width p b).

Lemma data_eq raw : Forall (fun v => 0 <= v < 2 ^ b) raw -> map (field_value p b) raw = padded_data p b raw.
Proof.
  intros F. apply map_ext_in. intros v Hv. rewrite Forall_forall in F. destruct ST as [HSh HPr HOdd HLong HAl HL HDeg HW HdA HdB HfA HfB].
  apply (field_value_padded p HOdd HLong (fun _ => 0) 0%nat); [assumption|apply F; exact Hv].
Qed.
Lemma data_field raw : Forall (fun v => 0 <= v < 2 ^ b) raw -> Forall (in_field p) (padded_data p b raw).
Proof.
  intros F. apply Forall_forall. intros z Hz. apply in_map_iff in Hz. destruct Hz as [v [<- Hv]]. rewrite Forall_forall in F. destruct ST as [HSh HPr HOdd HLong HAl HL HDeg HW HdA HdB HfA HfB].
  apply (field_value_padded p HOdd HLong (fun _ => 0) 0%nat); [assumption|apply F; exact Hv].
Qed.

Variable key : Z.
#[local] Notation cA j := (coeffsA sha p L D h key j).
#[local] Notation cB j := (coeffsB sha p L D h key j).
#[local] Notation us := (points sha p (num_bits p) D).

(** what the two tables contain *)
Definition filled (r : run_result) (RA RB : nat -> list Z) : Prop :=
  forall j, (j < L)%nat -> exists fA fB,
    RA j = belonging al L j (padded_data p b rawA) ++ fA /\ RB j = belonging al L j (padded_data p b rawB) ++ fB /\
    length (RA j) = h /\ length (RB j) = h /\ Forall (in_field p) fA /\ Forall (in_field p) fB /\
    contents (rr_tableA r) j (RA j) /\ contents (rr_tableB r) j (RB j).

(** reported iff root *)
Lemma roots_of_run r RA RB vss : filled r RA RB ->
  Forall2 (padded_roots p w) (map (fun j => comb_poly p (RA j) (RB j) (cA j) (cB j)) (seq 0 L)) vss ->
  forall v, In v (concat vss) <->
    exists j, (j < L)%nat /\ 0 <= padded w v < p /\ (v = 0 -> w = 0) /\ bucket_root sha p L D h key (rr_tableA r) (rr_tableB r) j (padded w v).
Proof.
  intros FL F2 v. destruct ST as [HSh HPr HOdd HLong HAl HL HDeg HW HdA HdB HfA HfB].
  assert (W0 : 0 <= w) by (unfold pad_width; lia). assert (P2 : 0 < 2 ^ w) by (apply Z.pow_pos_nonneg; lia).
  assert (LV : length vss = L).
  { apply Forall2_length in F2. rewrite map_length, seq_length in F2. congruence. }
  assert (PJ : forall j vs, nth_error vss j = Some vs -> (j < L)%nat /\ padded_roots p w (comb_poly p (RA j) (RB j) (cA j) (cB j)) vs).
  { intros j vs Hj. assert (Hjl : (j < L)%nat) by (rewrite <- LV; apply nth_error_Some; congruence). split; [exact Hjl|].
    clear -F2 Hj Hjl. set (g := fun j => comb_poly p (RA j) (RB j) (cA j) (cB j)) in *. fold (g j).
    assert (G : forall n k vss j vs, Forall2 (padded_roots p w) (map g (seq k n)) vss -> nth_error vss j = Some vs -> padded_roots p w (g (k + j)%nat) vs).
    { clear. induction n as [|n IH]; intros k vss j vs F Hj; cbn [seq map] in F.
      - inversion F; subst. destruct j; discriminate.
      - inversion F as [|f vs0 r0 vss0 H0 F0]; subst. destruct j as [|j]; [injection Hj as <-; rewrite Nat.add_0_r; exact H0|].
        replace (k + S j)%nat with (S k + j)%nat by lia. eapply IH; [exact F0|exact Hj]. }
    apply (G L 0%nat vss j vs F2 Hj). }
  split.
  - intros Hin. apply in_concat in Hin. destruct Hin as [vs [Hvs Hv]]. apply In_nth_error in Hvs. destruct Hvs as [j Hj].
    destruct (PJ j vs Hj) as [Hjl [zs [_ [HZ EV]]]]. rewrite EV in Hv. apply in_map_iff in Hv. destruct Hv as [z [Ez Hz]].
    apply HZ in Hz. destruct Hz as [[Rz Vz] [[q Hq] Z0]]. assert (v = q) by (rewrite <- Ez, Hq; apply Z.div_mul; lia). subst q.
    rewrite Hq in *. exists j. split; [exact Hjl|]. split; [exact Rz|]. split; [intros ->; apply Z0; reflexivity|].
    destruct (FL j Hjl) as [fA [fB [_ [_ [_ [_ [_ [_ [CA CB]]]]]]]]]. exists (RA j), (RB j). split; [exact CA|]. split; [exact CB|].
    rewrite comb_value in Vz. exact Vz.
  - intros [j [Hjl [Rz [Z0 [A [B [CA [CB VZ]]]]]]]].
    destruct (FL j Hjl) as [fA [fB [_ [_ [_ [_ [_ [_ [[mA CA'] [mB CB']]]]]]]]]].
    destruct CA as [mA' CA]. destruct CB as [mB' CB]. rewrite CA' in CA. rewrite CB' in CB. apply Ok_inj in CA. apply Ok_inj in CB.
    injection CA as <- _. injection CB as <- _.
    destruct (nth_error vss j) as [vs|] eqn:Hj; [|apply nth_error_None in Hj; lia].
    destruct (PJ j vs Hj) as [_ [zs [_ [HZ EV]]]]. apply in_concat. exists vs. split; [eapply nth_error_In; exact Hj|].
    rewrite EV. apply in_map_iff. exists (padded w v). split; [unfold padded; apply Z.div_mul; lia|]. apply HZ. split; [split; [exact Rz|rewrite comb_value; exact VZ]|].
    split; [exists v; reflexivity|]. unfold padded. intros E. apply Z0. nia.
Qed.

Lemma belonging_in (l : list Z) j z : In z (belonging al L j l) <-> In z l /\ index_of al L z = j.
Proof. unfold belonging. rewrite filter_In, Nat.eqb_eq. reflexivity. Qed.

Lemma common_is_root r RA RB v : filled r RA RB -> In v rawA -> In v rawB ->
  exists j, (j < L)%nat /\ bucket_root sha p L D h key (rr_tableA r) (rr_tableB r) j (padded w v).
Proof.
  intros FL IA IB. destruct ST as [HSh HPr HOdd HLong HAl HL HDeg HW HdA HdB HfA HfB].
  set (z := padded w v). exists (index_of al L z). assert (Hj := index_lt al L z HL). split; [exact Hj|].
  destruct (FL _ Hj) as [fA [fB [EA [EB [_ [_ [_ [_ [CA CB]]]]]]]]]. exists (RA (index_of al L z)), (RB (index_of al L z)).
  split; [exact CA|]. split; [exact CB|].
  assert (ZA : In z (RA (index_of al L z))).
  { rewrite EA. apply in_or_app. left. apply belonging_in. split; [apply in_map; exact IA|reflexivity]. }
  assert (ZB : In z (RB (index_of al L z))).
  { rewrite EB. apply in_or_app. left. apply belonging_in. split; [apply in_map; exact IB|reflexivity]. }
  assert (PZ : forall R, In z R -> prod_value p R z = 0).
  { intros R H. unfold prod_value. apply cong_0_iff. apply (roots_product_zero p HPr R z). exists z. split; [exact H|reflexivity]. }
  unfold combined. rewrite (PZ _ ZA), (PZ _ ZB). reflexivity.
Qed.

(** exactness *)
Definition no_accident (r : run_result) : Prop :=
  forall j z, (j < L)%nat -> 0 <= z < p -> (2 ^ w | z) -> (z = 0 -> w = 0) ->
    bucket_root sha p L D h key (rr_tableA r) (rr_tableB r) j z ->
    In z (belonging al L j (padded_data p b rawA)) /\ In z (belonging al L j (padded_data p b rawB)).

Lemma concat_nodup {A B} (f : A -> list B) (l : list A) : NoDup l -> (forall a, In a l -> NoDup (f a)) ->
  (forall a a' x, In a l -> In a' l -> In x (f a) -> In x (f a') -> a = a') -> NoDup (concat (map f l)).
Proof.
  induction 1 as [|a l Ha NDl IH]; intros H1 H2; cbn [map concat]; [constructor|].
  assert (ND2 : NoDup (concat (map f l))) by (apply IH; [intros; apply H1; right; assumption|intros a0 a' x X1 X2; apply H2; right; assumption]).
  specialize (H1 a (or_introl eq_refl)).
  assert (DJ : forall x, In x (f a) -> ~ In x (concat (map f l))).
  { intros x Hx Hc. apply in_concat in Hc. destruct Hc as [y [Hy Hxy]]. apply in_map_iff in Hy. destruct Hy as [a' [<- Ha']].
    assert (a = a') by (apply (H2 a a' x); [left; reflexivity|right; exact Ha'|exact Hx|exact Hxy]). subst. contradiction. }
  clear -H1 ND2 DJ. induction (f a) as [|x t IHt]; [exact ND2|]. inversion H1; subst. cbn [app]. constructor.
  - intros H. apply in_app_or in H. destruct H as [H|H]; [contradiction|]. apply (DJ x); [left; reflexivity|exact H].
  - apply IHt; [assumption|]. intros y Hy. apply DJ. right. exact Hy.
Qed.

Lemma exact_run r RA RB vss : filled r RA RB -> no_accident r ->
  Forall2 (padded_roots p w) (map (fun j => comb_poly p (RA j) (RB j) (cA j) (cB j)) (seq 0 L)) vss ->
  NoDup (concat vss) /\ forall v, In v (concat vss) <-> In v rawA /\ In v rawB /\ (v = 0 -> w = 0).
Proof.
  intros FL NA F2. pose proof (roots_of_run r RA RB vss FL F2) as RO. destruct ST as [HSh HPr HOdd HLong HAl HL HDeg HW HdA HdB HfA HfB].
  assert (W0 : 0 <= w) by (unfold pad_width; lia). assert (P2 : 0 < 2 ^ w) by (apply Z.pow_pos_nonneg; lia).
  assert (INP : forall raw j v, In (padded w v) (belonging al L j (padded_data p b raw)) -> In v raw /\ index_of al L (padded w v) = j).
  { intros raw j v H. apply belonging_in in H. destruct H as [H E]. split; [|exact E]. apply in_map_iff in H. destruct H as [v' [Ev Hv']].
    unfold padded in Ev. assert (v' = v) by nia. subst. exact Hv'. }
  split.
  - set (nthv := fun j => nth j vss []).
    assert (LV : length vss = L) by (apply Forall2_length in F2; rewrite map_length, seq_length in F2; congruence).
    assert (EC : vss = map nthv (seq 0 L)).
    { unfold nthv. rewrite <- LV. clear. induction vss as [|a l IH]; [reflexivity|]. cbn [length seq map]. f_equal. rewrite <- seq_shift, map_map. exact IH. }
    assert (PJ : forall j, (j < L)%nat -> padded_roots p w (comb_poly p (RA j) (RB j) (cA j) (cB j)) (nthv j)).
    { intros j Hj. rewrite EC in F2. clear -F2 Hj. set (g := fun j => comb_poly p (RA j) (RB j) (cA j) (cB j)) in *. fold (g j).
      assert (G : forall n k, Forall2 (padded_roots p w) (map g (seq k n)) (map nthv (seq k n)) -> forall j, (k <= j < k + n)%nat -> padded_roots p w (g j) (nthv j)).
      { clear. induction n as [|n IH]; intros k F j Hj; [lia|]. cbn [seq map] in F. inversion F as [|? ? ? ? H0 F0]; subst.
        destruct (Nat.eq_dec k j) as [->|]; [exact H0|]. apply (IH (S k) F0). lia. }
      apply (G L 0%nat F2). lia. }
    assert (IN1 : forall j v, (j < L)%nat -> In v (nthv j) -> index_of al L (padded w v) = j).
    { intros j v Hj Hv. destruct (PJ j Hj) as [zs [_ [HZ EV]]]. rewrite EV in Hv. apply in_map_iff in Hv. destruct Hv as [z [Ez Hz]].
      apply HZ in Hz. destruct Hz as [[Rz Vz] [[q Hq] Z0]]. assert (v = q) by (rewrite <- Ez, Hq; apply Z.div_mul; lia). subst q.
      destruct (FL j Hj) as [fA [fB [_ [_ [_ [_ [_ [_ [CA CB]]]]]]]]].
      destruct (NA j z Hj Rz) as [N1 _]; [exists v; exact Hq|exact Z0| |].
      - exists (RA j), (RB j). split; [exact CA|]. split; [exact CB|]. rewrite <- comb_value. exact Vz.
      - rewrite Hq in N1. apply (INP rawA). exact N1. }
    rewrite EC. apply concat_nodup.
    + apply seq_NoDup.
    + intros j Hj. apply in_seq in Hj. destruct (PJ j ltac:(lia)) as [zs [NDz [HZ EV]]]. rewrite EV.
      assert (MZ : forall z, In z zs -> (2 ^ w | z)) by (intros z Hz; apply HZ in Hz; apply Hz).
      clear -NDz MZ P2. induction NDz as [|z zs Hn ND IH]; [constructor|]. cbn [map]. constructor.
      * intros H. apply in_map_iff in H. destruct H as [z' [E Hz']]. destruct (MZ z (or_introl eq_refl)) as [q ->]. destruct (MZ z' (or_intror Hz')) as [q' ->].
        rewrite !Z.div_mul in E by lia. subst. contradiction.
      * apply IH. intros y Hy. apply MZ. right. exact Hy.
    + intros j j' v Hj Hj' Hv Hv'. apply in_seq in Hj. apply in_seq in Hj'. rewrite <- (IN1 j v), <- (IN1 j' v); auto; lia.
  - intros v. rewrite RO. split.
    + intros [j [Hj [Rz [Z0 BR]]]]. destruct (NA j (padded w v) Hj Rz) as [N1 N2]; [exists v; reflexivity|unfold padded; intros E; apply Z0; nia|exact BR|].
      split; [apply (INP rawA j v N1)|]. split; [apply (INP rawB j v N2)|exact Z0].
    + intros [IA [IB Z0]]. destruct (common_is_root r RA RB v FL IA IB) as [j [Hj BR]]. exists j. split; [exact Hj|]. split.
      * assert (F := data_field rawA HdA). rewrite Forall_forall in F. apply F. apply in_map. exact IA.
      * split; assumption.
Qed.

Variable rand : nat -> Z.
Variable fuel hw : nat.
Variables sA sB : Z.
Variables nt posA posB k0 : nat.
#[local] Notation exch := (exchange sha rand fuel p hw L h D al b rawA rawB sA sB key nt posA posB).

Lemma exch_facts : exists r RA RB, exch = Ok r /\ filled r RA RB /\
    rr_blindA r = table2 L D (blind_cell p sha sA D us RA) /\ rr_blindB r = table2 L D (blind_cell p sha sB D us RB) /\
    (exists vt vq, rr_t r = table2 L D vt /\ rr_q r = table2 L D vq /\
      forall j i, (j < L)%nat -> (i < D)%nat -> (vt j i - vq j i) mod p = combined p (RA j) (RB j) (cA j) (cB j) (nth i us 0)).
Proof.
  destruct ST as [HSh HPr HOdd HLong HAl HL HDeg HW HdA HdB HfA HfB]. pose proof (exchange_ok p HOdd HLong sha HSh rand fuel hw L h D al b rawA rawB sA sB key nt posA posB HAl HL) as X.
  cbv zeta in X. rewrite (data_eq rawA), (data_eq rawB) in X by assumption.
  destruct (X HfA HfB) as [r [RA [RB [E [HR [HA [HB [HT _]]]]]]]]. exists r, RA, RB. auto.
Qed.

Variables canzass berlekamp : nat -> list Z -> list (list Z * Z).
Hypothesis HC : factors_correctly p canzass.
Hypothesis HB : factors_correctly p berlekamp.
#[local] Notation sess := (session sha rand fuel p canzass berlekamp hw L h D al b rawA rawB sA sB key nt posA posB k0).

Lemma sess_facts : exists r RA RB, exch = Ok r /\ filled r RA RB /\
  (distinct_points sha p D -> exists vss, sess = Ok (r, Some (concat vss)) /\
     Forall2 (padded_roots p w) (map (fun j => comb_poly p (RA j) (RB j) (cA j) (cB j)) (seq 0 L)) vss) /\
  (~ distinct_points sha p D -> sess = Abort).
Proof.
  destruct ST as [HSh HPr HOdd HLong HAl HL HDeg HW HdA HdB HfA HfB]. pose proof (session_ok p HPr HOdd HLong sha HSh rand fuel canzass berlekamp HC HB hw L h D al b rawA rawB sA sB key nt posA posB k0
    HAl HL HW HDeg) as X.
  cbv zeta in X. rewrite (data_eq rawA), (data_eq rawB) in X by assumption.
  destruct (X HfA HfB) as [r [RA [RB [E [HR [HD HN]]]]]]. exists r, RA, RB. auto.
Qed.

End F.

(** *** C47 *)
Lemma constant_coefficient p ra rb ca cb z : prime p -> prod_value p ra z <> 0 ->
  exists c0, 0 <= c0 < p /\ forall c, 0 <= c < p -> (combined p ra rb (c :: ca) cb z = 0 <-> c = c0).
Proof.
  intros HP N. pose proof (prime_ge_2 p HP) as G2. set (P := prod_value p ra z) in *.
  assert (RP : 0 < P < p). { assert (0 <= P < p) by (apply Z.mod_pos_bound; lia). lia. }
  destruct (inv_mod_ok p HP P RP) as [i [_ [Hi Ei]]].
  set (K := P * (z * ev (ca ++ [1]) z) + prod_value p rb z * omega_value p cb z).
  exists ((- i * K) mod p). split; [apply Z.mod_pos_bound; lia|]. intros c Hc.
  assert (E : cong p (combined p ra rb (c :: ca) cb z) (P * c + K)).
  { unfold combined, omega_value. rewrite cong_mod, !value_ev. fold P. cbn [app ev]. rewrite cong_mod. apply cong_refl'.
    unfold K, omega_value. rewrite value_ev. ring. }
  assert (R : 0 <= combined p ra rb (c :: ca) cb z < p) by (apply Z.mod_pos_bound; lia).
  assert (Z0 : combined p ra rb (c :: ca) cb z = 0 <-> cong p (P * c + K) 0).
  { rewrite <- E. rewrite cong_0_iff. rewrite Z.mod_small by exact R. reflexivity. }
  rewrite Z0. split.
  - intros H. apply (cong_eq (p := p)); [exact Hc|apply Z.mod_pos_bound; lia|]. rewrite cong_mod.
    transitivity (i * P * c); [rewrite Ei; apply cong_refl'; ring|]. transitivity (i * (P * c + K) - i * K); [apply cong_refl'; ring|].
    rewrite H. apply cong_refl'. ring.
  - intros ->. rewrite cong_mod. transitivity (K - (i * P) * K); [apply cong_refl'; ring|]. rewrite Ei. apply cong_refl'. ring.
Qed.
Lemma combined_comm p ra rb ca cb z : combined p ra rb ca cb z = combined p rb ra cb ca z.
Proof. unfold combined. f_equal. lia. Qed.

(** *** C50 *)
Lemma pos_small N : (Z.of_nat N < 2 ^ 64) -> Z.of_nat N mod 2 ^ 64 = Z.of_nat N.
Proof. intros H. apply Z.mod_small. lia. Qed.
