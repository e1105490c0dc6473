(** Proofs for C128. *)
From Verif Require Import Base Spec Lib NtlMiss NtlMissProofs StrIntModel HashBucketsModel HashBucketsSpec HashBucketsProofs.
From Verif Require Import PRFModel PRFSpec PRFProofs PolyModel PolySpec PolyProofs InterpProofs PolyObjProofs.
From Verif Require Import EopsiModel EopsiSpec EopsiProofs EopsiBlind EopsiRun EopsiFacts EopsiExtra FactorExists PrivacyAlg FewSpec.
From Coq Require Import Znumtheory.

Section W.
Variable p : Z.
Hypothesis HP : prime p.
Hypothesis Hp2 : 2 < p.
#[local] Notation "a == b" := (cong p a b) (at level 70).

Definition top_of (n : nat) (f : list Z) : list Z := map (fun i => coef f i mod p) (seq 0 n).
Lemma top_coef n f i : (i < n)%nat -> coef (top_of n f) i = coef f i mod p.
Proof. intros H. unfold coef, top_of. rewrite (nth_indep _ 0 (coef f 0 mod p)) by (rewrite map_length, seq_length; exact H). rewrite (map_nth (fun i => coef f i mod p)), seq_nth by exact H. reflexivity. Qed.
Lemma top_length n f : length (top_of n f) = n.
Proof. unfold top_of. rewrite map_length, seq_length. reflexivity. Qed.
Lemma top_peq n f : dlt p n f -> forall i, coef (top_of n f) i == coef f i.
Proof.
  intros H i. destruct (Nat.lt_ge_cases i n) as [Hi|Hi]; [rewrite top_coef by exact Hi; apply cong_mod|].
  rewrite coef_over by (rewrite top_length; exact Hi). symmetry. apply H. exact Hi.
Qed.

(** division of a polynomial of degree 2h by the product of the points *)
Lemma divide h us f : length f = S (2 * h) -> last f 0 = 2 -> exists q r, lost_factor h (length us) q /\ is_poly p r /\ (length r <= length us)%nat /\
  forall z, ev f z == ev q z * roots_product us z + ev r z.
Proof.
  intros Lf Tf. destruct (divP_ok p us f) as [E DR]. set (Q := fst (divP us f)) in *. set (R := snd (divP us f)) in *.
  set (D := length us) in *.
  set (r := norm (top_of D R)).
  assert (Pr : is_poly p r).
  { apply norm_is_poly. unfold reduced, top_of. apply Forall_forall. intros x Hx. apply in_map_iff in Hx. destruct Hx as [i [<- _]]. apply Z.mod_pos_bound. lia. }
  assert (Lr : (length r <= D)%nat) by (unfold r; pose proof (norm_length (top_of D R)) as X; rewrite top_length in X; exact X).
  assert (Er : forall z, ev r z == ev R z) by (intros z; unfold r; rewrite ev_norm; apply ev_cong; apply top_peq; exact DR).
  assert (CF : coef f (2 * h) = 2) by (rewrite last_coef, Lf in Tf; replace (S (2 * h) - 1)%nat with (2 * h)%nat in Tf by lia; exact Tf).
  assert (EQ : forall i, coef (mulZ (prodP us) Q) i == coef f i - coef R i).
  { intros i. rewrite (E i), coef_addZ. apply cong_refl'. ring. }
  unfold lost_factor. destruct (Nat.leb_spec D (2 * h)) as [HD|HD].
  - set (m := S (2 * h - D)).
    assert (DQ : dlt p m Q).
    { apply (dlt_prod_inv p us). fold D. intros i Hi. rewrite EQ. rewrite (coef_over f) by (unfold m in Hi; lia). rewrite (DR i) by (unfold m in Hi; lia). reflexivity. }
    exists (top_of m Q), r. split; [|split; [exact Pr|split; [exact Lr|]]].
    + split; [apply top_length|]. rewrite last_coef, top_length. replace (m - 1)%nat with (2 * h - D)%nat by (unfold m; lia). rewrite top_coef by (unfold m; lia).
      assert (T : coef Q (2 * h - D) == 2).
      { pose proof (EQ (2 * h)%nat) as X. rewrite CF, (DR (2 * h)%nat HD) in X.
        transitivity (coef (mulZ (prodP us) Q) (2 * h)); [|exact X].
        assert (Y : peq p (mulZ (prodP us) Q) (mulZ (top_of (S D) (prodP us)) (top_of m Q))).
        { apply mulZ_peq; intros i; symmetry; apply top_peq; [apply prod_dlt|exact DQ]. }
        rewrite (Y (2 * h)%nat), coef_mulZ. replace (2 * h)%nat with (D + (2 * h - D))%nat at 2 by lia.
        rewrite (EopsiRun.conv_top _ _ D (2 * h - D)%nat) by apply top_length. rewrite !top_coef by (unfold m; lia).
        rewrite !cong_mod. unfold D at 2. rewrite (prod_lead p us). apply cong_refl'. ring. }
      unfold cong in T. rewrite T. apply Z.mod_small. lia.
    + intros z. rewrite Er. rewrite (peq_ev p _ _ z E), ev_addZ, ev_mulZ, ev_prodP.
      assert (X : ev (top_of m Q) z == ev Q z) by (apply ev_cong; apply top_peq; exact DQ). rewrite X. apply cong_refl'. ring.
  - exists [], r. split; [reflexivity|split; [exact Pr|split; [exact Lr|]]]. intros z. rewrite Er. cbn [ev].
    assert (N : mulZ (prodP us) Q = mulZ (prodP us) Q) by reflexivity.
    assert (DQ : dlt p 0 Q).
    { apply (dlt_prod_inv p us). fold D. intros i Hi. rewrite EQ. rewrite (coef_over f) by lia. rewrite (DR i) by lia. reflexivity. }
    rewrite (peq_ev p _ _ z E), ev_addZ, ev_mulZ. rewrite (peq_ev p Q [] z) by (apply dlt_0; exact DQ). cbn [ev]. apply cong_refl'. ring.
Qed.

(** the requester's row polynomial is unique *)
Lemma value_root rs z : prod_value p rs z == roots_product rs z.
Proof. unfold prod_value. apply cong_mod. Qed.
End W.

(** the first zero row *)
Lemma first_empty (fs : list (list Z)) : Forall (fun f => f <> []) fs \/ exists a c, fs = a ++ [] :: c /\ Forall (fun f => f <> []) a.
Proof.
  induction fs as [|f fs IH]; [left; constructor|]. destruct f as [|x f]; [right; exists [], fs; split; [reflexivity|constructor]|].
  destruct IH as [IH|[a [c [-> IH]]]]; [left; constructor; [discriminate|exact IH]|]. right. exists ((x :: f) :: a), c. split; [reflexivity|constructor; [discriminate|exact IH]].
Qed.

Lemma zero_row_iff sha p D r j g : prime p -> distinct_points sha p D -> row_polynomial sha p D r j g -> (zero_row p D r j <-> g = []).
Proof.
  intros HP ND [Pg [Lg HV]]. assert (Hp : 1 < p) by (apply (p_gt_1 p HP)). assert (LU : length (points sha p (num_bits p) D) = D) by (unfold points; rewrite map_length, seq_length; reflexivity). split.
  - intros Z0. apply (poly_unique p HP (points sha p (num_bits p) D)); [|exact ND|exact Pg|split; [constructor|discriminate]|lia|cbn [length]; lia|].
    + apply Forall_forall; intros x Hx; apply in_map_iff in Hx; destruct Hx as [k [<- _]]; apply Z.mod_pos_bound; lia.
    + intros x Hx. apply (In_nth _ _ 0) in Hx. destruct Hx as [i [Hi <-]]. rewrite LU in Hi. destruct (HV i Hi) as [t [q [Et [Eq V]]]].
      rewrite (Z0 i t q Hi Et Eq), value_ev in V. unfold cong. rewrite V. reflexivity.
  - intros -> i t q Hi Et Eq. destruct (HV i Hi) as [t' [q' [Et' [Eq' V]]]]. assert (t' = t) by congruence. assert (q' = q) by congruence. subst. rewrite <- V. reflexivity.
Qed.

Section T.
Context {sha : list Z -> list Z} {p : Z} {L h : nat} {al : halgo Z} {b : Z} {rawA rawB : list Z}.
Hypothesis ST : sized_run sha p L h al b rawA rawB.
Variables (D : nat) (key : Z) (rand : nat -> Z) (fuel hw : nat) (sA sB : Z) (nt posA posB k0 : nat).
Variables canzass berlekamp : nat -> list Z -> list (list Z * Z).
Hypothesis HC : factors_correctly p canzass.
Hypothesis HB : factors_correctly p berlekamp.
Hypothesis ND : distinct_points sha p D.
#[local] Notation us := (points sha p (num_bits p) D).
#[local] Notation exch := (exchange sha rand fuel p hw L h D al b rawA rawB sA sB key nt posA posB).
#[local] Notation sess := (session sha rand fuel p canzass berlekamp hw L h D al b rawA rawB sA sB key nt posA posB k0).
#[local] Notation cA j := (coeffsA sha p L D h key j).
#[local] Notation cB j := (coeffsB sha p L D h key j).
#[local] Notation w := (pad_width p b).

Lemma few_run : exists r (RA RB : nat -> list Z) (g q : nat -> list Z), exch = Ok r /\
  (forall j, (j < L)%nat ->
     contents (rr_tableA r) j (RA j) /\ contents (rr_tableB r) j (RB j) /\
     (exists fA, RA j = belonging al L j (padded_data p b rawA) ++ fA) /\ (exists fB, RB j = belonging al L j (padded_data p b rawB) ++ fB) /\
     row_polynomial sha p D r j (g j) /\ lost_factor h D (q j) /\
     forall z, value p (g j) z = (combined p (RA j) (RB j) (cA j) (cB j) z - value p (q j) z * prod_value p us z) mod p) /\
  ((exists j, (j < L)%nat /\ g j = []) -> sess = Abort) /\
  ((forall j, (j < L)%nat -> g j <> []) -> exists vss, sess = Ok (r, Some (concat vss)) /\ Forall2 (padded_roots p w) (map g (seq 0 L)) vss).
Proof.
  pose proof ST as ST'. destruct ST' as [HSh HPr HOdd HLong HAl HL HDeg HW HdA HdB HfA HfB].
  pose proof (exchange_ok p HOdd HLong sha HSh rand fuel hw L h D al b rawA rawB sA sB key nt posA posB HAl HL) as X.
  cbv zeta in X. rewrite (data_eq ST rawA HdA), (data_eq ST rawB HdB) in X.
  destruct (X HfA HfB) as [r [RA [RB [E [HR [_ [_ [[vt [vq [Et [Eq HV]]]] [PK [U SC]]]]]]]]]]. clear X.
  destruct SC as [_ [_ [S3 [S4 _]]]]. cbn [new_core co_degree co_length] in S3, S4.
  assert (LU : length us = D) by apply points_length.
  assert (FU : Forall (in_field p) us) by (apply Forall_forall; intros x Hx; apply in_map_iff in Hx; destruct Hx as [k [<- _]]; apply Z.mod_pos_bound; lia).
  set (f := fun j => comb_poly p (RA j) (RB j) (cA j) (cB j)).
  assert (DV : forall j, exists qr, (j < L)%nat -> lost_factor h D (fst qr) /\ is_poly p (snd qr) /\ (length (snd qr) <= D)%nat /\
     forall z, cong p (ev (f j) z) (ev (fst qr) z * roots_product us z + ev (snd qr) z)).
  { intros j. destruct (Nat.lt_ge_cases j L) as [Hj|Hj]; [|exists ([], []); lia].
    destruct (HR j Hj) as [fA [fB [_ [_ [LA [LB _]]]]]].
    destruct (comb_shape p HOdd h (RA j) (RB j) (cA j) (cB j) LA LB) as [_ [C2 C3]]; try (unfold coeffsA, coeffsB; rewrite map_length, seq_length; reflexivity).
    destruct (divide p HOdd h us (f j) C2 C3) as [q [g [A [B [C G]]]]]. rewrite LU in A, C. exists (q, g). intros _. auto. }
  assert (CH : exists F : nat -> list Z * list Z, forall j, (j < L)%nat -> lost_factor h D (fst (F j)) /\ is_poly p (snd (F j)) /\ (length (snd (F j)) <= D)%nat /\
     forall z, cong p (ev (f j) z) (ev (fst (F j)) z * roots_product us z + ev (snd (F j)) z)).
  { clear -DV. revert DV. generalize L. intros n DV. induction n as [|n IH]; [exists (fun _ => ([], [])); intros; lia|].
    destruct IH as [F HF]; [intros j; destruct (DV j) as [x Hx]; exists x; intros; apply Hx; lia|].
    destruct (DV n) as [x Hx]. exists (fun j => if Nat.eqb j n then x else F j). intros j Hj. destruct (Nat.eqb_spec j n) as [->|N]; [apply Hx; lia|apply HF; lia]. }
  destruct CH as [F HF]. clear DV. set (g := fun j => snd (F j)) in *. set (q := fun j => fst (F j)) in *.
  assert (VG : forall j, (j < L)%nat -> forall z, value p (g j) z = (combined p (RA j) (RB j) (cA j) (cB j) z - value p (q j) z * prod_value p us z) mod p).
  { intros j Hj z. destruct (HF j Hj) as [_ [_ [_ G]]]. rewrite <- comb_value. fold (f j). rewrite !value_ev.
    change (cong p (ev (g j) z) (ev (f j) z mod p - ev (q j) z mod p * prod_value p us z)). rewrite !cong_mod, (value_root p), (G z). fold (q j) (g j). apply cong_refl'. ring. }
  assert (RP : forall j, (j < L)%nat -> map (fun i => (vt j i - vq j i) mod p) (seq 0 D) = map (value p (g j)) us).
  { intros j Hj. apply (nth_ext _ _ 0 (value p (g j) 0)); [rewrite !map_length, seq_length; symmetry; exact LU|]. intros i Hi. rewrite map_length, seq_length in Hi.
    rewrite (nth_indep _ 0 ((vt j 0%nat - vq j 0%nat) mod p)) by (rewrite map_length, seq_length; exact Hi).
    rewrite (map_nth (fun i => (vt j i - vq j i) mod p)), seq_nth, map_nth by exact Hi. cbn [Nat.add]. rewrite (HV j i Hj Hi), (VG j Hj).
    assert (Z0 : prod_value p us (nth i us 0) = 0).
    { apply prod_value_zero; [exact HPr| |exact FU|apply nth_In; rewrite LU; exact Hi]. rewrite Forall_forall in FU. apply FU. apply nth_In. rewrite LU. exact Hi. }
    rewrite Z0, Z.mul_0_r, Z.sub_0_r. unfold combined. rewrite Z.mod_mod by lia. reflexivity. }
  exists r, RA, RB, g, q. split; [exact E|]. split.
  { intros j Hj. destruct (HR j Hj) as [fA [fB [EA [EB [_ [_ [_ [_ [CA CB]]]]]]]]]. destruct (HF j Hj) as [A [B [C _]]].
    split; [exact CA|]. split; [exact CB|]. split; [exists fA; exact EA|]. split; [exists fB; exact EB|]. split; [|split; [exact A|apply VG; exact Hj]].
    split; [exact B|]. split; [exact C|]. intros i Hi. exists (vt j i), (vq j i). split; [rewrite Et; apply (entry_table2 Hj Hi)|]. split; [rewrite Eq; apply (entry_table2 Hj Hi)|].
    pose proof (f_equal (fun l => nth i l (value p (g j) 0)) (RP j Hj)) as X. cbv beta in X. rewrite (map_nth (value p (g j))) in X. rewrite <- X.
    rewrite (nth_indep _ _ ((vt j 0%nat - vq j 0%nat) mod p)) by (rewrite map_length, seq_length; exact Hi).
    rewrite (map_nth (fun i => (vt j i - vq j i) mod p)), seq_nth by exact Hi. reflexivity. }
  assert (HJ : forall j f', nth_error (map g (seq 0 L)) j = Some f' -> (j < L)%nat /\ f' = g j).
  { intros j f' Hj. assert (Hjl : (j < L)%nat). { assert (j < length (map g (seq 0 L)))%nat by (apply nth_error_Some; congruence). rewrite map_length, seq_length in H. exact H. }
    split; [exact Hjl|]. rewrite nth_error_map_seq in Hj by exact Hjl. injection Hj as <-. reflexivity. }
  assert (KB : co_fbits (rr_requester r) = num_bits p) by apply PK.
  assert (PW : w64 (num_bits p - b - 1) = w /\ 0 <= w < 2 ^ 63) by (unfold pad_width; split; [apply w64_small; unfold M64; lia|lia]).
  destruct PW as [PW RW].
  assert (SE : sess = do x <- intersect sha rand fuel p canzass berlekamp (rr_requester r) (Some b) (Some (entry (rr_t r))) (Some (entry (rr_q r))) k0; Ok (r, match x with Some (_, vs) => Some vs | None => None end)).
  { unfold session. rewrite E. reflexivity. }
  rewrite (intersect_diff p sha rand fuel canzass berlekamp (rr_requester r) b w (entry (rr_t r)) (entry (rr_q r)) vt vq k0 us KB PW U) in SE.
  2: { intros j i Hj Hi. rewrite S3 in Hi. rewrite S4 in Hj. rewrite Et, Eq. split; apply entry_table2; assumption. }
  rewrite S3, S4 in SE.
  set (ys := map (fun j => map (fun i => (vt j i - vq j i) mod p) (seq 0 D)) (seq 0 L)) in *.
  assert (HY : forall j, (j < L)%nat -> nth_error ys j = Some (map (value p (g j)) us)).
  { intros j Hj. unfold ys. rewrite nth_error_map_seq by exact Hj. rewrite (RP j Hj). reflexivity. }
  assert (LG : length (map g (seq 0 L)) = L) by (rewrite map_length, seq_length; reflexivity).
  split.
  - intros [j [Hj Gj]]. rewrite SE. destruct (first_empty (map g (seq 0 L))) as [FE|[a [c [EF NF]]]].
    + exfalso. rewrite Forall_forall in FE. apply (FE (g j)); [apply in_map; apply in_seq; lia|exact Gj].
    + assert (La : (length a < L)%nat) by (rewrite <- LG, EF, app_length; cbn [length]; lia).
      assert (Ga : g (length a) = []).
      { assert (X : nth_error (map g (seq 0 L)) (length a) = Some []) by (rewrite EF, nth_error_app2, Nat.sub_diag by lia; reflexivity).
        apply HJ in X. destruct X as [_ X]. symmetry. exact X. }
      assert (HA : forall i f', nth_error a i = Some f' -> (i < L)%nat /\ f' = g i).
      { intros i f' Hi. apply HJ. rewrite EF, nth_error_app1; [exact Hi|]. apply nth_error_Some. congruence. }
      rewrite (find_zero_poly p HPr canzass berlekamp HC HB k0 (new_polys w) us ys L PFA_CANZASS a); [reflexivity|left; cbn [new_polys pl_n]; lia|exact FU|exact ND|exact La| | |].
      * apply Forall_forall. intros f' Hf. pose proof Hf as Hf'. apply In_nth_error in Hf'. destruct Hf' as [i Hi]. destruct (HA i f' Hi) as [Hil ->].
        destruct (HF i Hil) as [_ [B [C _]]]. split; [exact B|]. split; [rewrite Forall_forall in NF; apply NF; exact Hf|]. rewrite LU. exact C.
      * intros i f' Hi. destruct (HA i f' Hi) as [Hil ->]. apply HY. exact Hil.
      * rewrite (HY _ La), Ga. reflexivity.
  - intros NE. rewrite SE.
    destruct (find_padded p HPr canzass berlekamp HC HB k0 (new_polys w) us ys PFA_CANZASS (map g (seq 0 L))) as [o' [vss [EI F2]]].
    + rewrite LG. left. cbn [new_polys pl_n]. lia.
    + exact RW.
    + exact FU.
    + exact ND.
    + apply Forall_forall. intros f' Hf. apply in_map_iff in Hf. destruct Hf as [i [<- Hi]]. apply in_seq in Hi. destruct (HF i ltac:(lia)) as [_ [B [C _]]].
      split; [exact B|]. split; [apply NE; lia|]. rewrite LU. exact C.
    + intros j f' Hj. destruct (HJ j f' Hj) as [Hjl ->]. apply HY. exact Hjl.
    + rewrite LG in EI. rewrite EI. cbn [bind]. exists vss. split; [reflexivity|exact F2].
Qed.

Lemma rows_in (g : nat -> list Z) vss : Forall2 (padded_roots p w) (map g (seq 0 L)) vss ->
  forall v, In v (concat vss) <-> exists j, (j < L)%nat /\ 0 <= v * 2 ^ w < p /\ value p (g j) (v * 2 ^ w) = 0 /\ (v = 0 -> w = 0).
Proof using ST. clear -ST.
  intros F2 v. destruct ST as [HSh HPr HOdd HLong HAl HL HDeg HW HdA HdB HfA HfB].
  assert (W0 : 0 <= w) by (unfold pad_width; lia). assert (P2 : 0 < 2 ^ w) by (apply Z.pow_pos_nonneg; lia).
  assert (G : forall n k vss, Forall2 (padded_roots p w) (map g (seq k n)) vss ->
     (In v (concat vss) <-> exists j, (k <= j < k + n)%nat /\ 0 <= v * 2 ^ w < p /\ value p (g j) (v * 2 ^ w) = 0 /\ (v = 0 -> w = 0))).
  { induction n as [|n IH]; intros k vss0 F; cbn [seq map] in F.
    - inversion F; subst. cbn [concat In]. split; [tauto|]. intros [j [Hj _]]. lia.
    - inversion F as [|f0 vs0 r0 vss1 H0 F0]; subst. cbn [concat]. rewrite in_app_iff, (IH (S k) vss1 F0).
      assert (A : In v vs0 <-> 0 <= v * 2 ^ w < p /\ value p (g k) (v * 2 ^ w) = 0 /\ (v = 0 -> w = 0)).
      { destruct H0 as [zs [_ [HZ ->]]]. rewrite in_map_iff. split.
        - intros [z [Ez Hz]]. apply HZ in Hz. destruct Hz as [[Rz Vz] [[m Hm] Z0]]. assert (v = m) by (rewrite <- Ez, Hm; apply Z.div_mul; lia). subst m.
          rewrite <- Hm. split; [exact Rz|]. split; [exact Vz|]. intros ->. apply Z0. rewrite Hm. reflexivity.
        - intros [Rz [Vz Z0]]. exists (v * 2 ^ w). split; [apply Z.div_mul; lia|]. apply HZ. split; [split; [exact Rz|exact Vz]|]. split; [exists v; reflexivity|].
          intros X. apply Z0. nia. }
      rewrite A. split.
      + intros [Y|[j [Hj Y]]]; [exists k; split; [lia|exact Y]|exists j; split; [lia|exact Y]].
      + intros [j [Hj Y]]. destruct (Nat.eq_dec j k) as [->|]; [left; exact Y|right; exists j; split; [lia|exact Y]]. }
  rewrite (G L 0%nat vss F2). split; intros [j [Hj Y]]; exists j; (split; [lia|exact Y]).
Qed.
End T.
