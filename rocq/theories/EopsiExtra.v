(** Further facts about single computations: data as wide as the field (C07),
    the interpolated polynomials (C44), stream positions (C50), histories of a
    party (C63), lowering the degree (C69), a second setRawData (C17). *)
From Verif Require Import Base Spec Lib NtlMiss NtlMissProofs StrIntModel HashBucketsModel HashBucketsSpec HashBucketsProofs.
From Verif Require Import PRFModel PRFSpec PRFProofs PolyModel PolySpec PolyProofs InterpProofs PolyObjProofs.
From Verif Require Import EopsiModel EopsiSpec EopsiProofs EopsiBlind EopsiRun EopsiFacts.
From Coq Require Import Znumtheory ListDec.

(** *** C07 *)
Definition wide : Z := 2 ^ 64 - 1.
Lemma wide_pad nb : w64 (nb - nb - 1) = wide.
Proof. replace (nb - nb - 1) with (-1) by lia. reflexivity. Qed.
Lemma wide_zeroPad v : 0 <= v -> zeroPad v wide = v / 2.
Proof.
  intros H. unfold zeroPad. change (0 <? wide) with true. cbv iota. change (s64 wide) with (-1).
  unfold ntl_shl. cbn. rewrite Z.quot_div_nonneg by lia. reflexivity.
Qed.
Lemma num_twos_le z : 0 <= z -> num_twos z <= num_bits z.
Proof.
  intros H. destruct (Z.eq_dec z 0) as [->|N]; [reflexivity|].
  assert (D : (2 ^ num_twos z | z)). { apply num_twos_ge; [exact N| |lia]. pose proof (num_twos_nonneg z). lia. }
  destruct (Z.le_gt_cases (num_twos z) (num_bits z)) as [L|G]; [exact L|exfalso].
  apply Z.divide_pos_le in D; [|lia]. pose proof (num_bits_spec z) as U. rewrite Z.abs_eq in U by lia.
  assert (2 ^ num_bits z <= 2 ^ num_twos z) by (apply Z.pow_le_mono_r; lia). lia.
Qed.

Lemma wide_none p d : 1 < p -> num_bits p < 2 ^ 63 -> select_roots p wide d [] = [].
Proof.
  intros Hp Hnb. rewrite select_roots_eq. cbn [app].
  assert (F : filter (fun z => wide <=? countLeadingZeros z) (linear_roots p d) = []).
  { assert (R : Forall (fun z => 0 <= z < p) (linear_roots p d)).
    { unfold linear_roots. apply Forall_forall. intros z Hz. apply in_map_iff in Hz. destruct Hz as [g [<- _]]. apply Z.mod_pos_bound. lia. }
    induction R as [|z l Hz R IH]; [reflexivity|]. cbn [filter]. rewrite IH. unfold countLeadingZeros.
    pose proof (num_twos_le z ltac:(lia)). assert (num_bits z <= num_bits p).
    { apply num_bits_le; [apply num_bits_nonneg|]. pose proof (num_bits_spec p) as U. rewrite Z.abs_eq in * by lia. lia. }
    assert (2 ^ 63 < wide) by reflexivity. destruct (Z.leb_spec wide (num_twos z)); [lia|reflexivity]. }
  rewrite F. reflexivity.
Qed.

(** *** the polynomials of intersect() *)
Section I.
Variable p : Z.
Hypothesis HP : prime p.
Hypothesis Hp2 : 2 < p.
Hypothesis Hnb63 : num_bits p < 2 ^ 63.
Variable sha : list Z -> list Z.
Variable rand : nat -> Z.
Variable fuel : nat.
Variables canzass berlekamp : nat -> list Z -> list (list Z * Z).

Lemma intersect_diff c b pd (t q : nat -> nat -> res Z) (tv qv : nat -> nat -> Z) k0 us :
  co_fbits c = num_bits p -> w64 (num_bits p - b - 1) = pd -> co_unknowns c = us ->
  (forall j i, (j < co_length c)%nat -> (i < co_degree c)%nat -> t j i = Ok (tv j i) /\ q j i = Ok (qv j i)) ->
  let rowv := fun j => map (fun i => (tv j i - qv j i) mod p) (seq 0 (co_degree c)) in
  intersect sha rand fuel p canzass berlekamp c (Some b) (Some t) (Some q) k0 =
  do (_, vs) <- findIntersection p canzass berlekamp k0 (new_polys pd) us (map rowv (seq 0 (co_length c))) (co_length c) PFA_CANZASS;
  Ok (Some (c, vs)).
Proof.
  intros KB EP EU HTQ rowv. unfold intersect. cbn [padSize]. rewrite KB, EP. cbn [bind].
  rewrite (mapM_ok _ rowv).
  2: { intros j Hj. apply in_seq in Hj. apply (mapM_ok _ (fun i => (tv j i - qv j i) mod p)). intros i Hi. apply in_seq in Hi.
       destruct (HTQ j i ltac:(lia) ltac:(lia)) as [-> ->]. reflexivity. }
  cbn [bind]. unfold getUnknowns.
  assert (EG : (if (Nat.eqb (length (co_unknowns c)) 0 && Nat.ltb 0 0)%bool then generateUnknowns sha rand fuel p c 0 else Ok c) = Ok c).
  { rewrite Nat.ltb_irrefl, andb_false_r. reflexivity. }
  rewrite EG. cbn [bind]. rewrite EU. reflexivity.
Qed.

Hypothesis HC : factors_correctly p canzass.
Hypothesis HB : factors_correctly p berlekamp.
Lemma find_wide k0 us ys fs : Forall (in_field p) us -> NoDup us -> fs <> [] ->
  Forall (fun f => is_poly p f /\ f <> [] /\ (length f <= length us)%nat) fs ->
  (forall j f, nth_error fs j = Some f -> nth_error ys j = Some (map (value p f) us)) ->
  exists o, findIntersection p canzass berlekamp k0 (new_polys wide) us ys (length fs) PFA_CANZASS = Ok (o, []).
Proof.
  intros F ND N0 HF HY.
  assert (LN : length fs <> 0%nat) by (destruct fs; [congruence|discriminate]).
  rewrite (find_eq p canzass berlekamp k0 (new_polys wide) us ys (length fs) PFA_CANZASS); [|left; cbn [new_polys pl_n]; congruence|exact LN].
  assert (G : forall i fs', (forall j f, nth_error fs' j = Some f -> nth_error fs (i + j) = Some f) ->
     exists L, mapM (one_poly p canzass berlekamp k0 us ys PFA_CANZASS) (seq i (length fs')) = Ok L).
  { intros i fs'. revert i. induction fs' as [|f fs' IH]; intros i Hi; [exists []; reflexivity|].
    cbn [length seq mapM]. pose proof (Hi 0%nat f eq_refl) as H0. rewrite Nat.add_0_r in H0.
    assert (Hf : is_poly p f /\ f <> [] /\ (length f <= length us)%nat).
    { rewrite Forall_forall in HF. apply HF. eapply nth_error_In. exact H0. }
    destruct Hf as [Pf [Nf Lf]].
    destruct (one_poly_ok p HP canzass berlekamp HC HB k0 us ys PFA_CANZASS i f F ND (HY i f H0) Pf Nf Lf) as [g [d [-> _]]]. cbn [bind].
    destruct (IH (S i)) as [L ->]; [|cbn [bind]; eexists; reflexivity].
    intros j f' Hj. replace (S i + j)%nat with (i + S j)%nat by lia. apply Hi. exact Hj. }
  destruct (G 0%nat fs) as [L ->]; [intros j f Hj; exact Hj|]. cbn [bind]. cbv zeta. cbn [new_polys pl_padsize].
  assert (E : fold_left (fun (r : list Z) d => select_roots p wide d r) (map snd L) [] = []).
  { rewrite fold_select. cbn [app]. clear -Hp2 Hnb63. induction (map snd L) as [|d l IH]; [reflexivity|].
    cbn [map concat]. rewrite IH, (wide_none p d) by lia. reflexivity. }
  rewrite E. eexists. reflexivity.
Qed.
End I.

(** *** decidability *)
Lemma fits_dec al L h zs : fits al L h zs \/ ~ fits al L h zs.
Proof.
  assert (G : forall n, (forall j, (j < n)%nat -> (length (belonging al L j zs) <= h)%nat) \/ exists j, (j < n)%nat /\ (h < length (belonging al L j zs))%nat).
  { induction n as [|n IH]; [left; intros; lia|]. destruct IH as [IH|[j [Hj IH]]]; [|right; exists j; split; [lia|exact IH]].
    destruct (Nat.le_gt_cases (length (belonging al L n zs)) h).
    - left. intros j Hj. destruct (Nat.eq_dec j n) as [->|]; [assumption|apply IH; lia].
    - right. exists n. split; [lia|assumption]. }
  destruct (G L) as [X|[j [Hj X]]]; [left; exact X|right]. intros F. specialize (F j Hj). lia.
Qed.

(** *** the rows a requester interpolates *)
Section Rows.
Variable p : Z.
Hypothesis HP : prime p.
Hypothesis Hp2 : 2 < p.
Hypothesis Hnb63 : num_bits p < 2 ^ 63.
Variable sha : list Z -> list Z.
Hypothesis HS : is_sha sha.
Variable rand : nat -> Z.
Variables fuel hw : nat.
Variables (L h D : nat) (al : halgo Z) (b : Z) (rawA rawB : list Z) (sA sB key : Z) (nt posA posB : nat).
Hypothesis VA : algo_valid al.
Hypothesis HL : (0 < L)%nat.
Hypothesis HD : (2 * h < D)%nat.
#[local] Notation zA := (map (field_value p b) rawA).
#[local] Notation zB := (map (field_value p b) rawB).
#[local] Notation us := (points sha p (num_bits p) D).
#[local] Notation exch := (exchange sha rand fuel p hw L h D al b rawA rawB sA sB key nt posA posB).

Definition diff_row (r : run_result) (j : nat) (ys : list Z) : Prop :=
  length ys = D /\ forall i t q, (i < D)%nat -> entry (rr_t r) j i = Ok t -> entry (rr_q r) j i = Ok q -> nth i ys 0 = (t - q) mod p.

Lemma comb_of_run : fits al L h zA -> fits al L h zB -> exists r (RA RB : nat -> list Z) (vt vq : nat -> nat -> Z), exch = Ok r /\
  (forall j, (j < L)%nat -> contents (rr_tableA r) j (RA j) /\ contents (rr_tableB r) j (RB j)) /\
  rr_t r = table2 L D vt /\ rr_q r = table2 L D vq /\ co_fbits (rr_requester r) = num_bits p /\
  co_unknowns (rr_requester r) = us /\ co_degree (rr_requester r) = D /\ co_length (rr_requester r) = L /\
  let f j := comb_poly p (RA j) (RB j) (coeffsA sha p L D h key j) (coeffsB sha p L D h key j) in
  forall j, (j < L)%nat -> is_poly p (f j) /\ length (f j) = S (2 * h) /\ last (f j) 0 = 2 /\
    map (fun i => (vt j i - vq j i) mod p) (seq 0 D) = map (value p (f j)) us.
Proof.
  intros FA FB.
  destruct (exchange_ok p Hp2 Hnb63 sha HS rand fuel hw L h D al b rawA rawB sA sB key nt posA posB VA HL FA FB)
    as [r [RA [RB [E [HR [_ [_ [[vt [vq [Et [Eq HV]]]] [PK [U SC]]]]]]]]]].
  exists r, RA, RB, vt, vq. split; [exact E|]. split.
  { intros j Hj. destruct (HR j Hj) as [fA [fB [_ [_ [_ [_ [_ [_ [CA CB]]]]]]]]]. split; assumption. }
  split; [exact Et|]. split; [exact Eq|]. split; [apply PK|]. split; [exact U|]. destruct SC as [_ [_ [S3 [S4 _]]]]. cbn [new_core co_degree co_length] in S3, S4.
  split; [exact S3|]. split; [exact S4|]. intros f j Hj. destruct (HR j Hj) as [fA [fB [_ [_ [LA [LB _]]]]]].
  destruct (comb_shape p Hp2 h (RA j) (RB j) (coeffsA sha p L D h key j) (coeffsB sha p L D h key j)) as [C1 [C2 C3]]; auto;
    try (unfold coeffsA, coeffsB; rewrite map_length, seq_length; reflexivity).
  split; [exact C1|]. split; [exact C2|]. split; [exact C3|].
  assert (LU : length us = D) by (unfold points; rewrite map_length, seq_length; reflexivity).
  apply (nth_ext _ _ 0 (value p (f j) 0)); [rewrite !map_length, seq_length; congruence|].
  intros i Hi. rewrite map_length, seq_length in Hi. rewrite map_nth.
  rewrite (nth_indep _ 0 ((vt j 0%nat - vq j 0%nat) mod p)) by (rewrite map_length, seq_length; exact Hi).
  rewrite (map_nth (fun i => (vt j i - vq j i) mod p)). rewrite seq_nth by exact Hi. cbn [Nat.add]. rewrite HV by assumption. symmetry. apply comb_value.
Qed.

Lemma points_in_field : Forall (in_field p) us.
Proof. apply Forall_forall. intros x Hx. apply in_map_iff in Hx. destruct Hx as [k [<- _]]. apply Z.mod_pos_bound. lia. Qed.

(** C44 *)
Lemma interpolated : fits al L h zA -> fits al L h zB -> NoDup us -> exists r, exch = Ok r /\
  forall j, (j < L)%nat -> exists RA RB f ys, contents (rr_tableA r) j RA /\ contents (rr_tableB r) j RB /\
    diff_row r j ys /\ interpolate p us ys = Ok f /\ is_poly p f /\ degree f = (2 * h)%nat /\ last f 0 = 2 /\
    forall z, value p f z = combined p RA RB (coeffsA sha p L D h key j) (coeffsB sha p L D h key j) z.
Proof.
  intros FA FB ND. destruct (comb_of_run FA FB) as [r [RA [RB [vt [vq [E [HC [Et [Eq [_ [_ [_ [_ HF]]]]]]]]]]]]].
  exists r. split; [exact E|]. intros j Hj. destruct (HF j Hj) as [P1 [P2 [P3 P4]]]. destruct (HC j Hj) as [CA CB].
  exists (RA j), (RB j). eexists. exists (map (fun i => (vt j i - vq j i) mod p) (seq 0 D)). split; [exact CA|]. split; [exact CB|].
  assert (LU : length us = D) by (unfold points; rewrite map_length, seq_length; reflexivity). split.
  { split; [rewrite map_length, seq_length; reflexivity|]. intros i t q Hi ET EQ. rewrite Et, (entry_table2 Hj Hi) in ET. rewrite Eq, (entry_table2 Hj Hi) in EQ.
    apply Ok_inj in ET. apply Ok_inj in EQ. subst t q.
    rewrite (nth_indep _ 0 ((vt j 0%nat - vq j 0%nat) mod p)) by (rewrite map_length, seq_length; exact Hi).
    rewrite (map_nth (fun i => (vt j i - vq j i) mod p)). rewrite seq_nth by exact Hi. reflexivity. }
  rewrite P4. split; [apply (interpolate_recovers p HP); [apply points_in_field|exact ND|exact P1|rewrite P2, LU; lia]|].
  split; [exact P1|]. split; [unfold degree; rewrite P2; lia|]. split; [exact P3|]. intros z. apply comb_value.
Qed.

(** C07 *)
Variables canzass berlekamp : nat -> list Z -> list (list Z * Z).
Hypothesis HC : factors_correctly p canzass.
Hypothesis HB : factors_correctly p berlekamp.
#[local] Notation sess k0 := (session sha rand fuel p canzass berlekamp hw L h D al b rawA rawB sA sB key nt posA posB k0).
Lemma wide_session k0 : b = num_bits p ->
  (fits al L h zA /\ fits al L h zB -> NoDup us -> exists r, sess k0 = Ok (r, Some [])) /\
  (forall r vs, sess k0 = Ok (r, vs) -> vs = Some []).
Proof.
  intros Eb.
  assert (A : fits al L h zA /\ fits al L h zB -> (NoDup us -> exists r, sess k0 = Ok (r, Some [])) /\ (~ NoDup us -> sess k0 = Abort)).
  { intros [FA FB]. destruct (comb_of_run FA FB) as [r [RA [RB [vt [vq [E [_ [Et [Eq [KB [U [S3 [S4 HF]]]]]]]]]]]]].
    set (f := fun j => comb_poly p (RA j) (RB j) (coeffsA sha p L D h key j) (coeffsB sha p L D h key j)) in *.
    unfold session. rewrite E. cbn [bind].
    rewrite (intersect_diff p sha rand fuel canzass berlekamp (rr_requester r) b wide (entry (rr_t r)) (entry (rr_q r)) vt vq k0 us KB); [|rewrite Eb; apply wide_pad|exact U|].
    2: { intros j i Hj Hi. rewrite S3 in Hi. rewrite S4 in Hj. rewrite Et, Eq. split; apply entry_table2; assumption. }
    rewrite S3, S4.
    assert (LU : length us = D) by (unfold points; rewrite map_length, seq_length; reflexivity).
    assert (HY : forall j g, nth_error (map f (seq 0 L)) j = Some g ->
       nth_error (map (fun j => map (fun i => (vt j i - vq j i) mod p) (seq 0 D)) (seq 0 L)) j = Some (map (value p g) us) /\
       is_poly p g /\ g <> [] /\ (length g <= length us)%nat).
    { intros j g Hj. assert (Hjl : (j < L)%nat). { assert (j < length (map f (seq 0 L)))%nat by (apply nth_error_Some; congruence). rewrite map_length, seq_length in H. exact H. }
      rewrite nth_error_map_seq in Hj by exact Hjl. injection Hj as <-. destruct (HF j Hjl) as [P1 [P2 [P3 P4]]].
      rewrite nth_error_map_seq by exact Hjl. rewrite P4. split; [reflexivity|]. split; [exact P1|]. split; [intros X; rewrite X in P2; discriminate|]. rewrite P2, LU. lia. }
    split; intros ND.
    - destruct (find_wide p HP Hp2 Hnb63 sha rand canzass berlekamp HC HB k0 us
        (map (fun j => map (fun i => (vt j i - vq j i) mod p) (seq 0 D)) (seq 0 L)) (map f (seq 0 L))) as [o EO].
      + apply points_in_field.
      + exact ND.
      + destruct L; [lia|discriminate].
      + apply Forall_forall. intros g Hg. apply In_nth_error in Hg. destruct Hg as [j Hj]. apply (HY j g Hj).
      + intros j g Hj. apply (HY j g Hj).
      + rewrite map_length, seq_length in EO. rewrite EO. cbn [bind]. exists r. reflexivity.
    - assert (E0 : exists m, L = S m) by (exists (L - 1)%nat; lia). destruct E0 as [m Em].
      destruct (HY 0%nat (f 0%nat)) as [R0 _]; [rewrite nth_error_map_seq by lia; reflexivity|]. apply aget_ok in R0.
      unfold findIntersection. set (ys := map (fun j => map (fun i => (vt j i - vq j i) mod p) (seq 0 D)) (seq 0 L)) in *. clearbody ys. rewrite Em. cbn [new_polys pl_n Nat.eqb for_up]. unfold find_step at 1. rewrite R0. cbn [bind].
      rewrite (interpolate_dup p HP us (map (value p (f 0%nat)) us)); [reflexivity|rewrite map_length; reflexivity|apply points_in_field|exact ND]. }
  split; [intros FF ND; apply (A FF); exact ND|].
  intros r vs ES.
  assert (FD : (fits al L h zA /\ fits al L h zB) \/ ~ (fits al L h zA /\ fits al L h zB)).
  { destruct (fits_dec al L h zA); destruct (fits_dec al L h zB); tauto. }
  destruct FD as [FF|NF].
  - destruct (A FF) as [A1 A2]. destruct (ListDec.NoDup_dec Z.eq_dec us) as [ND|ND].
    + destruct (A1 ND) as [r' E']. rewrite E' in ES. apply Ok_inj in ES. congruence.
    + rewrite (A2 ND) in ES. discriminate.
  - rewrite (session_overflow p Hp2 Hnb63 sha HS rand fuel canzass berlekamp hw L h D al b rawA rawB sA sB key nt posA posB k0 VA HL NF) in ES. discriminate.
Qed.
End Rows.
