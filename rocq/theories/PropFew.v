(** C128: how many evaluation points a run needs. *)
From Verif Require Import Base Spec Lib NtlMiss HashBucketsModel HashBucketsSpec HashBucketsProofs PRFModel PRFSpec PolyModel PolySpec PolyProofs InterpProofs.
From Verif Require Import EopsiModel EopsiSpec EopsiFacts FewSpec FewProofs PropEopsi.
From Coq Require Import Znumtheory.

(** *** any number of points
    The requester finds in every row the remainder of the combined polynomial
    by the product of the points; a zero row aborts, otherwise exactly the
    padded roots of these remainders are reported. *)
Theorem C128_any_degree : forall sha p L h al b rawA rawB D rand fuel hw sA sB key nt posA posB canzass berlekamp k0,
  sized_run sha p L h al b rawA rawB -> distinct_points sha p D ->
  factors_correctly p canzass -> factors_correctly p berlekamp ->
  let pad := num_bits p - b - 1 in
  exists r (g q : nat -> list Z), exchange sha rand fuel p hw L h D al b rawA rawB sA sB key nt posA posB = Ok r /\
    (forall j, (j < L)%nat -> row_polynomial sha p D r j (g j) /\ lost_factor h D (q j) /\
       exists RA RB, contents (rr_tableA r) j RA /\ contents (rr_tableB r) j RB /\
       forall z, value p (g j) z =
         (combined p RA RB (coeffsA sha p L D h key j) (coeffsB sha p L D h key j) z
          - value p (q j) z * prod_value p (points sha p (num_bits p) D) z) mod p) /\
    (forall j, (j < L)%nat -> (g j = [] <-> zero_row p D r j)) /\
    ((exists j, (j < L)%nat /\ g j = []) ->
       session sha rand fuel p canzass berlekamp hw L h D al b rawA rawB sA sB key nt posA posB k0 = Abort) /\
    ((forall j, (j < L)%nat -> g j <> []) ->
       exists vs, session sha rand fuel p canzass berlekamp hw L h D al b rawA rawB sA sB key nt posA posB k0 = Ok (r, Some vs) /\
       forall v, In v vs <-> exists j, (j < L)%nat /\ 0 <= v * 2 ^ pad < p /\ value p (g j) (v * 2 ^ pad) = 0 /\ (v = 0 -> pad = 0)).
Proof.
  intros sha p L h al b rawA rawB D rand fuel hw sA sB key nt posA posB cz bl k0 ST ND HC HB pad.
  destruct (few_run ST D key rand fuel hw sA sB nt posA posB k0 cz bl HC HB ND) as [r [RA [RB [g [q [E [H [A G]]]]]]]].
  exists r, g, q. split; [exact E|]. split.
  - intros j Hj. destruct (H j Hj) as [CA [CB [_ [_ [R [Q V]]]]]]. split; [exact R|]. split; [exact Q|]. exists (RA j), (RB j). auto.
  - split; [intros j Hj; destruct (H j Hj) as [_ [_ [_ [_ [R _]]]]]; symmetry; apply (zero_row_iff sha p D r j (g j) (st_prime _ _ _ _ _ _ _ _ _ ST) ND R)|].
    split; [exact A|]. intros NE. destruct (G NE) as [vss [ES F2]]. exists (concat vss). split; [exact ES|]. apply (rows_in ST g vss F2).
Qed.
Print Assumptions C128_any_degree.

(** *** one point short: degree = 2 * height
    The run goes through, but a common element survives only if it happens to
    be an evaluation point, or a root in a bucket it does not belong to. *)
Theorem C128_one_point_short : forall sha p L h al b rawA rawB D rand fuel hw sA sB key nt posA posB canzass berlekamp k0,
  sized_run sha p L h al b rawA rawB -> D = (2 * h)%nat -> distinct_points sha p D ->
  factors_correctly p canzass -> factors_correctly p berlekamp ->
  let pad := num_bits p - b - 1 in
  let us := points sha p (num_bits p) D in
  let sess := session sha rand fuel p canzass berlekamp hw L h D al b rawA rawB sA sB key nt posA posB k0 in
  exists r, exchange sha rand fuel p hw L h D al b rawA rawB sA sB key nt posA posB = Ok r /\
    let seen j z := exists RA RB, contents (rr_tableA r) j RA /\ contents (rr_tableB r) j RB /\
      combined p RA RB (coeffsA sha p L D h key j) (coeffsB sha p L D h key j) z = (2 * prod_value p us z) mod p in
    ((exists j, (j < L)%nat /\ zero_row p D r j) -> sess = Abort) /\
    ((forall j, (j < L)%nat -> ~ zero_row p D r j) -> exists vs, sess = Ok (r, Some vs)) /\
    forall vs, sess = Ok (r, Some vs) ->
      (forall v, In v vs <-> exists j, (j < L)%nat /\ 0 <= v * 2 ^ pad < p /\ seen j (v * 2 ^ pad) /\ (v = 0 -> pad = 0)) /\
      (forall v, In v rawA -> In v rawB ->
         (In v vs <-> (v = 0 -> pad = 0) /\
            (In (v * 2 ^ pad) us \/ exists j, (j < L)%nat /\ j <> index_of al L (v * 2 ^ pad) /\ seen j (v * 2 ^ pad)))).
Proof.
  intros sha p L h al b rawA rawB D rand fuel hw sA sB key nt posA posB cz bl k0 ST ED ND HC HB pad us sess.
  destruct (few_run ST D key rand fuel hw sA sB nt posA posB k0 cz bl HC HB ND) as [r [RA [RB [g [q [E [H [A G]]]]]]]].
  exists r. split; [exact E|]. intros seen. fold sess in A, G. change (pad_width p b) with pad in G.
  pose proof ST as ST'. destruct ST' as [HSh HPr HOdd HLong HAl HL HDeg HW HdA HdB HfA HfB].
  assert (FU : Forall (in_field p) us) by (apply Forall_forall; intros x Hx; apply in_map_iff in Hx; destruct Hx as [k [<- _]]; apply Z.mod_pos_bound; lia).
  assert (DEC : (exists j, (j < L)%nat /\ g j = []) \/ forall j, (j < L)%nat -> g j <> []).
  { clear. induction L as [|n IH]; [right; lia|]. destruct IH as [[j [Hj IH]]|IH]; [left; exists j; split; [lia|exact IH]|].
    destruct (g n) eqn:Gn; [left; exists n; split; [lia|exact Gn]|]. right. intros j Hj. destruct (Nat.eq_dec j n) as [->|N]; [rewrite Gn; discriminate|apply IH; lia]. }
  assert (Q2 : forall j z, (j < L)%nat -> value p (q j) z = 2).
  { intros j z Hj. destruct (H j Hj) as [_ [_ [_ [_ [_ [Q _]]]]]]. unfold lost_factor in Q. rewrite ED, Nat.leb_refl, Nat.sub_diag in Q.
    destruct Q as [Q1 Q2]. destruct (q j) as [|c [|? ?]]; try discriminate. cbn in Q2. subst c. rewrite value_ev. cbn [ev]. rewrite Z.mul_0_r, Z.add_0_r. apply Z.mod_small. lia. }
  assert (SE : forall j z, (j < L)%nat -> (seen j z <-> value p (g j) z = 0)).
  { intros j z Hj. destruct (H j Hj) as [CA [CB [_ [_ [_ [_ V]]]]]]. rewrite V, (Q2 j z Hj). fold us.
    assert (X : combined p (RA j) (RB j) (coeffsA sha p L D h key j) (coeffsB sha p L D h key j) z = (2 * prod_value p us z) mod p <->
      (combined p (RA j) (RB j) (coeffsA sha p L D h key j) (coeffsB sha p L D h key j) z - 2 * prod_value p us z) mod p = 0).
    { set (x := prod_value p us z). set (c := combined _ _ _ _ _ _). assert (C : c mod p = c) by (unfold c, combined; apply Z.mod_mod; lia).
      rewrite <- cong_sub_iff. unfold cong. rewrite C. reflexivity. }
    rewrite <- X. split.
    - intros [A' [B' [CA' [CB' Y]]]]. assert (A' = RA j) by (destruct CA as [m1 M1], CA' as [m2 M2]; congruence). assert (B' = RB j) by (destruct CB as [m1 M1], CB' as [m2 M2]; congruence).
      subst. exact Y.
    - intros Y. exists (RA j), (RB j). auto. }
  assert (ZR : forall j, (j < L)%nat -> (zero_row p D r j <-> g j = [])).
  { intros j Hj. destruct (H j Hj) as [_ [_ [_ [_ [R _]]]]]. apply (zero_row_iff sha p D r j (g j) HPr ND R). }
  split; [intros [j [Hj Z0]]; apply A; exists j; split; [exact Hj|apply ZR; assumption]|]. split.
  - intros NZ. destruct (G ltac:(intros j Hj X; apply (NZ j Hj); apply ZR; assumption)) as [vss [ES _]]. eexists. exact ES.
  - intros vs EV. destruct DEC as [Z0|NZ]; [rewrite (A Z0) in EV; discriminate|]. destruct (G NZ) as [vss [ES F2]]. rewrite ES in EV.
    assert (vs = concat vss) by congruence. subst vs.
    assert (CH : forall v, In v (concat vss) <-> exists j, (j < L)%nat /\ 0 <= v * 2 ^ pad < p /\ seen j (v * 2 ^ pad) /\ (v = 0 -> pad = 0)).
    { intros v. rewrite (rows_in ST g vss F2 v). change (pad_width p b) with pad. split; intros [j [Hj [B [V Z0]]]]; exists j; (split; [exact Hj|]; split; [exact B|]; split; [apply SE; assumption|exact Z0]). }
    split; [exact CH|]. intros v IA IB. set (z := v * 2 ^ pad) in *. rewrite (CH v). fold z.
    assert (Rz : 0 <= z < p). { assert (F := data_field ST rawA HdA). rewrite Forall_forall in F. apply F. apply in_map_iff. exists v. split; [reflexivity|exact IA]. }
    set (j0 := index_of al L z).
    assert (Hj0 : (j0 < L)%nat) by (apply index_lt; exact HL).
    assert (OWN : seen j0 z <-> In z us).
    { rewrite (SE j0 z Hj0). destruct (H j0 Hj0) as [_ [_ [[fA EA] [[fB EB] [_ [_ V]]]]]]. rewrite V, (Q2 j0 z Hj0).
      assert (IAz : In z (RA j0)) by (rewrite EA; apply in_or_app; left; apply belonging_in; split; [apply in_map_iff; exists v; split; [reflexivity|exact IA]|reflexivity]).
      assert (IBz : In z (RB j0)) by (rewrite EB; apply in_or_app; left; apply belonging_in; split; [apply in_map_iff; exists v; split; [reflexivity|exact IB]|reflexivity]).
      assert (ZP : forall rs, In z rs -> prod_value p rs z = 0).
      { intros rs Hrs. unfold prod_value. apply cong_0_iff. apply (roots_product_zero p HPr rs z). exists z. split; [exact Hrs|reflexivity]. }
      unfold combined. rewrite (ZP _ IAz), (ZP _ IBz). rewrite !Z.mul_0_l, Z.add_0_l, Z.mod_0_l by lia.
      fold us. rewrite <- (prod_value_zero p us z HPr Rz FU). replace (0 - 2 * prod_value p us z) with ((- 2) * prod_value p us z) by ring.
      split; intros X.
      - apply (prime_prod_zero p _ _ HPr) in X. destruct X as [X|X].
        + apply Z.mod_divide in X; [|lia]. destruct X as [k Hk]. assert (K : k <= -1 \/ 0 <= k) by lia. destruct K; nia.
        + unfold prod_value in *. rewrite Z.mod_mod in X by lia. exact X.
      - rewrite X, Z.mul_0_r. apply Z.mod_0_l. lia. }
    split.
    + intros [j [Hj [_ [S' Z0]]]]. split; [exact Z0|]. destruct (Nat.eq_dec j j0) as [->|N]; [left; apply OWN; exact S'|right; exists j; auto].
    + intros [Z0 [I|[j [Hj [N S']]]]].
      * exists j0. split; [exact Hj0|]. split; [exact Rz|]. split; [apply OWN; exact I|exact Z0].
      * exists j. auto.
Qed.
Print Assumptions C128_one_point_short.

(** *** a single point: nothing is ever reported *)
Theorem C128_single_point : forall sha p L h al b rawA rawB rand fuel hw sA sB key nt posA posB canzass berlekamp k0,
  sized_run sha p L h al b rawA rawB -> factors_correctly p canzass -> factors_correctly p berlekamp ->
  let sess := session sha rand fuel p canzass berlekamp hw L h 1 al b rawA rawB sA sB key nt posA posB k0 in
  sess = Abort \/ exists r, sess = Ok (r, Some []).
Proof.
  intros sha p L h al b rawA rawB rand fuel hw sA sB key nt posA posB cz bl k0 ST HC HB sess.
  assert (ND : distinct_points sha p 1) by (unfold distinct_points, points; cbn [seq map]; repeat constructor; intros []).
  destruct (few_run ST 1 key rand fuel hw sA sB nt posA posB k0 cz bl HC HB ND) as [r [RA [RB [g [q [E [H [A G]]]]]]]].
  fold sess in A, G.
  assert (DEC : (exists j, (j < L)%nat /\ g j = []) \/ forall j, (j < L)%nat -> g j <> []).
  { clear. induction L as [|n IH]; [right; lia|]. destruct IH as [[j [Hj IH]]|IH]; [left; exists j; split; [lia|exact IH]|].
    destruct (g n) eqn:Gn; [left; exists n; split; [lia|exact Gn]|]. right. intros j Hj. destruct (Nat.eq_dec j n) as [->|N]; [rewrite Gn; discriminate|apply IH; lia]. }
  destruct DEC as [Z0|NZ]; [left; apply A; exact Z0|]. right. exists r. destruct (G NZ) as [vss [ES F2]]. rewrite ES.
  replace (concat vss) with (@nil Z); [reflexivity|]. destruct (concat vss) as [|v vs] eqn:EV; [reflexivity|]. exfalso.
  assert (I : In v (concat vss)) by (rewrite EV; left; reflexivity). apply (rows_in ST g vss F2) in I. destruct I as [j [Hj [_ [V _]]]].
  destruct (H j Hj) as [_ [_ [_ [_ [[[R N] [Lg _]] _]]]]]. specialize (NZ j Hj). destruct (g j) as [|c [|? ?]]; [congruence| |cbn in Lg; lia].
  rewrite value_ev in V. cbn [ev] in V. rewrite Z.mul_0_r, Z.add_0_r in V. cbn in N. apply Forall_inv in R. rewrite Z.mod_small in V by exact R. contradiction.
Qed.
Print Assumptions C128_single_point.

(** over the integers modulo 61, with 3 buckets of 2: with 5 points the common
    element 1 is reported (C46), with 4 it is lost *)
Lemma few_distinct : distinct_points ex_sha 61 4.
Proof.
  unfold distinct_points. replace (points ex_sha 61 (num_bits 61) 4) with [60; 41; 22; 3] by (vm_compute; reflexivity).
  repeat constructor; cbn; intuition congruence.
Qed.
Example C128_nonvacuous : sized_run ex_sha 61 3 2 ex_algo 3 [0; 1; 4] [1; 3; 0] /\ distinct_points ex_sha 61 (2 * 2) /\
  factors_correctly 61 ex_factor /\
  exists r vs, session ex_sha ex_rand 10 61 ex_factor ex_factor 4 3 2 4 ex_algo 3 [0; 1; 4] [1; 3; 0] 77 88 99 1 0 5 0 = Ok (r, Some vs) /\ ~ In 1 vs.
Proof.
  split; [exact ex_setting|]. split; [exact few_distinct|]. split; [exact ex_factor_ok|].
  destruct (C128_one_point_short ex_sha 61 3 2 ex_algo 3 [0; 1; 4] [1; 3; 0] 4 ex_rand 10%nat 4%nat 77 88 99 1%nat 0%nat 5%nat ex_factor ex_factor 0%nat ex_setting eq_refl few_distinct ex_factor_ok ex_factor_ok)
    as [r [E [_ [G C]]]].
  assert (NZ : forall j, (j < 3)%nat -> ~ zero_row 61 4 r j).
  { intros j Hj Z0. specialize (Z0 0%nat). vm_compute in E. apply Ok_inj in E. subst r. clear G C.
    do 3 (destruct j as [|j]; [specialize (Z0 _ _ ltac:(lia) eq_refl eq_refl); vm_compute in Z0; discriminate|]). lia. }
  destruct (G NZ) as [vs EV]. exists r, vs. split; [exact EV|]. destruct (C vs EV) as [_ C2]. intros I. apply (C2 1) in I; [|cbn; auto|cbn; auto].
  destruct I as [_ [I|[j [Hj [N [RA [RB [CA [CB X]]]]]]]]].
  - vm_compute in I. intuition discriminate.
  - rewrite (items_contents _ _ _ CA), (items_contents _ _ _ CB) in X. clear CA CB G C C2 EV NZ. vm_compute in E. apply Ok_inj in E. subst r.
    destruct j as [|[|[|j]]]; try lia; vm_compute in X, N; congruence.
Qed.
