(** The run of the protocol, with explicit rows of t and q (for C110), and
    what two outsourced matrices under one secret reveal (C111). *)
From Verif Require Import Base Spec Lib NtlMiss NtlMissProofs StrIntModel HashBucketsModel HashBucketsSpec HashBucketsProofs.
From Verif Require Import PRFModel PRFSpec PRFProofs PolyModel PolySpec PolyProofs InterpProofs PolyObjProofs FactorExists EopsiModel EopsiSpec EopsiProofs EopsiBlind EopsiRun EopsiFacts.
From Verif Require Import PrivacyAlg PrivacySpec PrivacyProofs.
From Coq Require Import Znumtheory Permutation Setoid.

(** the values of the stream of the temporary key used for bucket j *)
Definition stream_rnd (sha : list Z -> list Z) (p : Z) (L D h : nat) (key : Z) (j : nat) : rnd :=
  mkRnd (map (fun i => key_stream sha p (num_bits p) key (mask_pos D j i)) (seq 0 D))
        (coeffsA sha p L D h key j) (coeffsB sha p L D h key j).
(** the masks of a client with secret s *)
Definition own_masks (sha : list Z -> list Z) (p : Z) (D : nat) (s : Z) (j : nat) : list Z :=
  map (fun i => key_stream sha p (num_bits p) (s mod p) (mask_pos D j i)) (seq 0 D).

Lemma nth_map_seq (g : nat -> Z) n i : (i < n)%nat -> nth i (map g (seq 0 n)) 0 = g i.
Proof. intros H. rewrite (nth_indep _ 0 (g 0%nat)) by (rewrite map_length, seq_length; exact H). rewrite map_nth, seq_nth by exact H. reflexivity. Qed.
Lemma field_map_seq p (g : nat -> Z) n : (forall i, 0 <= g i < p) -> field_list p n (map g (seq 0 n)).
Proof.
  intros H. split; [rewrite map_length, seq_length; reflexivity|]. apply Forall_forall. intros y Hy. apply in_map_iff in Hy. destruct Hy as [i [<- _]]. apply H.
Qed.
Lemma stream_rnd_ok sha p L D h key j : 0 < p -> rnd_ok p D h (stream_rnd sha p L D h key j).
Proof.
  intros Hp. split; [|split]; cbn [stream_rnd r_mask r_wA r_wB]; apply field_map_seq; intros i; apply Z.mod_pos_bound; exact Hp.
Qed.

Lemma exchange_rows sha p L h D al b rawA rawB rand fuel hw sA sB key nt posA posB : setting sha p L h D al b rawA rawB ->
  exists r RA RB, exchange sha rand fuel p hw L h D al b rawA rawB sA sB key nt posA posB = Ok r /\
    (forall j, (j < L)%nat -> exists fA fB, RA j = belonging al L j (padded_data p b rawA) ++ fA /\ RB j = belonging al L j (padded_data p b rawB) ++ fB /\
       length (RA j) = h /\ length (RB j) = h /\ Forall (in_field p) fA /\ Forall (in_field p) fB /\
       contents (rr_tableA r) j (RA j) /\ contents (rr_tableB r) j (RB j)) /\
    let xs := points sha p (num_bits p) D in
    rr_t r = map (fun j => row_t p xs (RA j) (RB j) (own_masks sha p D sA j) (own_masks sha p D sB j) (stream_rnd sha p L D h key j)) (seq 0 L) /\
    rr_q r = map (fun j => row_q p xs (own_masks sha p D sA j) (own_masks sha p D sB j) (stream_rnd sha p L D h key j)) (seq 0 L) /\
    rr_blindA r = map (fun j => map (fun i => (prod_value p (RA j) (nth i xs 0) + nth i (own_masks sha p D sA j) 0) mod p) (seq 0 D)) (seq 0 L) /\
    rr_blindB r = map (fun j => map (fun i => (prod_value p (RB j) (nth i xs 0) + nth i (own_masks sha p D sB j) 0) mod p) (seq 0 D)) (seq 0 L).
Proof.
  intros ST. pose proof ST as [HS HPr Hp2 Hnb63 VA HL HDeg HW HdA HdB FA FB].
  assert (Hnb : num_bits p + 7 < 2 ^ 64) by lia.
  rewrite <- (data_eq ST rawA HdA) in FA |- *. rewrite <- (data_eq ST rawB HdB) in FB |- *.
  set (us := points sha p (num_bits p) D) in *.
  destruct (blind_new p Hp2 Hnb63 sha HS rand fuel hw L h D al b rawA sA nt posA VA HL) as [h0 [E0 [BA _]]].
  destruct (blind_new p Hp2 Hnb63 sha HS rand fuel hw L h D al b rawB sB nt posB VA HL) as [h0' [E0' [BB _]]].
  assert (h0' = h0) by congruence. subst h0'.
  destruct (BA FA) as [cA [hA [zpA [RA [EA [HA [UA [SA [PA IA]]]]]]]]].
  destruct (BB FB) as [cB [hB [zpB [RB [EB [HB' [UB [SB [PB IB]]]]]]]]].
  unfold exchange. rewrite E0. cbn [bind]. rewrite EA. cbn [bind]. rewrite EB. cbn [bind].
  fold us.
  destruct (computeTOrQ_ok sha HS rand fuel p ltac:(lia) (new_core p L h D 0) key
     (entry (table2 L D (blind_cell p sha sA D us RA))) (entry (table2 L D (blind_cell p sha sB D us RB)))
     (blind_cell p sha sA D us RA) (blind_cell p sha sB D us RB)) as [cS [ET _]].
  { apply (party_core p ltac:(lia) Hnb). apply new_party. }
  { change (points_of sha p (new_core p L h D 0) (co_degree (new_core p L h D 0))) with us. unfold us. rewrite points_length. cbn. lia. }
  { intros j i Hj Hi. split; apply entry_table2; assumption. }
  change (points_of sha p (new_core p L h D 0) (co_degree (new_core p L h D 0))) with us in ET. rewrite ET. cbn [bind].
  assert (PUA : points_of sha p cA (co_degree cA) = us).
  { unfold points_of. rewrite UA. destruct SA as [SF [_ [SD _]]]. cbn [new_core co_fieldsize co_degree] in SF, SD. rewrite SF, SD.
    fold us. destruct (Nat.eqb (length us) 0); reflexivity. }
  destruct (delegationOutput_ok p ltac:(lia) Hnb sha HS rand fuel cA zpA sA sB key PA IA) as [cA' [zpA' [EQ _]]].
  { rewrite PUA. unfold us. rewrite points_length. destruct SA as [_ [_ [SD _]]]. rewrite SD. cbn. lia. }
  rewrite EQ. cbn [bind]. rewrite PUA.
  assert (LU : length us = D) by apply points_length.
  destruct SA as [S1 [S2 [S3 [S4 S5]]]]. cbn [new_core co_fieldsize co_fbits co_degree co_length co_height] in S1, S2, S3, S4, S5.
  eexists _, RA, RB. split; [reflexivity|]. cbn [rr_tableA rr_tableB rr_blindA rr_blindB rr_t rr_q rr_requester]. split.
  { intros j Hj. destruct (HA j Hj) as [fA [A1 [A2 [A3 A4]]]]. destruct (HB' j Hj) as [fB [B1 [B2 [B3 B4]]]]. exists fA, fB. auto 10. }
  cbv zeta. split; [|split; [|split]].
  - unfold table2, row_t. cbn [new_core co_length co_degree co_height]. rewrite LU. apply map_ext. intros j. apply map_ext_in. intros i Hi. apply in_seq in Hi.
    unfold tq_value, blind_cell, stream_rnd, own_masks, coeffsA, coeffsB, omegaA, omegaB. cbn [r_mask r_wA r_wB new_core co_length co_degree co_height co_fbits].
    rewrite !nth_map_seq by lia. destruct (Nat.ltb_spec i D); [|lia].
    match goal with |- ?a mod p = ?b mod p => change (cong p a b) end.
    rewrite (cong_mod (prod_value p (RA j) _ + _)), (cong_mod (prod_value p (RB j) _ + _)). reflexivity.
  - rewrite S3, S4. unfold table2, row_q. rewrite LU. apply map_ext. intros j. apply map_ext_in. intros i Hi. apply in_seq in Hi.
    unfold tq_value, stream_rnd, own_masks, coeffsA, coeffsB, omegaA, omegaB. cbn [r_mask r_wA r_wB].
    rewrite S3, S4, S5. rewrite !nth_map_seq by lia. reflexivity.
  - unfold table2. apply map_ext. intros j. apply map_ext_in. intros i Hi. apply in_seq in Hi. unfold blind_cell, own_masks.
    rewrite nth_map_seq by lia. destruct (Nat.ltb_spec i D); [|lia]. reflexivity.
  - unfold table2. apply map_ext. intros j. apply map_ext_in. intros i Hi. apply in_seq in Hi. unfold blind_cell, own_masks.
    rewrite nth_map_seq by lia. destruct (Nat.ltb_spec i D); [|lia]. reflexivity.
Qed.

(** *** equal products have the same factors *)
Section U.
Variable p : Z.
Hypothesis HP : prime p.
Lemma prodP_roots R z : Forall (in_field p) R -> in_field p z -> cong p (ev (prodP R) z) 0 -> In z R.
Proof.
  intros F Hz E. rewrite ev_prodP in E. apply (roots_product_zero p HP) in E. destruct E as [r [Hr E]]. rewrite Forall_forall in F.
  rewrite (cong_eq (p := p) z r Hz (F r Hr) E). exact Hr.
Qed.
Lemma same_product R : forall R', Forall (in_field p) R -> Forall (in_field p) R' -> length R = length R' -> peq p (prodP R) (prodP R') -> Permutation R R'.
Proof.
  induction R as [|r R IH]; intros R' F F' L E; [destruct R'; [constructor|discriminate]|].
  inversion F as [|? ? Fr FR]; subst.
  assert (I : In r R').
  { apply prodP_roots; [exact F'|exact Fr|]. rewrite <- (peq_ev p _ _ r E). cbn [prodP]. rewrite ev_mulZ. unfold linP. cbn [ev]. apply cong_refl'. ring. }
  apply in_split in I. destruct I as [l1 [l2 ->]].
  assert (PR : Permutation (l1 ++ r :: l2) (r :: l1 ++ l2)) by (symmetry; apply Permutation_middle).
  rewrite PR. constructor. apply IH; [exact FR| | |].
  - rewrite PR in F'. inversion F'; assumption.
  - cbn in L. rewrite app_length in *. cbn in L. lia.
  - assert (E2 : peq p (mulZ (linP r) (prodP R)) (mulZ (linP r) (prodP (l1 ++ l2)))).
    { intros i. etransitivity; [exact (E i)|]. apply cong_refl'. apply ev_inj_Z. intros x. rewrite ev_mulZ, !ev_prodP, (roots_product_perm _ _ x PR). unfold linP, roots_product. cbn [ev fold_right]. ring. }
    assert (D0 : dlt p 0 (subP (prodP R) (prodP (l1 ++ l2)))).
    { apply (dlt_lin_inv p 0 r). intros i _.
      assert (E3 : coef (mulZ (linP r) (subP (prodP R) (prodP (l1 ++ l2)))) i = coef (subP (mulZ (linP r) (prodP R)) (mulZ (linP r) (prodP (l1 ++ l2)))) i).
      { apply ev_inj_Z. intros x. unfold subP. rewrite ev_mulZ, !ev_addZ, !ev_oppP, !ev_mulZ. ring. }
      rewrite E3. unfold subP. rewrite coef_addZ, coef_oppP, (E2 i). apply cong_refl'. ring. }
    intros i. specialize (D0 i ltac:(lia)). unfold subP in D0. rewrite coef_addZ, coef_oppP in D0.
    transitivity (coef (prodP R) i + - coef (prodP (l1 ++ l2)) i + coef (prodP (l1 ++ l2)) i); [apply cong_refl'; ring|]. rewrite D0. reflexivity.
Qed.
End U.

Lemma prodP_length R : length (prodP R) = S (length R).
Proof.
  induction R as [|r R IH]; [reflexivity|]. cbn [prodP]. rewrite mulZ_length by (destruct (prodP R); [discriminate IH|discriminate]).
  rewrite IH. reflexivity.
Qed.
(** rows masked with the same masks are equal iff the buckets are *)
Lemma rows_equal p xs (z : nat -> Z) R R' : prime p -> Forall (in_field p) xs -> NoDup xs -> Forall (in_field p) R -> Forall (in_field p) R' ->
  length R = length R' -> (length R < length xs)%nat ->
  (forall i, (i < length xs)%nat -> (prod_value p R (nth i xs 0) + z i) mod p = (prod_value p R' (nth i xs 0) + z i) mod p) -> Permutation R R'.
Proof.
  intros HP FX ND FR FR' LL LX E. apply (same_product p HP); [exact FR|exact FR'|exact LL|].
  assert (Z0 : forall i, cong p (coef (subP (prodP R) (prodP R')) i) 0).
  { apply (too_many_roots p HP xs).
    - assert (EM : map (fun x => x mod p) xs = xs).
      { rewrite <- (map_id xs) at 2. apply map_ext_in. intros x Hx. rewrite Forall_forall in FX. apply Z.mod_small. apply FX. exact Hx. }
      rewrite EM. exact ND.
    - unfold subP, oppP. rewrite length_addZ, map_length, !prodP_length. lia.
    - intros x Hx. apply (In_nth _ _ 0) in Hx. destruct Hx as [i [Hi <-]]. specialize (E i Hi). set (x := nth i xs 0) in *.
      unfold subP. rewrite ev_addZ, ev_oppP, !ev_prodP.
      assert (E' : cong p (roots_product R x) (roots_product R' x)).
      { assert (G : forall Q, cong p (prod_value p Q x) (roots_product Q x)) by (intros Q; apply cong_mod). rewrite <- !G.
        change (cong p (prod_value p R x + z i) (prod_value p R' x + z i)) in E.
        transitivity (prod_value p R x + z i - z i); [apply cong_refl'; ring|]. rewrite E. apply cong_refl'. ring. }
      rewrite E'. apply cong_refl'. ring. }
  intros i. specialize (Z0 i). unfold subP in Z0. rewrite coef_addZ, coef_oppP in Z0.
  transitivity (coef (prodP R) i + - coef (prodP R') i + coef (prodP R') i); [apply cong_refl'; ring|]. rewrite Z0. reflexivity.
Qed.
Lemma prod_value_perm p R R' x : Permutation R R' -> prod_value p R x = prod_value p R' x.
Proof. intros P. unfold prod_value. f_equal. exact (roots_product_perm R R' x P). Qed.
