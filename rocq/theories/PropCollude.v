(** Property C118: either client together with the server reads the other
    client's data. *)
From Verif Require Import Base Spec Lib NtlMiss StrIntModel HashBucketsModel HashBucketsSpec HashBucketsProofs.
From Verif Require Import PRFModel PRFSpec PolyModel PolySpec PolyProofs InterpProofs EopsiModel EopsiSpec EopsiProofs EopsiBlind EopsiRun EopsiFacts PropEopsi.
From Verif Require Import PrivacyAlg PrivacySpec PrivacyProofs PrivacyRun CollusionProofs.
From Coq Require Import Znumtheory Lia.

Lemma bucket_field sha p L h D al b rawA rawB raw j f : setting sha p L h D al b rawA rawB -> Forall (fun v => 0 <= v < 2 ^ b) raw ->
  Forall (in_field p) f -> Forall (in_field p) (belonging al L j (padded_data p b raw) ++ f).
Proof.
  intros ST HR FF. apply Forall_app. split; [|exact FF]. pose proof (data_field ST raw HR) as F. apply Forall_forall. intros z Hz.
  apply belonging_in in Hz. rewrite Forall_forall in F. apply F. apply Hz.
Qed.
Lemma contents_fun t j R R' : contents t j R -> contents t j R' -> R = R'.
Proof. intros [m E] [m' E']. congruence. Qed.
Lemma xs_map_nth (xs : list Z) (f : Z -> Z) : map (fun i => f (nth i xs 0)) (seq 0 (length xs)) = map f xs.
Proof.
  induction xs as [|x xs IH]; [reflexivity|]. cbn [length seq map nth]. f_equal. rewrite <- seq_shift, map_map. exact IH.
Qed.

(** The server stores the requester's matrix; the helper is sent the
    requester's secret (three bytes of it, C52).  Subtracting the masks of that
    secret and interpolating gives a polynomial whose roots are exactly the
    elements of the bucket. *)
Theorem C118_server_with_helper : forall sha p L h D al b rawA rawB rand fuel hw sA sB key nt posA posB s,
  setting sha p L h D al b rawA rawB -> distinct_points sha p D -> s mod p = sB mod p ->
  exists r, exchange sha rand fuel p hw L h D al b rawA rawB sA sB key nt posA posB = Ok r /\
    forall j, (j < L)%nat -> exists row R f, nth_error (rr_blindB r) j = Some row /\ contents (rr_tableB r) j R /\
      interpolate p (points sha p (num_bits p) D)
        (map (fun i => (nth i row 0 - key_stream sha p (num_bits p) (s mod p) (mask_pos D j i)) mod p) (seq 0 D)) = Ok f /\
      (forall z, 0 <= z < p -> (value p f z = 0 <-> In z R)) /\
      (forall v, In v rawB -> index_of al L (padded (pad_width p b) v) = j -> In (padded (pad_width p b) v) R).
Proof.
  intros sha p L h D al b rawA rawB rand fuel hw sA sB key nt posA posB s ST DP ES.
  destruct (exchange_rows sha p L h D al b rawA rawB rand fuel hw sA sB key nt posA posB ST) as [r [RA [RB [E [FL [_ [_ [_ EB]]]]]]]].
  pose proof (st_prime _ _ _ _ _ _ _ _ _ ST) as HP. pose proof (st_odd _ _ _ _ _ _ _ _ _ ST) as Hp2. pose proof (st_degree _ _ _ _ _ _ _ _ _ ST) as HD.
  exists r. split; [exact E|]. intros j Hj. destruct (FL j Hj) as [fA [fB [_ [ER [_ [LB [_ [FB [_ CB]]]]]]]]].
  assert (FR : Forall (in_field p) (RB j)) by (rewrite ER; apply (bucket_field _ _ _ _ _ _ _ _ _ _ _ _ ST (st_dataB _ _ _ _ _ _ _ _ _ ST) FB)).
  pose proof (points_length p sha (num_bits p) D) as LU. set (us := points sha p (num_bits p) D) in *.
  assert (FU : Forall (in_field p) us) by (apply points_field; [exact Hp2|exact rand]).
  destruct (values_give_bucket p HP us (RB j) FU DP FR ltac:(lia)) as [f [EI RT]].
  eexists _, (RB j), f. split; [rewrite EB; apply nth_error_map_seq; exact Hj|]. split; [exact CB|]. split; [|split; [exact RT|]].
  - rewrite <- EI. f_equal. rewrite <- (xs_map_nth us (prod_value p (RB j))), LU. apply map_ext_in. intros i Hi. apply in_seq in Hi.
    rewrite (nth_map_seq _ D i) by lia. unfold own_masks. rewrite (nth_map_seq _ D i) by lia. rewrite ES.
    set (m := key_stream _ _ _ _ _). set (v := prod_value p (RB j) (nth i us 0)).
    assert (Hv : 0 <= v < p) by (apply Z.mod_pos_bound; lia). rewrite <- (Z.mod_small v p Hv) at 2.
    change (cong p ((v + m) mod p - m) v). rewrite cong_mod. apply cong_refl'. ring.
  - intros v Hv HI. rewrite ER. apply in_or_app. left. apply belonging_in. split; [|exact HI]. unfold padded_data. apply in_map. exact Hv.
Qed.
Print Assumptions C118_server_with_helper.

(** The server stores the helper's matrix and is sent the temporary key; the
    requester has its own secret and q.  At every point where the helper's
    random polynomial does not vanish (more than h of them) exactly one value
    explains what they have; interpolating these values gives a polynomial whose
    roots are exactly the elements of the helper's bucket. *)
Theorem C118_server_with_requester : forall sha p L h D al b rawA rawB rand fuel hw sA sB key nt posA posB,
  setting sha p L h D al b rawA rawB -> distinct_points sha p D ->
  exists r, exchange sha rand fuel p hw L h D al b rawA rawB sA sB key nt posA posB = Ok r /\
    forall j, (j < L)%nat -> exists row rowq R, nth_error (rr_blindA r) j = Some row /\ nth_error (rr_q r) j = Some rowq /\ contents (rr_tableA r) j R /\
      let x i := nth i (points sha p (num_bits p) D) 0 in
      let wA i := omega_value p (coeffsA sha p L D h key j) (x i) in
      let wB i := omega_value p (coeffsB sha p L D h key j) (x i) in
      let stream k i := key_stream sha p (num_bits p) k (mask_pos D j i) in
      let use := filter (fun i => negb (wA i =? 0)) (seq 0 D) in
      (h < length use)%nat /\
      (exists ys f, Forall2 (fun i y => forall y', explains p (nth i row 0) (nth i rowq 0) (stream key i) (stream (sB mod p) i) (wA i) (wB i) y' <-> y' = y) use ys /\
         interpolate p (map x use) ys = Ok f /\ forall z, 0 <= z < p -> (value p f z = 0 <-> In z R)) /\
      (forall v, In v rawA -> index_of al L (padded (pad_width p b) v) = j -> In (padded (pad_width p b) v) R).
Proof.
  intros sha p L h D al b rawA rawB rand fuel hw sA sB key nt posA posB ST DP.
  destruct (exchange_rows sha p L h D al b rawA rawB rand fuel hw sA sB key nt posA posB ST) as [r [RA [RB [E [FL [_ [EQ [EA _]]]]]]]].
  pose proof (st_prime _ _ _ _ _ _ _ _ _ ST) as HP. pose proof (st_odd _ _ _ _ _ _ _ _ _ ST) as Hp2. pose proof (st_degree _ _ _ _ _ _ _ _ _ ST) as HD.
  exists r. split; [exact E|]. intros j Hj. destruct (FL j Hj) as [fA [fB [ER [_ [LA [_ [FA [_ [CA _]]]]]]]]].
  assert (FR : Forall (in_field p) (RA j)) by (rewrite ER; apply (bucket_field _ _ _ _ _ _ _ _ _ _ _ _ ST (st_dataA _ _ _ _ _ _ _ _ _ ST) FA)).
  pose proof (points_length p sha (num_bits p) D) as LU. set (us := points sha p (num_bits p) D) in *.
  assert (FU : Forall (in_field p) us) by (apply points_field; [exact Hp2|exact rand]).
  eexists _, _, (RA j). split; [rewrite EA; apply nth_error_map_seq; exact Hj|]. split; [rewrite EQ; apply nth_error_map_seq; exact Hj|]. split; [exact CA|].
  cbv zeta. set (cA := coeffsA sha p L D h key j).
  assert (LC : length cA = h) by (unfold cA, coeffsA; rewrite map_length, seq_length; reflexivity).
  pose proof (usable_many p HP cA us FU DP) as UM. unfold usable in UM. rewrite LU, LC in UM.
  set (use := filter (fun i => negb (omega_value p cA (nth i us 0) =? 0)) (seq 0 D)) in *.
  assert (HU : forall i, In i use -> (i < D)%nat /\ omega_value p cA (nth i us 0) <> 0).
  { intros i Hi. apply filter_In in Hi. destruct Hi as [Hi Hn]. apply in_seq in Hi. split; [lia|]. destruct (Z.eqb_spec (omega_value p cA (nth i us 0)) 0); [discriminate|assumption]. }
  split; [lia|]. split.
  - assert (FU' : Forall (in_field p) (map (fun i => nth i us 0) use)).
    { apply Forall_forall. intros x Hx. apply in_map_iff in Hx. destruct Hx as [i [<- Hi]]. rewrite Forall_forall in FU. apply FU, nth_In. rewrite LU. apply HU. exact Hi. }
    assert (NU : NoDup (map (fun i => nth i us 0) use)).
    { apply NoDup_map_nth; [exact DP|apply NoDup_filter, seq_NoDup|]. intros i Hi. rewrite LU. apply HU. exact Hi. }
    destruct (values_give_bucket p HP _ (RA j) FU' NU FR) as [f [EI RT]]; [rewrite map_length; lia|].
    exists (map (fun i => prod_value p (RA j) (nth i us 0)) use), f. split; [|split; [|exact RT]].
    + assert (G : forall i, In i use -> forall y', explains p (nth i (map (fun i0 => (prod_value p (RA j) (nth i0 us 0) + nth i0 (own_masks sha p D sA j) 0) mod p) (seq 0 D)) 0)
         (nth i (row_q p us (own_masks sha p D sA j) (own_masks sha p D sB j) (stream_rnd sha p L D h key j)) 0)
         (key_stream sha p (num_bits p) key (mask_pos D j i)) (key_stream sha p (num_bits p) (sB mod p) (mask_pos D j i))
         (omega_value p cA (nth i us 0)) (omega_value p (coeffsB sha p L D h key j) (nth i us 0)) y' <-> y' = prod_value p (RA j) (nth i us 0)).
      { intros i Hi. destruct (HU i Hi) as [Hi1 Hi2].
        apply (explained p HP) with (zA := nth i (own_masks sha p D sA j) 0).
        - apply Z.mod_pos_bound. lia.
        - rewrite (nth_map_seq _ D i Hi1). apply cong_mod.
        - unfold row_q. rewrite LU, (nth_map_seq _ D i Hi1). cbv zeta. rewrite cong_mod. unfold stream_rnd. cbn [r_mask r_wA r_wB]. fold cA.
          rewrite (nth_map_seq _ D i Hi1). unfold own_masks at 2. rewrite (nth_map_seq _ D i Hi1). reflexivity.
        - rewrite Z.mod_small; [exact Hi2|]. apply Z.mod_pos_bound. lia. }
      clear - G. induction use as [|i l IH]; [constructor|]. cbn [map]. constructor; [apply G; left; reflexivity|apply IH; intros k Hk; apply G; right; exact Hk].
    + rewrite <- EI. f_equal. rewrite map_map. reflexivity.
  - intros v Hv HI. rewrite ER. apply in_or_app. left. apply belonging_in. split; [|exact HI]. unfold padded_data. apply in_map. exact Hv.
Qed.
Print Assumptions C118_server_with_requester.

Example C118_nonvacuous : setting ex_sha 61 3 2 5 ex_algo 3 [0; 1; 4] [1; 3; 0] /\ distinct_points ex_sha 61 5 /\ 77 mod 61 = 16 mod 61.
Proof. split; [exact ex_setting|]. split; [exact ex_distinct|]. reflexivity. Qed.
