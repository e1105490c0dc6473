(** What the parties can learn from what they are sent: C110, C111. *)
From Verif Require Import Base Spec Lib NtlMiss NtlMissProofs StrIntModel HashBucketsModel HashBucketsSpec HashBucketsProofs.
From Verif Require Import PRFModel PRFSpec PRFProofs PolyModel PolySpec PolyProofs InterpProofs PolyObjProofs FactorExists.
From Verif Require Import EopsiModel EopsiSpec EopsiProofs EopsiBlind EopsiRun EopsiFacts PropEopsi.
From Verif Require Import PrivacyAlg PrivacySpec PrivacyProofs PrivacyRun.
From Coq Require Import Znumtheory Permutation.

(** C110: the rows the requester receives are a function of the two buckets,
    the masks and the stream of the temporary key; for every other bucket of
    the helper with the same common elements there is a one-to-one change of
    the stream values after which the requester receives exactly the same. *)
Theorem C110_requester_learns_common_only :
  (forall sha p L h D al b rawA rawB rand fuel hw sA sB key nt posA posB, setting sha p L h D al b rawA rawB ->
   exists r RA RB, exchange sha rand fuel p hw L h D al b rawA rawB sA sB key nt posA posB = Ok r /\
     (forall j, (j < L)%nat -> contents (rr_tableA r) j (RA j) /\ contents (rr_tableB r) j (RB j) /\
        length (RA j) = h /\ length (RB j) = h /\ Forall (fun z => 0 <= z < p) (RA j ++ RB j)) /\
     let xs := points sha p (num_bits p) D in
     let masks s j := map (fun i => key_stream sha p (num_bits p) (s mod p) (mask_pos D j i)) (seq 0 D) in
     let drawn j := mkRnd (map (fun i => key_stream sha p (num_bits p) key (mask_pos D j i)) (seq 0 D))
                          (coeffsA sha p L D h key j) (coeffsB sha p L D h key j) in
     (forall j, rnd_ok p D h (drawn j)) /\
     rr_t r = map (fun j => row_t p xs (RA j) (RB j) (masks sA j) (masks sB j) (drawn j)) (seq 0 L) /\
     rr_q r = map (fun j => row_q p xs (masks sA j) (masks sB j) (drawn j)) (seq 0 L)) /\
  (forall p xs h RA RA' RB zA zB, prime p -> length RA = h -> length RA' = h -> length RB = h ->
   Forall (fun z => 0 <= z < p) (RA ++ RA' ++ RB) ->
   (forall z, common RA RB z = common RA' RB z) ->
   exists f g : rnd -> rnd, forall r, rnd_ok p (length xs) h r ->
    (rnd_ok p (length xs) h (f r) /\ g (f r) = r /\
     row_t p xs RA' RB zA zB (f r) = row_t p xs RA RB zA zB r /\ row_q p xs zA zB (f r) = row_q p xs zA zB r) /\
    (rnd_ok p (length xs) h (g r) /\ f (g r) = r)).
Proof.
  split; [|intros; apply view_bijection; assumption].
  intros sha p L h D al b rawA rawB rand fuel hw sA sB key nt posA posB ST.
  destruct (exchange_rows sha p L h D al b rawA rawB rand fuel hw sA sB key nt posA posB ST) as [r [RA [RB [E [FL [Et [Eq _]]]]]]].
  exists r, RA, RB. split; [exact E|]. assert (Hp : 0 < p) by (pose proof (st_odd _ _ _ _ _ _ _ _ _ ST); lia). split.
  - intros j Hj. destruct (FL j Hj) as [fA [fB [EA [EB [LA [LB [FA [FB [CA CB]]]]]]]]].
    split; [exact CA|]. split; [exact CB|]. split; [exact LA|]. split; [exact LB|].
    assert (BF : forall raw, Forall (fun v => 0 <= v < 2 ^ b) raw -> Forall (fun z => 0 <= z < p) (belonging al L j (padded_data p b raw))).
    { intros raw HR. pose proof (data_field ST raw HR) as F. apply Forall_forall. intros z Hz. apply belonging_in in Hz. rewrite Forall_forall in F. apply F. apply Hz. }
    rewrite EA, EB, !Forall_app. split; split; [apply BF, (st_dataA _ _ _ _ _ _ _ _ _ ST)|exact FA|apply BF, (st_dataB _ _ _ _ _ _ _ _ _ ST)|exact FB].
  - cbv zeta. split; [intros j; apply stream_rnd_ok; exact Hp|]. split; [exact Et|exact Eq].
Qed.
Print Assumptions C110_requester_learns_common_only.
(** bucket {7, 20, 31} against {7, 11, 45} shares 7 only, and so does {7, 9, 60} *)
Example C110_nonvacuous : setting ex_sha 61 3 2 5 ex_algo 3 [0; 1; 4] [1; 3; 0] /\
  (prime 61 /\ Forall (fun z => 0 <= z < 61) ([7; 20; 31] ++ [9; 7; 60] ++ [11; 45; 7]) /\
   (forall z, common [7; 20; 31] [11; 45; 7] z = common [9; 7; 60] [11; 45; 7] z) /\
   rnd_ok 61 7 3 (mkRnd [1; 2; 3; 4; 5; 6; 7] [10; 20; 30] [5; 0; 60])) /\
  (* the rows do depend on the common elements *)
  row_t 61 [0; 7; 1; 2; 3; 4; 5] [7; 20; 31] [11; 45; 7] [] [] (mkRnd [0; 0; 0; 0; 0; 0; 0] [10; 20; 30] [5; 0; 60]) <>
  row_t 61 [0; 7; 1; 2; 3; 4; 5] [8; 20; 31] [11; 45; 7] [] [] (mkRnd [0; 0; 0; 0; 0; 0; 0] [10; 20; 30] [5; 0; 60]).
Proof.
  split; [exact ex_setting|]. split.
  - split; [exact prime_61|]. split; [repeat constructor; lia|]. split.
    + intros z. unfold common. destruct (Z.eq_dec z 7) as [->|N1]; [reflexivity|]. destruct (Z.eq_dec z 11) as [->|N2]; [reflexivity|].
      destruct (Z.eq_dec z 45) as [->|N3]; [reflexivity|].
      assert (E : count_occ Z.eq_dec [11; 45; 7] z = 0%nat) by (apply count_occ_not_In; cbn; intuition lia). rewrite E, !Nat.min_0_r. reflexivity.
    + repeat split; cbn [r_mask r_wA r_wB]; repeat constructor; lia.
  - vm_compute. intros H. discriminate H.
Qed.

(** C111: two data sets outsourced under one secret: the differences of what
    the server stores are those of the bucket polynomials, and a row of the
    second matrix equals the row of the first iff the bucket holds the same
    elements. *)
Theorem C111_one_secret_twice : forall sha p L h D al b raw raw' s s', setting sha p L h D al b raw raw' -> s mod p = s' mod p ->
  forall h0, new_hb L h (Some al) = Ok h0 -> forall rand rand' fuel fuel' hw hw' nt nt' pos pos',
  exists c t g m c' t' g' m' R R',
    blind sha rand fuel p hw (new_core p L h D 0) s raw (length raw) (Some b) h0 (new_zpprf p pos) nt = Ok (c, t, g, m) /\
    blind sha rand' fuel' p hw' (new_core p L h D 0) s' raw' (length raw') (Some b) h0 (new_zpprf p pos') nt' = Ok (c', t', g', m') /\
    (forall j, (j < L)%nat -> contents t j (R j) /\ contents t' j (R' j)) /\
    (forall j i, (j < L)%nat -> (i < D)%nat -> exists v v' x, entry m j i = Ok v /\ entry m' j i = Ok v' /\
       nth_error (points sha p (num_bits p) D) i = Some x /\
       (v - v') mod p = (prod_value p (R j) x - prod_value p (R' j) x) mod p) /\
    (distinct_points sha p D -> forall j, (j < L)%nat -> (nth_error m j = nth_error m' j <-> Permutation (R j) (R' j))).
Proof.
  intros sha p L h D al b raw raw' s s' ST ES h0 E0 rand rand' fuel fuel' hw hw' nt nt' pos pos'.
  pose proof ST as [HS HPr Hp2 Hnb63 VA HL HDeg HW Hd Hd' FA FB]. rewrite <- (data_eq ST raw Hd) in FA. rewrite <- (data_eq ST raw' Hd') in FB.
  destruct (blind_new p Hp2 Hnb63 sha HS rand fuel hw L h D al b raw s nt pos VA HL) as [h1 [E1 [BA _]]].
  destruct (blind_new p Hp2 Hnb63 sha HS rand' fuel' hw' L h D al b raw' s' nt' pos' VA HL) as [h2 [E2 [BB _]]].
  assert (h1 = h0) by congruence. assert (h2 = h0) by congruence. subst h1 h2.
  destruct (BA FA) as [c [t [g [R [EA [HA _]]]]]]. destruct (BB FB) as [c' [t' [g' [R' [EB [HB _]]]]]].
  set (us := points sha p (num_bits p) D) in *. assert (LU : length us = D) by apply points_length.
  eexists c, t, g, _, c', t', g', _, R, R'. split; [exact EA|]. split; [exact EB|]. split.
  { intros j Hj. destruct (HA j Hj) as [f [_ [_ [_ CA]]]]. destruct (HB j Hj) as [f' [_ [_ [_ CB]]]]. split; assumption. }
  split.
  - intros j i Hj Hi. exists (blind_cell p sha s D us R j i), (blind_cell p sha s' D us R' j i), (nth i us 0).
    rewrite !(entry_table2 Hj Hi). split; [reflexivity|]. split; [reflexivity|]. split; [apply nth_error_nth'; lia|].
    unfold blind_cell. destruct (Nat.ltb_spec i D); [|lia]. rewrite ES.
    match goal with |- ?a mod p = ?b mod p => change (cong p a b) end.
    rewrite (cong_mod (prod_value p (R j) _ + _)), (cong_mod (prod_value p (R' j) _ + _)). apply cong_refl'. ring.
  - intros ND j Hj.
    assert (BF : forall rw, Forall (fun v => 0 <= v < 2 ^ b) rw -> Forall (in_field p) (belonging al L j (map (field_value p b) rw))).
    { intros rw HR. rewrite (data_eq ST rw HR). pose proof (data_field ST rw HR) as F. apply Forall_forall. intros z Hz. apply belonging_in in Hz.
      rewrite Forall_forall in F. apply F. apply Hz. }
    destruct (HA j Hj) as [f [ER [LR [FR _]]]]. destruct (HB j Hj) as [f' [ER' [LR' [FR' _]]]].
    assert (FF : Forall (in_field p) (R j)) by (rewrite ER; apply Forall_app; split; [apply BF; exact Hd|exact FR]).
    assert (FF' : Forall (in_field p) (R' j)) by (rewrite ER'; apply Forall_app; split; [apply BF; exact Hd'|exact FR']).
    unfold table2. rewrite !nth_error_map_seq by exact Hj. split.
    + intros X. injection X as X.
      apply (rows_equal p us (fun i => key_stream sha p (num_bits p) (s' mod p) (mask_pos D j i)) (R j) (R' j) HPr); try assumption; try congruence; try lia.
      { apply Forall_forall. intros x Hx. apply in_map_iff in Hx. destruct Hx as [k [<- _]]. apply Z.mod_pos_bound. lia. }
      intros i Hi. rewrite LU in Hi. pose proof (f_equal (fun l => nth i l 0) X) as Xi. cbv beta in Xi. rewrite !nth_map_seq in Xi by exact Hi.
      unfold blind_cell in Xi. destruct (Nat.ltb_spec i D); [|lia]. rewrite ES in Xi. exact Xi.
    + intros P. f_equal. apply map_ext_in. intros i Hi. apply in_seq in Hi. unfold blind_cell. destruct (Nat.ltb_spec i D); [|lia].
      rewrite ES, (prod_value_perm p _ _ _ P). reflexivity.
Qed.
Print Assumptions C111_one_secret_twice.
Example C111_nonvacuous : setting ex_sha 61 3 2 5 ex_algo 3 [0; 1; 4] [1; 3; 0] /\ distinct_points ex_sha 61 5 /\ 77 mod 61 = 16 mod 61 /\
  exists h0, new_hb 3 2 (Some ex_algo) = Ok h0.
Proof. split; [exact ex_setting|]. split; [exact ex_distinct|]. split; [reflexivity|]. eexists. reflexivity. Qed.
