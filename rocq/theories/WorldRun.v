(** A complete run of the protocol through messages. *)
From Verif Require Import Base Lib NtlMiss NtlMissProofs PRFModel PRFProofs HashBucketsModel EopsiModel WorldModel WorldSpec WorldProofs WorldFrame.
From Coq Require Import Lia.

(** *** byte layouts *)
Lemma upto_nul_free s : nul_free s -> upto_nul s = s ++ [0].
Proof. induction 1 as [|b s Hb _ IH]; [reflexivity|]. cbn [upto_nul app]. destruct (Z.eqb_spec b 0); [lia|]. rewrite IH. reflexivity. Qed.
Lemma upto_nul_length s : (length (upto_nul s) <= length s + 1)%nat.
Proof. induction s as [|b s IH]; [cbn; lia|]. cbn [upto_nul]. destruct (b =? 0); cbn [length]; lia. Qed.
Lemma cstr_some s t : nul_free s -> cstr (map Some (s ++ 0 :: t)) = Ok s.
Proof.
  induction 1 as [|b s Hb _ IH]; [reflexivity|]. cbn [app map cstr]. destruct (Z.eqb_spec b 0); [lia|]. rewrite IH. reflexivity.
Qed.
Lemma cstr_nonzero : forall cs s, cstr cs = Ok s -> Forall (fun b => b <> 0) s.
Proof.
  induction cs as [|[b|] cs IH]; intros s H; cbn in H; try discriminate. destruct (Z.eqb_spec b 0); [apply Ok_inj in H; subst; constructor|].
  apply bind_ok in H. destruct H as [s' [H' H]]. apply Ok_inj in H. subst s. constructor; [assumption|apply IH; exact H'].
Qed.
Lemma cstr_at_some a s t : nul_free s -> cstr_at (map Some (a ++ s ++ 0 :: t)) (length a) = Ok s.
Proof.
  intros H. unfold cstr_at. rewrite map_app, skipn_app, skipn_all2, map_length, Nat.sub_diag by (rewrite map_length; lia). cbn [app skipn]. apply cstr_some. exact H.
Qed.
Lemma bytes_from_some a bs t : bytes_from (map Some (a ++ bs ++ t)) (length a) (length bs) = Ok bs.
Proof.
  unfold bytes_from.
  assert (G : forall n k, (k + n <= length bs)%nat -> mapM (fun i => read_cell (map Some (a ++ bs ++ t)) (Z.of_nat (length a + i))) (seq k n) = Ok (firstn n (skipn k bs))).
  { induction n as [|n IH]; intros k Hk; [reflexivity|]. cbn [seq mapM].
    assert (E : read_cell (map Some (a ++ bs ++ t)) (Z.of_nat (length a + k)) = Ok (nth k bs 0)).
    { unfold read_cell, zget. destruct (Z.ltb_spec (Z.of_nat (length a + k)) 0); [lia|]. rewrite Nat2Z.id.
      rewrite (proj2 (aget_ok _ _ (Some (nth k bs 0)))); [reflexivity|]. rewrite nth_error_map, nth_error_app2 by lia.
      replace (length a + k - length a)%nat with k by lia. rewrite nth_error_app1 by lia. rewrite (nth_error_nth' bs 0) by lia. reflexivity. }
    rewrite E. cbn [bind]. rewrite (IH (S k)) by lia. cbn [bind]. f_equal.
    assert (X : skipn k bs = nth k bs 0 :: skipn (S k) bs).
    { clear -Hk. revert k Hk. induction bs as [|x bs IH]; intros k Hk; [cbn in Hk; lia|]. destruct k; [reflexivity|]. cbn [skipn nth]. rewrite IH by (cbn in Hk; lia). reflexivity. }
    rewrite X. reflexivity. }
  rewrite (G (length bs) 0%nat) by lia. cbn [skipn]. rewrite firstn_all. reflexivity.
Qed.
Lemma read_past cs i : (length cs <= i)%nat -> read_cell cs (Z.of_nat i) = UB OutOfBounds.
Proof.
  intros H. unfold read_cell, zget. destruct (Z.ltb_spec (Z.of_nat i) 0); [lia|]. rewrite Nat2Z.id. unfold aget. rewrite (proj2 (nth_error_None cs i) H). reflexivity.
Qed.
(** reading past the end of a fully written array *)
Lemma bytes_from_past bs off n : (0 < n)%nat -> (length bs < off + n)%nat -> bytes_from (map Some bs) off n = UB OutOfBounds.
Proof.
  intros Hn H. unfold bytes_from.
  assert (G : forall m k, (length bs < off + (k + m))%nat -> (0 < m)%nat -> mapM (fun i => read_cell (map Some bs) (Z.of_nat (off + i))) (seq k m) = UB OutOfBounds).
  { induction m as [|m IH]; intros k Hk Hm; [lia|]. cbn [seq mapM]. destruct (Nat.lt_ge_cases (off + k) (length bs)) as [L|L].
    - assert (E : read_cell (map Some bs) (Z.of_nat (off + k)) = Ok (nth (off + k) bs 0)).
      { unfold read_cell, zget. destruct (Z.ltb_spec (Z.of_nat (off + k)) 0); [lia|]. rewrite Nat2Z.id.
        rewrite (proj2 (aget_ok _ _ (Some (nth (off + k) bs 0)))); [reflexivity|]. rewrite nth_error_map, (nth_error_nth' bs 0) by lia. reflexivity. }
      rewrite E. cbn [bind]. rewrite IH by lia. reflexivity.
    - rewrite read_past by (rewrite map_length; lia). reflexivity. }
  apply G; lia.
Qed.

Lemma repeat_split {A} (x : A) a b : repeat x (a + b) = repeat x a ++ repeat x b.
Proof. apply repeat_app. Qed.
Lemma write_next bs a (d : list cell) n off : Z.of_nat (length a) = off -> length bs = n ->
  write_at (map Some a ++ repeat None n ++ d) off bs = Ok (map Some (a ++ bs) ++ d).
Proof.
  intros HO HL. rewrite write_at_mid; [rewrite map_app, app_assoc; reflexivity|rewrite map_length; exact HO|rewrite repeat_length; congruence].
Qed.

Lemma write_first bs (d : list cell) n : length bs = n -> write_at (repeat None n ++ d) 0 bs = Ok (map Some bs ++ d).
Proof. intros HL. apply (write_next bs [] d n 0 eq_refl HL). Qed.

Lemma cloud_request_ok own other key : nul_free own -> nul_free other -> 0 <= key ->
  cloud_request own other key = Ok (map Some (cloud_request_layout own other key)).
Proof.
  intros HO HT HK. unfold cloud_request, cloud_request_layout, tmpKeyByteSize. rewrite !upto_nul_free by assumption.
  replace (length own + 1 + length other + 1 + 16 + 1)%nat with ((length own + 1) + ((length other + 1) + (16 + 1)))%nat by lia.
  rewrite (repeat_split (@None Z) (length own + 1)), (repeat_split (@None Z) (length other + 1)), (repeat_split (@None Z) 16).
  rewrite (write_first (own ++ [0]) _ (length own + 1)) by (rewrite ?app_length; reflexivity). cbn [bind].
  rewrite (write_next (other ++ [0]) (own ++ [0]) _ (length other + 1)) by (rewrite ?app_length; cbn [length]; lia). cbn [bind].
  rewrite (write_next (le_bytes 16 (Z.abs key)) ((own ++ [0]) ++ other ++ [0]) _ 16) by (rewrite ?app_length, ?le_bytes_length; cbn [length]; lia). cbn [bind].
  rewrite <- (app_nil_r (repeat (@None Z) 1)).
  rewrite (write_next [0] (((own ++ [0]) ++ other ++ [0]) ++ le_bytes 16 (Z.abs key)) [] 1) by (rewrite ?app_length, ?le_bytes_length; cbn [length]; lia).
  rewrite app_nil_r, Z.abs_eq by exact HK. f_equal. f_equal. rewrite <- !app_assoc. reflexivity.
Qed.
(** whatever the strings hold: what strcpy leaves untouched stays uninitialised *)
Lemma upto_nul_part s a : c_part s a -> upto_nul s = a ++ [0].
Proof.
  intros [F H]. revert s H. induction F as [|b a Hb _ IH]; intros s H.
  - destruct H as [H|[r H]]; rewrite H; reflexivity.
  - destruct H as [H|[r H]]; rewrite H; cbn [upto_nul app]; (destruct (Z.eqb_spec b 0); [lia|]); rewrite IH; eauto.
Qed.
Lemma c_part_length s a : c_part s a -> (length a <= length s)%nat.
Proof. intros [_ [H|[r H]]]; rewrite H, ?app_length; lia. Qed.
Lemma write_part (pre d : list cell) s a off : c_part s a -> Z.of_nat (length pre) = off ->
  write_at (pre ++ repeat None (length s + 1) ++ d) off (upto_nul s) = Ok (pre ++ (map Some (a ++ [0]) ++ repeat None (length s - length a)) ++ d).
Proof.
  intros H HO. rewrite (upto_nul_part _ _ H). pose proof (c_part_length _ _ H) as L.
  replace (length s + 1)%nat with ((length a + 1) + (length s - length a))%nat by lia. rewrite repeat_split, <- app_assoc.
  rewrite write_at_mid; [rewrite <- !app_assoc; reflexivity|exact HO|]. rewrite repeat_length, app_length. reflexivity.
Qed.
Lemma cloud_request_any own other key a b : c_part own a -> c_part other b -> 0 <= key ->
  cloud_request own other key =
    Ok (map Some (a ++ [0]) ++ repeat None (length own - length a) ++ map Some (b ++ [0]) ++ repeat None (length other - length b) ++
        map Some (le_bytes 16 key ++ [0])).
Proof.
  intros HA HB HK. unfold cloud_request, tmpKeyByteSize. pose proof (c_part_length _ _ HA) as LA. pose proof (c_part_length _ _ HB) as LB.
  replace (length own + 1 + length other + 1 + 16 + 1)%nat with ((length own + 1) + ((length other + 1) + (16 + 1)))%nat by lia.
  rewrite (repeat_split (@None Z) (length own + 1)), (repeat_split (@None Z) (length other + 1)), (repeat_split (@None Z) 16).
  rewrite (write_part [] _ own a 0 HA eq_refl : write_at (repeat None (length own + 1) ++ _) 0 _ = _). cbn [bind app].
  set (A := map Some (a ++ [0]) ++ repeat None (length own - length a)).
  assert (EA : length A = (length own + 1)%nat) by (unfold A; rewrite app_length, map_length, repeat_length, app_length; cbn [length]; lia).
  rewrite (write_part A _ other b (Z.of_nat (length own) + 1) HB) by lia. cbn [bind].
  set (B := map Some (b ++ [0]) ++ repeat None (length other - length b)).
  assert (EB : length B = (length other + 1)%nat) by (unfold B; rewrite app_length, map_length, repeat_length, app_length; cbn [length]; lia).
  rewrite (app_assoc A B). rewrite write_at_mid; [|rewrite app_length; lia|rewrite repeat_length, le_bytes_length; reflexivity]. cbn [bind].
  rewrite (app_assoc (A ++ B)). rewrite <- (app_nil_r (repeat (@None Z) 1)).
  rewrite write_at_mid; [|rewrite !app_length, map_length, le_bytes_length; lia|rewrite repeat_length; reflexivity].
  rewrite app_nil_r, Z.abs_eq by exact HK. f_equal. rewrite (map_app Some (le_bytes 16 key) [0]). unfold A, B. rewrite <- !app_assoc. reflexivity.
Qed.
Lemma client_request_any id secret a : c_part id a -> 0 <= secret ->
  client_request_bytes id secret =
    Ok (map Some (a ++ [0]) ++ repeat None (length id - length a) ++ map Some (le_bytes (Z.to_nat (bytes_of_zz secret)) secret ++ [0])).
Proof.
  intros HA HS. unfold client_request_bytes. pose proof (c_part_length _ _ HA) as LA.
  assert (HB : 0 <= bytes_of_zz secret) by (unfold bytes_of_zz; pose proof (num_bits_nonneg secret); apply Z.div_pos; lia).
  set (n := Z.to_nat (bytes_of_zz secret)).
  assert (EN : bytes_of_zz secret = Z.of_nat n) by (unfold n; lia). rewrite EN.
  replace (Z.to_nat (Z.of_nat n + 1 + Z.of_nat (length id) + 1)) with ((length id + 1) + (n + 1))%nat by lia. rewrite (repeat_split (@None Z) (length id + 1)), (repeat_split (@None Z) n).
  rewrite (write_part [] _ id a 0 HA eq_refl : write_at (repeat None (length id + 1) ++ _) 0 _ = _). cbn [bind app].
  set (A := map Some (a ++ [0]) ++ repeat None (length id - length a)).
  assert (EA : length A = (length id + 1)%nat) by (unfold A; rewrite app_length, map_length, repeat_length, app_length; cbn [length]; lia).
  rewrite ?Nat2Z.id. rewrite write_at_mid; [|lia|rewrite repeat_length, le_bytes_length; reflexivity]. cbn [bind].
  rewrite (app_assoc A). rewrite <- (app_nil_r (repeat (@None Z) 1)).
  rewrite write_at_mid; [|rewrite !app_length, map_length, le_bytes_length; lia|rewrite repeat_length; reflexivity].
  rewrite app_nil_r, Z.abs_eq by exact HS. f_equal. rewrite (map_app Some (le_bytes n secret) [0]). unfold A. rewrite <- !app_assoc. reflexivity.
Qed.
Lemma cloud_request_reads own other key : nul_free own -> nul_free other -> 0 <= key < 2 ^ 128 ->
  let d := map Some (cloud_request_layout own other key) in
  cstr_at d 0 = Ok own /\ cstr_at d (length own + 1) = Ok other /\
  exists kb, bytes_from d (length own + 1 + length other + 1) tmpKeyByteSize = Ok kb /\ le_val kb = key.
Proof.
  intros HO HT HK d. unfold d, cloud_request_layout. split; [|split].
  - apply (cstr_at_some [] own). exact HO.
  - replace (length own + 1)%nat with (length (own ++ [0])) by (rewrite app_length; reflexivity).
    replace (own ++ [0] ++ other ++ [0] ++ le_bytes 16 key ++ [0]) with ((own ++ [0]) ++ other ++ 0 :: (le_bytes 16 key ++ [0])) by (rewrite <- !app_assoc; reflexivity).
    apply cstr_at_some. exact HT.
  - exists (le_bytes 16 key). split.
    + replace (length own + 1 + length other + 1)%nat with (length (own ++ [0] ++ other ++ [0])) by (rewrite !app_length; cbn [length]; lia).
      replace (own ++ [0] ++ other ++ [0] ++ le_bytes 16 key ++ [0]) with ((own ++ [0] ++ other ++ [0]) ++ le_bytes 16 key ++ [0]) by (rewrite <- !app_assoc; reflexivity).
      replace tmpKeyByteSize with (length (le_bytes 16 key)) by apply le_bytes_length. apply bytes_from_some.
    + rewrite le_val_le_bytes. apply Z.mod_small. exact HK.
Qed.
Lemma bytes_nonneg z : 0 <= bytes_of_zz z.
Proof. unfold bytes_of_zz. pose proof (num_bits_nonneg z). apply Z.div_pos; lia. Qed.
Lemma client_request_bytes_ok id secret : nul_free id -> 0 <= secret ->
  client_request_bytes id secret = Ok (map Some (client_request_layout id (Z.to_nat (bytes_of_zz secret)) secret)).
Proof.
  intros HI HS. unfold client_request_bytes, client_request_layout. pose proof (bytes_nonneg secret) as HB. set (n := Z.to_nat (bytes_of_zz secret)).
  assert (EN : bytes_of_zz secret = Z.of_nat n) by (unfold n; lia). rewrite EN, upto_nul_free by assumption.
  replace (Z.to_nat (Z.of_nat n + 1 + Z.of_nat (length id) + 1)) with ((length id + 1) + (n + 1))%nat by lia. rewrite (repeat_split (@None Z) (length id + 1)), (repeat_split (@None Z) n).
  rewrite (write_first (id ++ [0]) _ (length id + 1)) by (rewrite ?app_length; reflexivity). cbn [bind].
  rewrite (write_next (le_bytes n (Z.abs secret)) (id ++ [0]) _ n) by (rewrite ?app_length, ?le_bytes_length; cbn [length]; lia). cbn [bind].
  rewrite <- (app_nil_r (repeat (@None Z) 1)).
  rewrite (write_next [0] ((id ++ [0]) ++ le_bytes n (Z.abs secret)) [] 1) by (rewrite ?app_length, ?le_bytes_length; cbn [length]; lia).
  rewrite app_nil_r, Z.abs_eq by exact HS. f_equal. f_equal. rewrite <- !app_assoc. reflexivity.
Qed.
(** three bytes from behind the id *)
Lemma client_request_reads id secret : nul_free id -> 0 <= secret ->
  let d := map Some (client_request_layout id (Z.to_nat (bytes_of_zz secret)) secret) in
  cstr_at d 0 = Ok id /\
  (secret < 2 ^ 8 -> bytes_from d (length id + 1) 3 = UB OutOfBounds) /\
  (2 ^ 8 <= secret -> exists sb, bytes_from d (length id + 1) 3 = Ok sb /\ le_val sb = secret mod 2 ^ 24).
Proof.
  intros HI HS d. unfold d, client_request_layout. pose proof (bytes_nonneg secret) as HB. set (n := Z.to_nat (bytes_of_zz secret)).
  destruct (bytes_of_zz_least_l secret) as [L0 [L1 L2]]. rewrite Z.abs_eq in L1 by exact HS.
  assert (EN : bytes_of_zz secret = Z.of_nat n) by (unfold n; lia).
  split; [apply (cstr_at_some [] id); exact HI|]. split.
  - intros H. apply bytes_from_past; [lia|]. rewrite !app_length, le_bytes_length. cbn [length].
    assert (bytes_of_zz secret <= 1). { apply L2; [lia|]. rewrite Z.abs_eq by exact HS. exact H. } lia.
  - intros H. assert (Hn : (2 <= n)%nat).
    { assert (~ bytes_of_zz secret <= 1); [|lia]. intros X. rewrite EN in L1.
      assert (256 ^ Z.of_nat n <= 256 ^ 1) by (apply Z.pow_le_mono_r; lia). change (256 ^ 1) with 256 in H0. change (2 ^ 8) with 256 in H. lia. }
    exists (firstn 3 (le_bytes n secret ++ [0])). split.
    + replace (length id + 1)%nat with (length (id ++ [0])) by (rewrite app_length; reflexivity).
      rewrite <- (firstn_skipn 3 (le_bytes n secret ++ [0])) at 1. rewrite (app_assoc id [0]).
      replace 3%nat with (length (firstn 3 (le_bytes n secret ++ [0]))) at 3 by (rewrite firstn_length, app_length, le_bytes_length; cbn [length]; lia).
      apply bytes_from_some.
    + rewrite le_val_firstn by (apply Forall_app; split; [apply le_bytes_is_byte|repeat constructor; lia]).
      change (256 ^ Z.of_nat 3) with (2 ^ 24). f_equal. rewrite le_val_app. cbn [le_val]. rewrite le_val_le_bytes.
      rewrite Z.mod_small; [lia|]. split; [exact HS|]. rewrite <- EN. apply L1.
Qed.

Section R.
Variable sha : list Z -> list Z.
Variable rand : nat -> Z.
Variable fuel : nat.
Variable p : Z.
Variables canzass berlekamp : nat -> list Z -> list (list Z * Z).
Variable hw : nat.
Variable rbits : nat -> Z.
#[local] Notation receive := (receive sha rand fuel p canzass berlekamp rbits).
#[local] Notation step := (step sha rand fuel p canzass berlekamp rbits).
#[local] Notation try_intersect := (try_intersect sha rand fuel p canzass berlekamp).
#[local] Notation intersect := (intersect sha rand fuel p canzass berlekamp).
#[local] Notation computeTOrQ := (computeTOrQ sha rand fuel p).
#[local] Notation delegationOutput := (delegationOutput sha rand fuel p).

(** *** the requester *)
Lemma intersect_waits w i P c b : nth_error (w_parties w) i = Some P -> pa_role P = RClient c -> cl_rawDataBits c = Some b ->
  cl_q c = None \/ cl_t c = None -> try_intersect w i = Ok w.
Proof.
  intros HP HR HB HN. unfold WorldModel.try_intersect, as_client. rewrite (proj2 (the_party_ok w i P) HP). cbn [bind]. rewrite HR. cbn [bind].
  rewrite HB. unfold EopsiModel.intersect. cbn [padSize bind]. destruct HN as [-> | ->]; cbn [opt_entries bind]; [reflexivity|].
  destruct (opt_entries (w_heap w) (cl_q c)); reflexivity.
Qed.
Definition finished (w : world) (i : nat) (P : party) (c : client) (core1 : core) (vs : list Z) (at_ aq : nat) : world :=
  w_set_heap (w_set_facts (put_party w i (pa_set_core (pa_set_role P (RClient (cl_set_setcap c vs))) core1)) (w_facts w + co_length (pa_core P)))
    (upd (upd (w_heap w) at_ Freed) aq Freed).
Lemma intersect_finishes w i P c at_ aq t q core1 vs : nth_error (w_parties w) i = Some P -> pa_role P = RClient c ->
  cl_t c = Some at_ -> cl_q c = Some aq -> nth_error (w_heap w) at_ = Some (BMat t) -> nth_error (w_heap w) aq = Some (BMat q) -> at_ <> aq ->
  intersect (pa_core P) (cl_rawDataBits c) (Some (entry t)) (Some (entry q)) (w_facts w) = Ok (Some (core1, vs)) ->
  try_intersect w i = Ok (finished w i P c core1 vs at_ aq).
Proof.
  intros HP HR ET EQ HT HQ NE HI. unfold WorldModel.try_intersect, as_client. rewrite (proj2 (the_party_ok w i P) HP). cbn [bind]. rewrite HR. cbn [bind].
  rewrite ET, EQ. cbn [opt_entries entries_at]. rewrite HT, HQ, HI. cbn [bind release].
  cbn [w_set_facts w_heap put_party w_set_parties]. rewrite HT. cbn [bind w_set_heap w_heap]. rewrite nth_upd_other by exact NE. rewrite HQ. reflexivity.
Qed.

(** delivering one of the two results *)
Definition result_of (c : client) (t : mtype) (d : option nat) : client :=
  match t with MOutput => cl_set_t c d | _ => cl_set_q c d end.
Lemma deliver_result d w me m P c M s Q : nth_error (w_parties w) me = Some P -> nth_error (w_msgs w) m = Some M -> pa_role P = RClient c ->
  m_party M <> pa_id P -> getPartyById P (m_party M) = Some s -> nth_error (w_parties w) s = Some Q -> hasAuthenticatedId P (pa_id Q) = true ->
  (m_type M = MOutput /\ pa_type Q = TServer) \/ (m_type M = MPolynomial /\ pa_type Q = TClient) ->
  receive (S d) w me m =
    (do _ <- entries_at (w_heap w) (m_data M) 0%nat 0%nat;
     do w2 <- try_intersect (put_client w me P (result_of c (m_type M) (m_data M))) me;
     Ok (w2, Done, [(me, m_type M)])).
Proof.
  intros HP HM HR NE HG HQ HA HT. rewrite (receive_S _ _ _ _ _ _ _ d w me m P M HP HM), (step_known _ _ _ _ _ _ _ d w me m P M s Q NE HG HQ), HA, HR.
  destruct HT as [[-> ->]|[-> ->]]; cbn [andb authorised result_of].
  - unfold client_output. destruct (entries_at _ (m_data M) 0%nat 0%nat); cbn [bind]; try reflexivity. destruct (try_intersect _ me); reflexivity.
  - unfold client_polynomial. destruct (entries_at _ (m_data M) 0%nat 0%nat); cbn [bind]; try reflexivity. destruct (try_intersect _ me); reflexivity.
Qed.

(** *** the server *)
Lemma serve_request d w me m P s M x Q cs partner kb a b MA MB core1 t MC to : nth_error (w_parties w) me = Some P -> nth_error (w_msgs w) m = Some M ->
  pa_role P = RServer s -> m_type M = MCloudRequest ->
  m_party M <> pa_id P -> getPartyById P (m_party M) = Some x -> nth_error (w_parties w) x = Some Q -> hasAuthenticatedId P (pa_id Q) = true -> pa_type Q = TClient ->
  bytes_at (w_heap w) (m_data M) = Ok cs -> cstr_at cs 0 = Ok (pa_id Q) -> cstr_at cs (length (pa_id Q) + 1) = Ok partner ->
  bytes_from cs (length (pa_id Q) + 1 + length partner + 1) tmpKeyByteSize = Ok kb ->
  map_find (sv_stored s) (pa_id Q) = Some (Some a) -> map_find (sv_stored s) partner = Some (Some b) ->
  nth_error (w_msgs w) a = Some MA -> nth_error (w_msgs w) b = Some MB ->
  computeTOrQ (pa_core P) (le_val kb) (entries_at (w_heap w) (m_data MA)) (entries_at (w_heap w) (m_data MB)) = Ok (core1, t) ->
  nth_error (w_msgs w) (sv_toClient s) = Some MC -> getPartyById P partner = Some to ->
  let w3 := put_msg (w_set_heap (put_party w me (pa_set_core P core1)) (w_heap w ++ [BMat t])) (sv_toClient s)
              (mkMsg (pa_id P) MOutput (Some (length (w_heap w))) 1) in
  receive (S d) w me m =
    (do (w4, o, tr) <- receive d w3 to (sv_toClient s);
     do (w5, o5) <- (match o with
                     | Done => do M4 <- the_msg w4 m; do _ <- bytes_at (w_heap w4) (m_data M4); do w5 <- release w4 (m_data M4); Ok (w5, Done)
                     | _ => Ok (w4, o)
                     end);
     Ok (w5, o5, (me, MCloudRequest) :: tr)).
Proof.
  intros HP HM HR HT NE HG HQ HA HTQ HB HC1 HC2 HK HSa HSb HMA HMB HTQ' HMC HTO w3.
  rewrite (receive_S _ _ _ _ _ _ _ d w me m P M HP HM), (step_known _ _ _ _ _ _ _ d w me m P M x Q NE HG HQ), HA, HR, HT, HTQ. cbn [andb authorised].
  unfold server_request. rewrite (proj2 (the_party_ok w x Q) HQ). cbn [bind]. rewrite HTQ. cbn [ptype_eqb]. rewrite HB. cbn [bind]. rewrite HC1. cbn [bind].
  rewrite str_eqb_refl. cbn [negb]. rewrite HC2. cbn [bind]. rewrite HK. cbn [bind].
  unfold intersectionOutput. rewrite (proj2 (the_party_ok w me P) HP). cbn [bind]. rewrite HR. unfold stored_get. rewrite HSa, HSb.
  rewrite (proj2 (the_msg_ok w a MA) HMA). cbn [bind]. rewrite (proj2 (the_msg_ok w b MB) HMB). cbn [bind]. rewrite HTQ'. cbn [bind alloc].
  assert (ER : pa_set_role P (RServer (mkServer (sv_stored s) (sv_toClient s))) = P).
  { destruct P as [i ty di co ro]; cbn in *. subst ro. destruct s; reflexivity. }
  rewrite ER.
  set (wt := w_set_heap _ _). assert (EMC : the_msg wt (sv_toClient s) = Ok MC) by (apply the_msg_ok; exact HMC). rewrite EMC. cbn [bind]. rewrite HTO. cbn [send_with].
  change (put_msg wt (sv_toClient s) (m_setPartyId (m_setType (m_setData MC (Some (length (w_heap (put_party w me (pa_set_core P core1))))) 1) MOutput) (pa_id P))) with w3.
  destruct (receive d w3 to (sv_toClient s)) as [[[w4 o] tr]| | | |]; cbn [bind]; try reflexivity.
  destruct o; [|reflexivity|reflexivity]. destruct (the_msg w4 m) as [M4| | | |]; cbn [bind]; try reflexivity.
  destruct (bytes_at (w_heap w4) (m_data M4)); cbn [bind]; try reflexivity. destruct (release w4 (m_data M4)); reflexivity.
Qed.

(** *** the helper *)
Definition helper_reply (d : nat) (w : world) (me sender : nat) (otherSecret key : Z) : delivery :=
  client_reply sha rand fuel p (receive d) w me sender otherSecret key.
Lemma help d w me m P c M x Q cs key k MC cl sb : nth_error (w_parties w) me = Some P -> nth_error (w_msgs w) m = Some M -> pa_role P = RClient c ->
  m_type M = MClientRequest -> m_party M <> pa_id P -> getPartyById P (m_party M) = Some x -> nth_error (w_parties w) x = Some Q ->
  hasAuthenticatedId P (pa_id Q) = true -> pa_type Q = TClient ->
  bytes_at (w_heap w) (m_data M) = Ok cs -> cstr_at cs 0 = Ok (pa_id Q) -> nul_free (pa_id P) -> nul_free (pa_id Q) ->
  draw_key rbits fuel (w_draws w) = Ok (key, k) -> 0 <= key ->
  nth_error (w_msgs w) (cl_toCloud c) = Some MC -> find_cloud w (pa_parties P) = Ok (Some cl) -> m <> cl_toCloud c ->
  bytes_from cs (length (pa_id Q) + 1) 3 = Ok sb ->
  let d0 := cloud_request_layout (pa_id P) (pa_id Q) key in
  let w2 := put_msg (w_set_heap (w_set_draws w k) (w_heap w ++ [BBytes (map Some d0)])) (cl_toCloud c)
              (mkMsg (pa_id P) MCloudRequest (Some (length (w_heap w))) (Z.of_nat (length d0))) in
  receive (S d) w me m =
    (do (w3, o, tr) <- receive d w2 cl (cl_toCloud c);
     do (w4, o4, tr4) <- (match o with
       | Thrown _ => Exit 2
       | TooDeep => Ok (w3, TooDeep, tr)
       | Done => do (w4, o2, tr2) <- helper_reply d w3 me x (le_val sb) key; Ok (w4, o2, tr ++ tr2)
       end);
     Ok (w4, o4, (me, MClientRequest) :: tr4)).
Proof.
  intros HP HM HR HT NE HG HQ HA HTQ HB HC HF1 HF2 HK HK0 HMC HCL NM HSB d0 w2.
  rewrite (receive_S _ _ _ _ _ _ _ d w me m P M HP HM), (step_known _ _ _ _ _ _ _ d w me m P M x Q NE HG HQ), HA, HR, HT, HTQ. cbn [andb authorised].
  unfold client_request. rewrite HB. cbn [bind]. rewrite HC. cbn [bind]. rewrite (proj2 (the_party_ok w x Q) HQ). cbn [bind]. rewrite str_eqb_refl. cbn [negb].
  rewrite HK. cbn [bind]. rewrite (cloud_request_ok _ _ key HF1 HF2 HK0). cbn [bind alloc].
  set (wt := w_set_heap _ _). assert (EMC : the_msg wt (cl_toCloud c) = Ok MC) by (apply the_msg_ok; exact HMC). rewrite EMC. cbn [bind]. rewrite map_length.
  change (put_msg wt (cl_toCloud c) (m_setPartyId (m_setType (m_setData MC (Some (length (w_heap (w_set_draws w k)))) (Z.of_nat (length (cloud_request_layout (pa_id P) (pa_id Q) key)))) MCloudRequest) (pa_id P))) with w2.
  assert (EF : forall l, find_cloud w2 l = find_cloud w l).
  { induction l as [|[i j] l IH]; [reflexivity|]. cbn [find_cloud]. change (the_party w2 j) with (the_party w j). destruct (the_party w j); cbn [bind]; try reflexivity. rewrite IH. reflexivity. }
  rewrite EF, HCL. cbn [bind].
  assert (EM : the_msg w2 m = Ok M). { apply the_msg_ok. unfold w2. cbn. rewrite nth_upd_other by congruence. exact HM. } rewrite EM. cbn [bind].
  assert (EB : bytes_at (w_heap w2) (m_data M) = Ok cs).
  { unfold w2. cbn. unfold bytes_at in HB |- *. destruct (m_data M) as [a|]; [|discriminate]. destruct (nth_error (w_heap w) a) as [bl|] eqn:E; [|discriminate].
    rewrite (nth_snoc_old _ _ _ _ E). exact HB. }
  rewrite EB. cbn [bind]. rewrite HSB. cbn [bind send_with].
  destruct (receive d w2 cl (cl_toCloud c)) as [[[w3 o] tr]| | | |]; cbn [bind]; try reflexivity.
Qed.
Lemma reply_ok d w me P c sender other key core1 zp1 q MC : nth_error (w_parties w) me = Some P -> pa_role P = RClient c ->
  delegationOutput (pa_core P) (cl_zp c) (cl_secret c) other key = Ok (core1, zp1, q) -> nth_error (w_msgs w) (cl_toClient c) = Some MC ->
  helper_reply d w me sender other key =
    receive d (put_msg (w_set_heap (put_party w me (pa_set_core (pa_set_role P (RClient (cl_set_q (cl_set_zp c zp1) (Some (length (w_heap w)))))) core1)) (w_heap w ++ [BMat q]))
                 (cl_toClient c) (mkMsg (pa_id P) MPolynomial (Some (length (w_heap w))) 1)) sender (cl_toClient c).
Proof.
  intros HP HR HD HM. unfold helper_reply, client_reply, as_client. rewrite (proj2 (the_party_ok w me P) HP). cbn [bind]. rewrite HR. cbn [bind]. rewrite HD. cbn [bind alloc].
  set (wt := put_party _ _ _). assert (EMC : the_msg wt (cl_toClient c) = Ok MC) by (apply the_msg_ok; exact HM). rewrite EMC. cbn [bind send_with]. reflexivity.
Qed.

(** *** everything together *)
(** The situation before a request: A helper, B requester, S server; [mA],
    [mB]: the outsourcing messages, [aA], [aB] the arrays they carry, [r]: the
    request. *)
Record ready (w : world) (A B S : nat) (PA PB PS : party) (cA cB : client) (sS : server) (mA mB : nat) (matA matB : matrix) (r : nat) (sb : list Z) (b : Z) : Prop := mkReady {
  rd_A : nth_error (w_parties w) A = Some PA; rd_B : nth_error (w_parties w) B = Some PB; rd_S : nth_error (w_parties w) S = Some PS;
  rd_cA : pa_role PA = RClient cA; rd_cB : pa_role PB = RClient cB; rd_sS : pa_role PS = RServer sS;
  rd_AB : A <> B; rd_AS : A <> S; rd_BS : B <> S;
  rd_tA : pa_type PA = TClient; rd_tB : pa_type PB = TClient; rd_tS : pa_type PS = TServer;
  rd_fA : nul_free (pa_id PA); rd_fB : nul_free (pa_id PB);
  rd_iAB : pa_id PA <> pa_id PB; rd_iAS : pa_id PA <> pa_id PS; rd_iBS : pa_id PB <> pa_id PS;
  rd_dAB : getPartyById PA (pa_id PB) = Some B; rd_cloud : find_cloud w (pa_parties PA) = Ok (Some S);
  rd_dSA : getPartyById PS (pa_id PA) = Some A; rd_dSB : getPartyById PS (pa_id PB) = Some B;
  rd_dBA : getPartyById PB (pa_id PA) = Some A; rd_dBS : getPartyById PB (pa_id PS) = Some S;
  rd_mc : exists M, nth_error (w_msgs w) (cl_toCloud cA) = Some M;
  rd_mq : exists M, nth_error (w_msgs w) (cl_toClient cA) = Some M;
  rd_mt : exists M, nth_error (w_msgs w) (sv_toClient sS) = Some M;
  rd_n1 : cl_toCloud cA <> sv_toClient sS; rd_n2 : r <> cl_toCloud cA; rd_n3 : mA <> cl_toCloud cA; rd_n4 : mB <> cl_toCloud cA;
  rd_sA : map_find (sv_stored sS) (pa_id PA) = Some (Some mA); rd_sB : map_find (sv_stored sS) (pa_id PB) = Some (Some mB);
  rd_mA : exists M a, nth_error (w_msgs w) mA = Some M /\ m_data M = Some a /\ nth_error (w_heap w) a = Some (BMat matA);
  rd_mB : exists M a, nth_error (w_msgs w) mB = Some M /\ m_data M = Some a /\ nth_error (w_heap w) a = Some (BMat matB);
  rd_r : exists M a cs, nth_error (w_msgs w) r = Some M /\ m_party M = pa_id PB /\ m_type M = MClientRequest /\ m_data M = Some a /\
           nth_error (w_heap w) a = Some (BBytes cs) /\ cstr_at cs 0 = Ok (pa_id PB) /\ bytes_from cs (length (pa_id PB) + 1) 3 = Ok sb;
  rd_bits : cl_rawDataBits cB = Some b
}.

Lemma run_ok d w A B S PA PB PS cA cB sS mA mB matA matB r sb b key k coreS t x coreA zpA q y coreB vs :
  ready w A B S PA PB PS cA cB sS mA mB matA matB r sb b -> cl_q cB = None ->
  draw_key rbits fuel (w_draws w) = Ok (key, k) -> 0 <= key < 2 ^ 128 ->
  computeTOrQ (pa_core PS) key (entry matA) (entry matB) = Ok (coreS, t) -> entry t 0 0 = Ok x ->
  delegationOutput (pa_core PA) (cl_zp cA) (cl_secret cA) (le_val sb) key = Ok (coreA, zpA, q) -> entry q 0 0 = Ok y ->
  intersect (pa_core PB) (Some b) (Some (entry t)) (Some (entry q)) (w_facts w) = Ok (Some (coreB, vs)) ->
  let n := length (w_heap w) in
  let cB' := cl_set_setcap (cl_set_q (cl_set_t cB (Some (n + 1)%nat)) (Some (n + 2)%nat)) vs in
  let cA' := cl_set_q (cl_set_zp cA zpA) (Some (n + 2)%nat) in
  exists w', receive (3 + d) w A r = Ok (w', Done, [(A, MClientRequest); (S, MCloudRequest); (B, MOutput); (B, MPolynomial)]) /\
    nth_error (w_parties w') A = Some (pa_set_core (pa_set_role PA (RClient cA')) coreA) /\
    nth_error (w_parties w') B = Some (pa_set_core (pa_set_role PB (RClient cB')) coreB) /\
    nth_error (w_parties w') S = Some (pa_set_core PS coreS) /\
    (forall i, i <> A -> i <> B -> i <> S -> nth_error (w_parties w') i = nth_error (w_parties w) i) /\
    (forall m, m <> cl_toCloud cA -> m <> cl_toClient cA -> m <> sv_toClient sS -> nth_error (w_msgs w') m = nth_error (w_msgs w) m) /\
    length (w_msgs w') = length (w_msgs w) /\
    w_heap w' = w_heap w ++ [Freed; Freed; Freed] /\
    w_rand w' = w_rand w /\ w_draws w' = k /\ w_facts w' = (w_facts w + co_length (pa_core PB))%nat.
Proof.
  intros RD Q0 HK HKR HT Hx HQ Hy HI n cB' cA'.
  destruct RD as [RA RB RS RcA RcB RsS NAB NAS NBS TA TB TS FA FB IAB IAS IBS DAB CL DSA DSB DBA DBS [MC HMC] [MQ HMQ] [MT HMT] N1 N2 N3 N4 SA SB
    [MA [aA [HMA [DA HAA]]]] [MB [aB [HMB [DB HAB]]]] [MR [aR [cs [HMR [PR [TR [DR [HAR [CR BR]]]]]]]]] BB].
  assert (HBA : hasAuthenticatedId PA (pa_id PB) = true) by (unfold hasAuthenticatedId; rewrite DAB; reflexivity).
  assert (HSA : hasAuthenticatedId PS (pa_id PA) = true) by (unfold hasAuthenticatedId; rewrite DSA; reflexivity).
  assert (HBS : hasAuthenticatedId PB (pa_id PS) = true) by (unfold hasAuthenticatedId; rewrite DBS; reflexivity).
  assert (HBA' : hasAuthenticatedId PB (pa_id PA) = true) by (unfold hasAuthenticatedId; rewrite DBA; reflexivity).
  set (d0 := cloud_request_layout (pa_id PA) (pa_id PB) key).
  change (3 + d)%nat with (Datatypes.S (2 + d)).
  rewrite (help (2 + d) w A r PA cA MR B PB cs key k MC S sb RA HMR RcA TR) by
    (try assumption; try (rewrite PR; congruence); try (rewrite DR; cbn [bytes_at]; rewrite HAR; reflexivity); try lia).
  cbv zeta. fold d0 n.
  set (w2 := put_msg _ (cl_toCloud cA) _).
  destruct (cloud_request_reads (pa_id PA) (pa_id PB) key FA FB HKR) as [CR1 [CR2 [kb [CR3 CR4]]]]. cbv zeta in CR1, CR2, CR3. fold d0 in CR1, CR2, CR3.
  (* the server *)
  assert (P2 : w_parties w2 = w_parties w) by reflexivity.
  assert (H2 : w_heap w2 = w_heap w ++ [BBytes (map Some d0)]) by reflexivity.
  assert (M2c : nth_error (w_msgs w2) (cl_toCloud cA) = Some (mkMsg (pa_id PA) MCloudRequest (Some n) (Z.of_nat (length d0)))) by (cbn; apply (nth_upd_same _ _ _ _ HMC)).
  assert (M2 : forall m, m <> cl_toCloud cA -> nth_error (w_msgs w2) m = nth_error (w_msgs w) m) by (intros m Hm; cbn; apply nth_upd_other; congruence).
  change (2 + d)%nat with (Datatypes.S (1 + d)) at 1.
  rewrite (serve_request (1 + d) w2 S (cl_toCloud cA) PS sS (mkMsg (pa_id PA) MCloudRequest (Some n) (Z.of_nat (length d0))) A PA (map Some d0) (pa_id PB) kb mA mB MA MB coreS t MT B).
  all: try assumption; try reflexivity.
  2:{ cbn [m_data bytes_at]. rewrite H2. unfold n. rewrite nth_snoc. reflexivity. }
  2:{ rewrite M2 by congruence. exact HMA. }
  2:{ rewrite M2 by congruence. exact HMB. }
  2:{ rewrite DA, DB, H2. cbn [entries_at]. rewrite (nth_snoc_old _ _ _ _ HAA), (nth_snoc_old _ _ _ _ HAB), CR4. exact HT. }
  2:{ rewrite M2 by congruence. exact HMT. }
  cbv zeta. set (w3 := put_msg _ (sv_toClient sS) _).
  assert (L2 : length (w_heap w2) = (n + 1)%nat) by (rewrite H2, app_length; reflexivity).
  assert (H3 : w_heap w3 = w_heap w ++ [BBytes (map Some d0); BMat t]) by (unfold w3; cbn [put_msg w_set_msgs w_heap w_set_heap]; rewrite H2, <- app_assoc; reflexivity).
  assert (P3S : nth_error (w_parties w3) S = Some (pa_set_core PS coreS)) by (cbn; apply (nth_upd_same _ _ _ _ RS)).
  assert (P3 : forall i, i <> S -> nth_error (w_parties w3) i = nth_error (w_parties w) i) by (intros i Hi; cbn; apply nth_upd_other; congruence).
  assert (M3t : nth_error (w_msgs w3) (sv_toClient sS) = Some (mkMsg (pa_id PS) MOutput (Some (n + 1)%nat) 1)).
  { unfold w3. cbn [put_msg w_set_msgs w_msgs w_set_heap put_party w_set_parties]. rewrite L2. rewrite <- (M2 (sv_toClient sS)) in HMT by congruence. apply (nth_upd_same _ _ _ _ HMT). }
  assert (M3 : forall m, m <> cl_toCloud cA -> m <> sv_toClient sS -> nth_error (w_msgs w3) m = nth_error (w_msgs w) m).
  { intros m Hm Hm'. unfold w3. cbn [put_msg w_set_msgs w_msgs w_set_heap put_party w_set_parties]. rewrite nth_upd_other by congruence. apply M2. exact Hm. }
  assert (M3c : nth_error (w_msgs w3) (cl_toCloud cA) = Some (mkMsg (pa_id PA) MCloudRequest (Some n) (Z.of_nat (length d0)))).
  { unfold w3. cbn [put_msg w_set_msgs w_msgs w_set_heap put_party w_set_parties]. rewrite nth_upd_other by congruence. exact M2c. }
  (* t arrives *)
  change (1 + d)%nat with (Datatypes.S d).
  rewrite (deliver_result d w3 B (sv_toClient sS) PB cB (mkMsg (pa_id PS) MOutput (Some (n + 1)%nat) 1) S (pa_set_core PS coreS));
    [|rewrite P3 by congruence; exact RB|exact M3t|exact RcB|cbn; congruence|exact DBS|exact P3S|exact HBS|left; split; [reflexivity|exact TS]].
  cbn [m_data m_type entries_at]. rewrite H3.
  assert (E1 : nth_error (w_heap w ++ [BBytes (map Some d0); BMat t]) (n + 1) = Some (BMat t)).
  { rewrite nth_error_app2 by (unfold n; lia). replace (n + 1 - length (w_heap w))%nat with 1%nat by (unfold n; lia). reflexivity. }
  rewrite E1, Hx. cbn [bind result_of].
  set (w4 := put_client w3 B PB (cl_set_t cB (Some (n + 1)%nat))).
  assert (P4B : nth_error (w_parties w4) B = Some (pa_set_role PB (RClient (cl_set_t cB (Some (n + 1)%nat))))).
  { unfold w4, put_client. cbn [put_party w_set_parties w_parties]. apply (nth_upd_same _ _ _ PB). rewrite P3 by congruence. exact RB. }
  rewrite (intersect_waits w4 B _ (cl_set_t cB (Some (n + 1)%nat)) b P4B); [|reflexivity|exact BB|left; exact Q0]. cbn [bind].
  assert (TC : the_msg w4 (cl_toCloud cA) = Ok (mkMsg (pa_id PA) MCloudRequest (Some n) (Z.of_nat (length d0)))) by (apply the_msg_ok; exact M3c).
  rewrite TC. cbn [bind m_data bytes_at release]. change (w_heap w4) with (w_heap w3). rewrite H3.
  assert (E0 : nth_error (w_heap w ++ [BBytes (map Some d0); BMat t]) n = Some (BBytes (map Some d0))).
  { rewrite nth_error_app2 by (unfold n; lia). replace (n - length (w_heap w))%nat with 0%nat by (unfold n; lia). reflexivity. }
  rewrite E0. cbn [bind].
  set (w5 := w_set_heap w4 _).
  assert (H5 : w_heap w5 = w_heap w ++ [Freed; BMat t]).
  { unfold w5. cbn [w_set_heap w_heap]. replace n with (length (w_heap w) + 0)%nat by (unfold n; lia). clear. induction (w_heap w) as [|a l IH]; [reflexivity|]. cbn. rewrite IH. reflexivity. }
  (* q leaves *)
  assert (P5A : nth_error (w_parties w5) A = Some PA).
  { unfold w5, w4, put_client. cbn [w_set_heap w_parties put_party w_set_parties]. rewrite nth_upd_other by congruence. rewrite P3 by congruence. exact RA. }
  assert (MQ5 : exists M, nth_error (w_msgs w5) (cl_toClient cA) = Some M).
  { change (w_msgs w5) with (w_msgs w3). assert (LM : length (w_msgs w3) = length (w_msgs w)) by (unfold w3, w2; cbn; rewrite !upd_length; reflexivity).
    destruct (nth_error (w_msgs w3) (cl_toClient cA)) eqn:E; [eauto|]. exfalso. apply nth_error_None in E. assert (cl_toClient cA < length (w_msgs w))%nat by (apply nth_error_Some; congruence). lia. }
  destruct MQ5 as [MQ5 HMQ5].
  rewrite (reply_ok (2 + d) w5 A PA cA B (le_val sb) key coreA zpA q MQ5 P5A RcA HQ HMQ5).
  assert (L5 : length (w_heap w5) = (n + 2)%nat) by (rewrite H5, app_length; unfold n; cbn; lia). rewrite L5, H5, <- app_assoc. cbn [app].
  fold cA'. set (w6 := put_msg _ (cl_toClient cA) _).
  assert (P6A : nth_error (w_parties w6) A = Some (pa_set_core (pa_set_role PA (RClient cA')) coreA)).
  { unfold w6. cbn [put_msg w_set_msgs w_set_heap w_parties put_party w_set_parties]. apply (nth_upd_same _ _ _ _ P5A). }
  assert (P6 : forall i, i <> A -> nth_error (w_parties w6) i = nth_error (w_parties w5) i).
  { intros i Hi. unfold w6. cbn [put_msg w_set_msgs w_set_heap w_parties put_party w_set_parties]. apply nth_upd_other. congruence. }
  assert (M6 : nth_error (w_msgs w6) (cl_toClient cA) = Some (mkMsg (pa_id PA) MPolynomial (Some (n + 2)%nat) 1)).
  { unfold w6. cbn [put_msg w_set_msgs w_set_heap w_msgs put_party w_set_parties]. apply (nth_upd_same _ _ _ _ HMQ5). }
  assert (H6 : w_heap w6 = w_heap w ++ [Freed; BMat t; BMat q]) by reflexivity.
  set (PB4 := pa_set_role PB (RClient (cl_set_t cB (Some (n + 1)%nat)))) in *.
  assert (P6B : nth_error (w_parties w6) B = Some PB4) by (rewrite P6 by congruence; exact P4B).
  change (2 + d)%nat with (Datatypes.S (Datatypes.S d)).
  rewrite (deliver_result (Datatypes.S d) w6 B (cl_toClient cA) PB4 (cl_set_t cB (Some (n + 1)%nat)) (mkMsg (pa_id PA) MPolynomial (Some (n + 2)%nat) 1) A
     (pa_set_core (pa_set_role PA (RClient cA')) coreA));
    [|exact P6B|exact M6|reflexivity|cbn; congruence|exact DBA|exact P6A|exact HBA'|right; split; [reflexivity|exact TA]].
  cbn [m_data m_type entries_at]. rewrite H6.
  assert (E2 : nth_error (w_heap w ++ [Freed; BMat t; BMat q]) (n + 2) = Some (BMat q)).
  { rewrite nth_error_app2 by (unfold n; lia). replace (n + 2 - length (w_heap w))%nat with 2%nat by (unfold n; lia). reflexivity. }
  assert (E3 : nth_error (w_heap w ++ [Freed; BMat t; BMat q]) (n + 1) = Some (BMat t)).
  { rewrite nth_error_app2 by (unfold n; lia). replace (n + 1 - length (w_heap w))%nat with 1%nat by (unfold n; lia). reflexivity. }
  rewrite E2, Hy. cbn [bind result_of].
  set (w7 := put_client w6 B PB4 _).
  set (cB2 := cl_set_q (cl_set_t cB (Some (n + 1)%nat)) (Some (n + 2)%nat)) in *.
  assert (P7B : nth_error (w_parties w7) B = Some (pa_set_role PB4 (RClient cB2))).
  { unfold w7, put_client. cbn [put_party w_set_parties w_parties]. apply (nth_upd_same _ _ _ _ P6B). }
  rewrite (intersect_finishes w7 B (pa_set_role PB4 (RClient cB2)) cB2 (n + 1)%nat (n + 2)%nat t q coreB vs P7B);
    [|reflexivity|reflexivity|reflexivity|change (w_heap w7) with (w_heap w6); rewrite H6; exact E3|change (w_heap w7) with (w_heap w6); rewrite H6; exact E2|lia
     |change (cl_rawDataBits cB2) with (cl_rawDataBits cB); rewrite BB; exact HI].
  cbn [bind app].
  eexists. split; [reflexivity|]. unfold finished. cbn [w_set_heap w_set_facts w_parties w_msgs w_heap put_party w_set_parties].
  split.
  { rewrite nth_upd_other by congruence. unfold w7, put_client. cbn [put_party w_set_parties w_parties]. rewrite nth_upd_other by congruence. exact P6A. }
  split; [apply (nth_upd_same _ _ _ _ P7B)|]. split.
  { rewrite nth_upd_other by congruence. unfold w7, put_client. cbn [put_party w_set_parties w_parties]. rewrite nth_upd_other by congruence. rewrite P6 by congruence.
    unfold w5, w4, put_client. cbn [w_set_heap w_parties put_party w_set_parties]. rewrite nth_upd_other by congruence. exact P3S. }
  split.
  { intros i Ha Hb Hs. rewrite nth_upd_other by congruence. unfold w7, put_client. cbn [put_party w_set_parties w_parties]. rewrite nth_upd_other by congruence. rewrite P6 by congruence.
    unfold w5, w4, put_client. cbn [w_set_heap w_parties put_party w_set_parties]. rewrite nth_upd_other by congruence. apply P3. exact Hs. }
  split.
  { intros m Hm1 Hm2 Hm3. change (w_msgs w7) with (w_msgs w6). unfold w6. cbn [put_msg w_set_msgs w_set_heap w_msgs put_party w_set_parties]. rewrite nth_upd_other by congruence.
    change (w_msgs w5) with (w_msgs w3). apply M3; assumption. }
  split.
  { change (w_msgs w7) with (w_msgs w6). unfold w6. cbn [put_msg w_set_msgs w_set_heap w_msgs put_party w_set_parties]. rewrite upd_length. change (w_msgs w5) with (w_msgs w3). unfold w3, w2. cbn. rewrite !upd_length. reflexivity. }
  split; [|split; [reflexivity|split; reflexivity]].
  change (w_heap w7) with (w_heap w6). rewrite H6. unfold n. clear. induction (w_heap w) as [|a l IH]; [reflexivity|]. cbn. rewrite IH. reflexivity.
Qed.
End R.
