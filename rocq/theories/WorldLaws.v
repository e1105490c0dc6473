(** Consequences used by PropWorld.v. *)
From Verif Require Import Base Lib NtlMiss StrIntModel HashBucketsModel PRFModel PolyModel EopsiModel WorldModel WorldSpec WorldProofs WorldFrame WorldRun WorldMore WorldSim.
From Coq Require Import Lia.

Section R.
Variable sha : list Z -> list Z.
Variable rand : nat -> Z.
Variable fuel : nat.
Variable p : Z.
Variables canzass berlekamp : nat -> list Z -> list (list Z * Z).
Variable hw : nat.
Variable rbits : nat -> Z.
#[local] Notation receive := (receive sha rand fuel p canzass berlekamp rbits).
#[local] Notation step := (step sha rand fuel p canzass berlekamp rbits).
#[local] Notation try_intersect := (try_intersect sha rand fuel p canzass berlekamp).
#[local] Notation intersect := (intersect sha rand fuel p canzass berlekamp).
#[local] Notation computeTOrQ := (computeTOrQ sha rand fuel p).
#[local] Notation exec := (exec sha rand fuel p canzass berlekamp hw rbits).
#[local] Notation exec_all := (exec_all sha rand fuel p canzass berlekamp hw rbits).
#[local] Notation log_of := (log_of sha rand fuel p canzass berlekamp hw rbits).

(** *** the directory never contains its owner *)
Lemma registers_not_self l : forall w w' me P, exec_all w l = Ok w' -> nth_error (w_parties w) me = Some P -> (forall id, ~ In (OSetId me id) l) ->
  forall id j, In (id, j) (log_of (fun w o => registers w me o) w l) -> id <> pa_id P.
Proof.
  induction l as [|o l IH]; intros w w' me P H HP N id j HI; [contradiction|].
  cbn [WorldModel.exec_all] in H. apply bind_ok in H. destruct H as [[w1 out] [H1 H]]. cbn [WorldSpec.log_of] in HI. rewrite H1 in HI. apply in_app_or in HI.
  destruct HI as [HI|HI].
  - unfold registers in HI. destruct o; try contradiction. destruct (Nat.eqb i me); [|contradiction]. rewrite HP in HI. destruct (nth_error (w_parties w) j0) as [Q|]; [|contradiction].
    destruct (str_eqb (pa_id Q) (pa_id P)) eqn:E; [contradiction|]. destruct HI as [HI|[]]. injection HI as <- _. apply str_eqb_neq. exact E.
  - destruct (exec_effect _ _ _ _ _ _ _ _ w o w1 out me P H1 HP) as [P1 [HP1 [_ [_ [_ I1]]]]].
    rewrite <- I1 by (intros id' E; apply (N id'); left; exact E). apply (IH w1 w' me P1 H HP1) with (j := j); [intros id' E; apply (N id'); right; exact E|exact HI].
Qed.
Lemma latest_in log id v : latest log id = Some v -> In (id, v) log.
Proof.
  unfold latest. destruct (find _ (rev log)) as [[k x]|] eqn:E; [|discriminate]. intros H. injection H as ->. apply find_some in E. destruct E as [I E]. cbn in E. apply str_eqb_eq in E. subst k.
  apply in_rev. exact I.
Qed.
Lemma latest_none log id : latest log id = None <-> forall v, ~ In (id, v) log.
Proof.
  unfold latest. split.
  - intros H v I. destruct (find _ (rev log)) as [[k x]|] eqn:E; [discriminate|]. apply in_rev in I. apply (find_none _ _ E) in I. cbn in I. rewrite str_eqb_refl in I. discriminate.
  - intros H. destruct (find _ (rev log)) as [[k x]|] eqn:E; [|reflexivity]. apply find_some in E. destruct E as [I E]. cbn in E. apply str_eqb_eq in E. subst k. apply in_rev in I. exfalso. exact (H x I).
Qed.

(** *** refusals *)
Lemma not_accepted d w me m P M s Q : nth_error (w_parties w) me = Some P -> nth_error (w_msgs w) m = Some M -> m_party M <> pa_id P ->
  getPartyById P (m_party M) = Some s -> nth_error (w_parties w) s = Some Q -> (hasAuthenticatedId P (pa_id Q) = false \/ ~ accepts (pa_role P) (m_type M) (pa_type Q)) ->
  exists r, receive (S d) w me m = Ok (w, Thrown r, [(me, m_type M)]).
Proof.
  intros HP HM NE HG HQ HN. rewrite (receive_S _ _ _ _ _ _ _ d w me m P M HP HM), (step_known _ _ _ _ _ _ _ d w me m P M s Q NE HG HQ).
  destruct (hasAuthenticatedId P (pa_id Q)); [|eexists; reflexivity]. destruct HN as [HN|HN]; [discriminate|].
  destruct (pa_role P) as [c|sv] eqn:ER, (m_type M) eqn:EM, (pa_type Q) eqn:ET; cbn [accepts] in HN; try contradiction (HN I); cbn [authorised andb ptype_eqb]; try (eexists; reflexivity).
  unfold server_request. rewrite (proj2 (the_party_ok w s Q) HQ). cbn [bind]. rewrite ET. cbn [ptype_eqb bind]. eexists; reflexivity.
Qed.

(** *** the server's reply *)
Lemma server_reply d w me m P s M h Q cs partner key kb w' o tr :
  nth_error (w_parties w) me = Some P -> nth_error (w_msgs w) m = Some M -> pa_role P = RServer s -> m_type M = MCloudRequest ->
  getPartyById P (m_party M) = Some h -> nth_error (w_parties w) h = Some Q ->
  bytes_at (w_heap w) (m_data M) = Ok cs -> cstr_at cs 0 = Ok (pa_id Q) -> cstr_at cs (length (pa_id Q) + 1) = Ok partner ->
  bytes_from cs (length (pa_id Q) + 1 + length partner + 1) tmpKeyByteSize = Ok kb -> le_val kb = key ->
  receive (S d) w me m = Ok (w', o, tr) -> (forall r, o <> Thrown r) ->
  exists a b MA MB core1 t to w3 w4 tr',
    map_find (sv_stored s) (pa_id Q) = Some (Some a) /\ map_find (sv_stored s) partner = Some (Some b) /\
    nth_error (w_msgs w) a = Some MA /\ nth_error (w_msgs w) b = Some MB /\
    computeTOrQ (pa_core P) key (entries_at (w_heap w) (m_data MA)) (entries_at (w_heap w) (m_data MB)) = Ok (core1, t) /\
    getPartyById P partner = Some to /\
    nth_error (w_msgs w3) (sv_toClient s) = Some (mkMsg (pa_id P) MOutput (Some (length (w_heap w))) 1) /\
    nth_error (w_heap w3) (length (w_heap w)) = Some (BMat t) /\
    receive d w3 to (sv_toClient s) = Ok (w4, o, tr') /\ tr = (me, MCloudRequest) :: tr'.
Proof.
  intros HP HM HR HT HG HQ HB HC1 HC2 HK EK H ND.
  apply receive_inv in H. destruct H as [P' [M' [tr1 [HP' [HM' [H ->]]]]]]. assert (P' = P) by congruence. subst P'. assert (M' = M) by congruence. subst M'.
  apply step_inv in H. destruct H as [[_ [_ [r E]]]|[NE [h' [Q' [HG' [HQ' [HA [AC H]]]]]]]]; [destruct (ND r E)|].
  assert (h' = h) by congruence. subst h'. assert (Q' = Q) by congruence. subst Q'. rewrite HR, HT in H, AC.
  revert H. unfold server_request. rewrite (proj2 (the_party_ok w h Q) HQ). cbn [bind]. destruct (pa_type Q); [|contradiction]. cbn [ptype_eqb].
  rewrite HB. cbn [bind]. rewrite HC1. cbn [bind]. rewrite str_eqb_refl. cbn [negb]. rewrite HC2. cbn [bind]. rewrite HK. cbn [bind]. rewrite EK.
  intros H. apply bind_ok in H. destruct H as [[w1 t] [HI H]].
  unfold intersectionOutput in HI. rewrite (proj2 (the_party_ok w me P) HP) in HI. cbn [bind] in HI. rewrite HR in HI. unfold stored_get in HI.
  assert (ST : exists a b, map_find (sv_stored s) (pa_id Q) = Some (Some a) /\ map_find (sv_stored s) partner = Some (Some b)).
  { destruct (map_find (sv_stored s) (pa_id Q)) as [[a|]|]; [|exfalso|exfalso].
    - destruct (map_find (sv_stored s) partner) as [[b|]|]; [eauto|discriminate|discriminate].
    - destruct (map_find (sv_stored s) partner); discriminate.
    - destruct (map_find (map_put (sv_stored s) (pa_id Q) None) partner); discriminate. }
  destruct ST as [a [b [EA EB]]]. rewrite EA, EB in HI.
  apply bind_ok in HI. destruct HI as [MA [HMA HI]]. apply bind_ok in HI. destruct HI as [MB [HMB HI]]. apply bind_ok in HI. destruct HI as [[co t'] [HTQ HI]].
  apply Ok_inj in HI. injection HI as <- <-. apply the_msg_ok in HMA, HMB.
  cbn [alloc] in H. apply bind_ok in H. destruct H as [MC [HMC H]]. apply the_msg_ok in HMC.
  destruct (getPartyById P partner) as [to|] eqn:ETO; [|discriminate]. cbn [send_with] in H. apply bind_ok in H. destruct H as [[[w4 o4] tr4] [H4 H]].
  assert (E4 : o4 = o /\ tr4 = tr1).
  { destruct o4; try (apply Ok_inj in H; injection H as _ <- <-; auto).
    apply bind_ok in H. destruct H as [M4 [_ H]]. apply bind_ok in H. destruct H as [x [_ H]]. apply bind_ok in H. destruct H as [w5 [_ H]]. apply Ok_inj in H. injection H as _ <- <-. auto. }
  destruct E4 as [-> ->].
  eexists a, b, MA, MB, co, t', to, _, w4, tr1. split; [exact EA|]. split; [exact EB|]. split; [exact HMA|]. split; [exact HMB|]. split; [exact HTQ|]. split; [reflexivity|].
  split; [apply (put_msg_get _ _ _ _ HMC)|]. split; [apply nth_snoc|]. split; [exact H4|]. rewrite HT. reflexivity.
Qed.
(** ... and what happens without data *)
Lemma server_no_data d w me m P s M h Q cs partner kb :
  nth_error (w_parties w) me = Some P -> nth_error (w_msgs w) m = Some M -> pa_role P = RServer s -> m_type M = MCloudRequest ->
  m_party M <> pa_id P -> getPartyById P (m_party M) = Some h -> nth_error (w_parties w) h = Some Q -> hasAuthenticatedId P (pa_id Q) = true -> pa_type Q = TClient ->
  bytes_at (w_heap w) (m_data M) = Ok cs -> cstr_at cs 0 = Ok (pa_id Q) -> cstr_at cs (length (pa_id Q) + 1) = Ok partner ->
  bytes_from cs (length (pa_id Q) + 1 + length partner + 1) tmpKeyByteSize = Ok kb ->
  (forall a, map_find (sv_stored s) (pa_id Q) <> Some (Some a)) \/ (forall b, map_find (sv_stored s) partner <> Some (Some b)) ->
  receive (S d) w me m = UB NullDeref.
Proof.
  intros HP HM HR HT NE HG HQ HA HTQ HB HC1 HC2 HK HN.
  rewrite (receive_S _ _ _ _ _ _ _ d w me m P M HP HM), (step_known _ _ _ _ _ _ _ d w me m P M h Q NE HG HQ), HA, HR, HT, HTQ. cbn [authorised andb].
  unfold server_request. rewrite (proj2 (the_party_ok w h Q) HQ). cbn [bind]. rewrite HTQ. cbn [ptype_eqb].
  rewrite HB. cbn [bind]. rewrite HC1. cbn [bind]. rewrite str_eqb_refl. cbn [negb]. rewrite HC2. cbn [bind]. rewrite HK. cbn [bind].
  unfold intersectionOutput. rewrite (proj2 (the_party_ok w me P) HP). cbn [bind]. rewrite HR. unfold stored_get.
  destruct (map_find (sv_stored s) (pa_id Q)) as [[a|]|] eqn:EA.
  - destruct HN as [HN|HN]; [destruct (HN a eq_refl)|]. destruct (map_find (sv_stored s) partner) as [[b|]|] eqn:EB; [destruct (HN b eq_refl)|reflexivity|reflexivity].
  - destruct (map_find (sv_stored s) partner) as [[b|]|]; reflexivity.
  - rewrite map_find_put. destruct (str_eqb partner (pa_id Q)); [reflexivity|]. destruct (map_find (sv_stored s) partner) as [[b|]|]; reflexivity.
Qed.

(** *** the helper on a request it cannot read *)
Lemma help_unreadable d w me m P c M x Q cs key k MC cl why : nth_error (w_parties w) me = Some P -> nth_error (w_msgs w) m = Some M -> pa_role P = RClient c ->
  m_type M = MClientRequest -> m_party M <> pa_id P -> getPartyById P (m_party M) = Some x -> nth_error (w_parties w) x = Some Q ->
  hasAuthenticatedId P (pa_id Q) = true -> pa_type Q = TClient ->
  bytes_at (w_heap w) (m_data M) = Ok cs -> cstr_at cs 0 = Ok (pa_id Q) -> nul_free (pa_id P) -> nul_free (pa_id Q) ->
  draw_key rbits fuel (w_draws w) = Ok (key, k) -> 0 <= key ->
  nth_error (w_msgs w) (cl_toCloud c) = Some MC -> find_cloud w (pa_parties P) = Ok (Some cl) -> m <> cl_toCloud c ->
  bytes_from cs (length (pa_id Q) + 1) 3 = UB why -> receive (S d) w me m = UB why.
Proof.
  intros HP HM HR HT NE HG HQ HA HTQ HB HC HF1 HF2 HK HK0 HMC HCL NM HSB.
  rewrite (receive_S _ _ _ _ _ _ _ d w me m P M HP HM), (step_known _ _ _ _ _ _ _ d w me m P M x Q NE HG HQ), HA, HR, HT, HTQ. cbn [andb authorised].
  unfold client_request. rewrite HB. cbn [bind]. rewrite HC. cbn [bind]. rewrite (proj2 (the_party_ok w x Q) HQ). cbn [bind]. rewrite str_eqb_refl. cbn [negb].
  rewrite HK. cbn [bind]. rewrite (cloud_request_ok _ _ key HF1 HF2 HK0). cbn [bind alloc].
  set (wt := w_set_heap _ _). assert (EMC : the_msg wt (cl_toCloud c) = Ok MC) by (apply the_msg_ok; exact HMC). rewrite EMC. cbn [bind].
  set (w2 := put_msg _ _ _).
  assert (EF : forall l, find_cloud w2 l = find_cloud w l).
  { induction l as [|[i j] l IH]; [reflexivity|]. cbn [find_cloud]. change (the_party w2 j) with (the_party w j). destruct (the_party w j); cbn [bind]; try reflexivity. rewrite IH. reflexivity. }
  rewrite EF, HCL. cbn [bind].
  assert (EM : the_msg w2 m = Ok M). { apply the_msg_ok. unfold w2. cbn. rewrite nth_upd_other by congruence. exact HM. } rewrite EM. cbn [bind].
  assert (EB : bytes_at (w_heap w2) (m_data M) = Ok cs).
  { unfold w2. cbn. unfold bytes_at in HB |- *. destruct (m_data M) as [a|]; [|discriminate]. destruct (nth_error (w_heap w) a) as [bl|] eqn:E; [|discriminate].
    rewrite (nth_snoc_old _ _ _ _ E). exact HB. }
  rewrite EB. cbn [bind]. rewrite HSB. reflexivity.
Qed.

(** *** ids with NUL characters *)
Lemma nul_id_rejected d w me m P M s Q : nth_error (w_parties w) me = Some P -> nth_error (w_msgs w) m = Some M ->
  getPartyById P (m_party M) = Some s -> nth_error (w_parties w) s = Some Q -> In 0 (pa_id Q) -> m_type M = MClientRequest \/ m_type M = MCloudRequest ->
  (forall w' o tr, receive (S d) w me m = Ok (w', o, tr) -> w' = w /\ exists r, o = Thrown r) /\
  (forall cs claimed, m_party M <> pa_id P -> hasAuthenticatedId P (pa_id Q) = true -> accepts (pa_role P) (m_type M) (pa_type Q) ->
     bytes_at (w_heap w) (m_data M) = Ok cs -> cstr_at cs 0 = Ok claimed -> receive (S d) w me m = Ok (w, Thrown IdMismatch, [(me, m_type M)])).
Proof.
  intros HP HM HG HQ HN HT.
  assert (NEQ : forall cs claimed, cstr_at cs 0 = Ok claimed -> str_eqb claimed (pa_id Q) = false).
  { intros cs claimed HC. apply str_eqb_neq. intros ->. apply cstr_nonzero in HC. rewrite Forall_forall in HC. exact (HC 0 HN eq_refl). }
  split.
  - intros w' o tr H. apply receive_inv in H. destruct H as [P' [M' [tr1 [HP' [HM' [H ->]]]]]]. assert (P' = P) by congruence. subst P'. assert (M' = M) by congruence. subst M'.
    apply step_inv in H. destruct H as [[-> [_ E]]|[NE [h' [Q' [HG' [HQ' [HA [AC H]]]]]]]]; [auto|].
    assert (h' = s) by congruence. subst h'. assert (Q' = Q) by congruence. subst Q'.
    destruct (pa_role P), HT as [HT|HT]; rewrite HT in H, AC; try contradiction.
    + revert H. unfold client_request. intros H. apply bind_ok in H. destruct H as [cs [_ H]]. apply bind_ok in H. destruct H as [cl [HC H]].
      rewrite (proj2 (the_party_ok w s Q) HQ) in H. cbn [bind] in H. rewrite (NEQ _ _ HC) in H. cbn [negb] in H. apply Ok_inj in H. injection H as <- <- _. eauto.
    + revert H. unfold server_request. rewrite (proj2 (the_party_ok w s Q) HQ). cbn [bind]. destruct (pa_type Q); [|contradiction]. cbn [ptype_eqb].
      intros H. apply bind_ok in H. destruct H as [cs [_ H]]. apply bind_ok in H. destruct H as [cl [HC H]].
      rewrite (NEQ _ _ HC) in H. cbn [negb] in H. apply Ok_inj in H. injection H as <- <- _. eauto.
  - intros cs claimed NE HA AC HB HC.
    rewrite (receive_S _ _ _ _ _ _ _ d w me m P M HP HM), (step_known _ _ _ _ _ _ _ d w me m P M s Q NE HG HQ), HA.
    destruct (pa_role P), HT as [HT|HT]; rewrite HT in AC |- *; try contradiction; destruct (pa_type Q) eqn:ET; try contradiction; cbn [authorised andb].
    + unfold client_request. rewrite HB. cbn [bind]. rewrite HC. cbn [bind]. rewrite (proj2 (the_party_ok w s Q) HQ). cbn [bind]. rewrite (NEQ _ _ HC). reflexivity.
    + unfold server_request. rewrite (proj2 (the_party_ok w s Q) HQ). cbn [bind]. rewrite ET. cbn [ptype_eqb]. rewrite HB. cbn [bind]. rewrite HC. cbn [bind]. rewrite (NEQ _ _ HC). reflexivity.
Qed.

(** *** deliveries to a client with a freed result *)
Lemma second_result d w B m P c M w' o tr : nth_error (w_parties w) B = Some P -> nth_error (w_msgs w) m = Some M -> pa_role P = RClient c ->
  receive (S d) w B m = Ok (w', o, tr) -> o = Done ->
  (m_type M = MPolynomial /\ cl_t c <> None) \/ (m_type M = MOutput /\ cl_q c <> None) ->
  spent B w' /\ (m_type M = MPolynomial -> forall a, cl_t c = Some a -> nth_error (w_heap w) a <> Some Freed) /\
  (m_type M = MOutput -> forall b, cl_q c = Some b -> nth_error (w_heap w) b <> Some Freed).
Proof.
  intros HP HM HR H -> HC. apply receive_inv in H. destruct H as [P' [M' [tr1 [HP' [HM' [H ->]]]]]]. assert (P' = P) by congruence. subst P'. assert (M' = M) by congruence. subst M'.
  apply step_inv in H. destruct H as [[_ [_ [r E]]]|[NE [h' [Q' [HG' [HQ' [HA [AC H]]]]]]]]; [discriminate|]. rewrite HR in H.
  assert (G : exists t x w2, (t = MOutput \/ t = MPolynomial) /\ m_type M = t /\ entries_at (w_heap w) (m_data M) 0%nat 0%nat = Ok x /\ try_intersect (put_client w B P (result_of c t (m_data M))) B = Ok w2 /\ w' = w2).
  { destruct HC as [[HT _]|[HT _]]; rewrite HT in H.
    - unfold client_polynomial in H. apply bind_ok in H. destruct H as [x [HX H]]. apply bind_ok in H. destruct H as [w2 [H2 H]]. apply Ok_inj in H. injection H as <- _. exists MPolynomial, x, w2. auto 10.
    - unfold client_output in H. apply bind_ok in H. destruct H as [x [HX H]]. apply bind_ok in H. destruct H as [w2 [H2 H]]. apply Ok_inj in H. injection H as <- _. exists MOutput, x, w2. auto 10. }
  destruct G as [t [x [w2 [TT [ET [HX [HI ->]]]]]]].
  assert (NM : m_data M <> None) by (intros E; rewrite E in HX; cbn in HX; discriminate).
  apply try_intersect_inv in HI. destruct HI as [P1 [c1 [HP1 [ER1 HI]]]]. cbn in HP1. rewrite (nth_upd_same _ _ _ _ HP) in HP1. injection HP1 as <-. cbn in ER1. injection ER1 as <-.
  destruct HI as [[_ HI]|HI].
  { exfalso. destruct TT as [-> | ->]; cbn [result_of cl_set_t cl_set_q cl_t cl_q] in HI; destruct HC as [[HT HC]|[HT HC]]; rewrite ET in HT; try discriminate HT; destruct HI as [HI|HI]; congruence. }
  destruct HI as [a1 [b1 [co [vs [H1 [H2 [N1 [N2 [H3 [H4 [_ H5]]]]]]]]]]].
  split.
  - eexists. exists (cl_set_setcap (result_of c t (m_data M)) vs), a1, b1. rewrite H5.
    split; [apply (nth_upd_same _ _ _ (pa_set_role P (RClient (result_of c t (m_data M))))); cbn; apply (nth_upd_same _ _ _ _ HP)|]. split; [reflexivity|]. split; [exact H1|]. split; [exact H3|exact H2].
  - rewrite ET. split; intros -> a EA; cbn [result_of cl_set_t cl_set_q cl_t cl_q] in H1, H2; cbn in N1, N2; congruence.
Qed.
Lemma freed_result d w B P c b m t a : nth_error (w_parties w) B = Some P -> pa_role P = RClient c -> cl_rawDataBits c = Some b ->
  (0 < co_length (pa_core P))%nat -> (0 < co_degree (pa_core P))%nat -> result_msg w B P m t a ->
  (t = MPolynomial /\ exists x, cl_t c = Some x /\ nth_error (w_heap w) x = Some Freed) \/
  (t = MOutput /\ exists x, cl_q c = Some x /\ nth_error (w_heap w) x = Some Freed) ->
  receive (S d) w B m = UB Dangling.
Proof.
  intros HP HR HB HL HD RM HC.
  rewrite (deliver _ _ _ _ _ _ _ w B P c m t a d HP HR RM) by (destruct HC as [[-> _]|[-> _]]; auto). destruct RM as [_ [mat [v [HH HV]]]].
  unfold WorldModel.try_intersect. unfold the_party, put_client. cbn [put_party w_set_parties w_parties]. rewrite (nth_upd_same _ _ _ _ HP). cbn [bind as_client pa_set_role pa_role pa_core w_heap w_facts].
  destruct HC as [[-> [x [EX HX]]]|[-> [x [EX HX]]]]; cbn [result_of cl_set_q cl_set_t cl_t cl_q cl_rawDataBits].
  - rewrite EX, HB. cbn [opt_entries]. rewrite (intersect_reads_t _ _ _ _ _ _ rbits _ _ _ _ _ Dangling); [reflexivity|exact HL|exact HD|]. cbn [entries_at w_heap w_set_parties put_party]. rewrite HX. reflexivity.
  - rewrite EX, HB. cbn [opt_entries]. rewrite (intersect_reads_q _ _ _ _ _ _ rbits _ _ _ _ _ v Dangling); [reflexivity|exact HL|exact HD| |]; cbn [entries_at w_heap w_set_parties put_party]; [rewrite HH; exact HV|rewrite HX; reflexivity].
Qed.

(** *** a request by a client whose pending q was freed *)
Lemma run_dangling d w A B S PA PB PS cA cB sS mA mB matA matB r sb b key k coreS t x qa :
  ready w A B S PA PB PS cA cB sS mA mB matA matB r sb b -> cl_q cB = Some qa -> nth_error (w_heap w) qa = Some Freed ->
  (0 < co_length (pa_core PB))%nat -> (0 < co_degree (pa_core PB))%nat ->
  draw_key rbits fuel (w_draws w) = Ok (key, k) -> 0 <= key < 2 ^ 128 ->
  computeTOrQ (pa_core PS) key (entry matA) (entry matB) = Ok (coreS, t) -> entry t 0 0 = Ok x ->
  receive (3 + d) w A r = UB Dangling.
Proof.
  intros RD Q0 HF HL HD HK HKR HT Hx.
  destruct RD as [RA RB RS RcA RcB RsS NAB NAS NBS TA TB TS FA FB IAB IAS IBS DAB CL DSA DSB DBA DBS [MC HMC] [MQ HMQ] [MT HMT] N1 N2 N3 N4 SA SB
    [MA [aA [HMA [DA HAA]]]] [MB [aB [HMB [DB HAB]]]] [MR [aR [cs [HMR [PR [TR [DR [HAR [CR BR]]]]]]]]] BB].
  assert (HBA : hasAuthenticatedId PA (pa_id PB) = true) by (unfold hasAuthenticatedId; rewrite DAB; reflexivity).
  assert (HSA : hasAuthenticatedId PS (pa_id PA) = true) by (unfold hasAuthenticatedId; rewrite DSA; reflexivity).
  assert (HBS : hasAuthenticatedId PB (pa_id PS) = true) by (unfold hasAuthenticatedId; rewrite DBS; reflexivity).
  set (d0 := cloud_request_layout (pa_id PA) (pa_id PB) key). set (n := length (w_heap w)).
  change (3 + d)%nat with (Datatypes.S (2 + d)).
  rewrite (help _ _ _ _ _ _ _ (2 + d) w A r PA cA MR B PB cs key k MC S sb RA HMR RcA TR) by
    (try assumption; try (rewrite PR; congruence); try (rewrite DR; cbn [bytes_at]; rewrite HAR; reflexivity); try lia).
  cbv zeta. fold d0 n. set (w2 := put_msg _ (cl_toCloud cA) _).
  destruct (cloud_request_reads (pa_id PA) (pa_id PB) key FA FB HKR) as [CR1 [CR2 [kb [CR3 CR4]]]]. cbv zeta in CR1, CR2, CR3. fold d0 in CR1, CR2, CR3.
  assert (H2 : w_heap w2 = w_heap w ++ [BBytes (map Some d0)]) by reflexivity.
  assert (M2c : nth_error (w_msgs w2) (cl_toCloud cA) = Some (mkMsg (pa_id PA) MCloudRequest (Some n) (Z.of_nat (length d0)))) by (cbn; apply (nth_upd_same _ _ _ _ HMC)).
  assert (M2 : forall m, m <> cl_toCloud cA -> nth_error (w_msgs w2) m = nth_error (w_msgs w) m) by (intros m Hm; cbn; apply nth_upd_other; congruence).
  change (2 + d)%nat with (Datatypes.S (1 + d)) at 1.
  rewrite (serve_request _ _ _ _ _ _ _ (1 + d) w2 S (cl_toCloud cA) PS sS (mkMsg (pa_id PA) MCloudRequest (Some n) (Z.of_nat (length d0))) A PA (map Some d0) (pa_id PB) kb mA mB MA MB coreS t MT B).
  all: try assumption; try reflexivity.
  2:{ cbn [m_data bytes_at]. rewrite H2. unfold n. rewrite nth_snoc. reflexivity. }
  2:{ rewrite M2 by congruence. exact HMA. }
  2:{ rewrite M2 by congruence. exact HMB. }
  2:{ rewrite DA, DB, H2. cbn [entries_at]. rewrite (nth_snoc_old _ _ _ _ HAA), (nth_snoc_old _ _ _ _ HAB), CR4. exact HT. }
  2:{ rewrite M2 by congruence. exact HMT. }
  cbv zeta. set (w3 := put_msg _ (sv_toClient sS) _).
  assert (L2 : length (w_heap w2) = (n + 1)%nat) by (rewrite H2, app_length; reflexivity).
  assert (H3 : w_heap w3 = w_heap w ++ [BBytes (map Some d0); BMat t]) by (unfold w3; cbn [put_msg w_set_msgs w_heap w_set_heap]; rewrite H2, <- app_assoc; reflexivity).
  assert (P3B : nth_error (w_parties w3) B = Some PB) by (unfold w3; cbn; rewrite nth_upd_other by congruence; exact RB).
  assert (M3t : nth_error (w_msgs w3) (sv_toClient sS) = Some (mkMsg (pa_id PS) MOutput (Some (n + 1)%nat) 1)).
  { unfold w3. cbn [put_msg w_set_msgs w_msgs w_set_heap put_party w_set_parties]. rewrite L2. rewrite <- (M2 (sv_toClient sS)) in HMT by congruence. apply (nth_upd_same _ _ _ _ HMT). }
  change (1 + d)%nat with (Datatypes.S d).
  rewrite (freed_result d w3 B PB cB b (sv_toClient sS) MOutput (n + 1)%nat P3B RcB BB HL HD); [reflexivity| |].
  - split.
    + eexists. split; [exact M3t|]. cbn [m_type m_data m_party]. split; [reflexivity|]. split; [reflexivity|]. split; [congruence|].
      exists S, (pa_set_core PS coreS). split; [exact DBS|]. split; [congruence|]. split; [unfold w3; cbn; apply (nth_upd_same _ _ _ _ RS)|]. split; [exact HBS|exact TS].
    + exists t, x. split; [|exact Hx]. rewrite H3. rewrite nth_error_app2 by (unfold n; lia). replace (n + 1 - length (w_heap w))%nat with 1%nat by (unfold n; lia). reflexivity.
  - right. split; [reflexivity|]. exists qa. split; [exact Q0|]. rewrite H3. rewrite nth_error_app1; [exact HF|]. apply nth_error_Some. congruence.
Qed.
End R.
