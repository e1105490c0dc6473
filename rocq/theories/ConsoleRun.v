(** What a whole run writes (for C129): the lemmas of WorldRun and WorldSim
    again, for the functions of ConsoleModel. *)
From Verif Require Import Base Lib NtlMiss StrIntModel HashBucketsModel PRFModel PolyModel EopsiModel WorldModel WorldSpec WorldProofs WorldFrame WorldRun WorldMore WorldSim ConsoleModel ConsoleProofs.
From Coq Require Import Lia.

Section R.
Variable sha : list Z -> list Z.
Variable rand : nat -> Z.
Variable fuel : nat.
Variable p : Z.
Variables canzass berlekamp : nat -> list Z -> list (list Z * Z).
Variable hw : nat.
Variable rbits : nat -> Z.
#[local] Notation receive_log := (receive_log sha rand fuel p canzass berlekamp rbits).
#[local] Notation try_intersect := (try_intersect sha rand fuel p canzass berlekamp).
#[local] Notation try_intersect_log := (try_intersect_log sha rand fuel p canzass berlekamp).
#[local] Notation client_receive_log := (client_receive_log sha rand fuel p canzass berlekamp rbits).
#[local] Notation server_receive_log := (server_receive_log sha rand fuel p).
#[local] Notation client_request_log := (client_request_log sha rand fuel p rbits).
#[local] Notation server_request_log := (server_request_log sha rand fuel p).
#[local] Notation client_reply_log := (client_reply_log sha rand fuel p).
#[local] Notation client_output_log := (client_output_log sha rand fuel p canzass berlekamp).
#[local] Notation client_polynomial_log := (client_polynomial_log sha rand fuel p canzass berlekamp).
#[local] Notation simulate_log := (simulate_log sha rand fuel p canzass berlekamp hw rbits).
#[local] Notation intersect := (intersect sha rand fuel p canzass berlekamp).
#[local] Notation computeTOrQ := (computeTOrQ sha rand fuel p).
#[local] Notation delegationOutput := (delegationOutput sha rand fuel p).

Lemma receive_log_client d w me m P M c : nth_error (w_parties w) me = Some P -> nth_error (w_msgs w) m = Some M -> pa_role P = RClient c ->
  receive_log (S d) w me m = (run (w1, o, tr) <- client_receive_log (receive_log d) w me P c m M; quietly (Ok (w1, o, (me, m_type M) :: tr))).
Proof. intros HP HM HR. apply the_party_ok in HP. apply the_msg_ok in HM. cbn [ConsoleModel.receive_log]. rewrite HP, lb_ok, HM, lb_ok, HR. reflexivity. Qed.
Lemma receive_log_server d w me m P M s : nth_error (w_parties w) me = Some P -> nth_error (w_msgs w) m = Some M -> pa_role P = RServer s ->
  receive_log (S d) w me m = (run (w1, o, tr) <- server_receive_log (receive_log d) w me P s m M; quietly (Ok (w1, o, (me, m_type M) :: tr))).
Proof. intros HP HM HR. apply the_party_ok in HP. apply the_msg_ok in HM. cbn [ConsoleModel.receive_log]. rewrite HP, lb_ok, HM, lb_ok, HR. reflexivity. Qed.
Lemma client_known rl w me P c m M s Q : pa_role P = RClient c -> m_party M <> pa_id P -> getPartyById P (m_party M) = Some s -> nth_error (w_parties w) s = Some Q ->
  hasAuthenticatedId P (pa_id Q) = true -> authorised (RClient c) (m_type M) (pa_type Q) = true ->
  client_receive_log rl w me P c m M =
    match m_type M with
    | MClientRequest => client_request_log rl w me P c s m M
    | MOutput => client_output_log w me P c Q M
    | _ => client_polynomial_log w me P c Q M
    end.
Proof.
  intros HR NE HG HQ HA HT. pose proof (authorise_known w P M s Q HG HQ) as A. apply str_eqb_neq in NE.
  unfold ConsoleModel.client_receive_log, authorise in *. rewrite HR in A. rewrite NE, A, HA, HT, lb_ok. cbn [negb]. cbn [andb negb]. rewrite HG.
  rewrite (proj2 (the_party_ok w s Q) HQ), lb_ok. destruct (m_type M), (pa_type Q); try discriminate HT; reflexivity.
Qed.
Lemma server_known rl w me P sv m M s Q : pa_role P = RServer sv -> m_party M <> pa_id P -> getPartyById P (m_party M) = Some s -> nth_error (w_parties w) s = Some Q ->
  hasAuthenticatedId P (pa_id Q) = true -> pa_type Q = TClient -> m_type M = MCloudRequest \/ m_type M = MOutsourcing ->
  server_receive_log rl w me P sv m M =
    match m_type M with
    | MCloudRequest => server_request_log rl w me P sv s m M
    | _ => run _ <- say (LStored (pa_id P) (pa_id Q) (m_len M));
           run _ <- say LStoredTime;
           quietly (Ok (put_party w me (pa_set_role P (RServer (mkServer (map_put (sv_stored sv) (pa_id Q) (Some m)) (sv_toClient sv)))), Done, []))
    end.
Proof.
  intros HR NE HG HQ HA HT HM. pose proof (authorise_known w P M s Q HG HQ) as A. apply str_eqb_neq in NE.
  unfold ConsoleModel.server_receive_log, authorise in *. rewrite HR in A. rewrite NE, A, HA, HT, lb_ok.
  destruct HM as [E|E]; rewrite E in *; cbn [authorised andb negb]; rewrite HG; [reflexivity|].
  rewrite (proj2 (the_party_ok w s Q) HQ), lb_ok. rewrite HT. reflexivity.
Qed.

(** *** the requester *)
Lemma intersect_waits_log w i P c b : nth_error (w_parties w) i = Some P -> pa_role P = RClient c -> cl_rawDataBits c = Some b ->
  cl_q c = None \/ cl_t c = None -> try_intersect_log w i = quietly (Ok w).
Proof.
  intros HP HR HB HN. unfold ConsoleModel.try_intersect_log, as_client. rewrite (proj2 (the_party_ok w i P) HP), lb_ok, HR, lb_ok.
  rewrite HB. unfold EopsiModel.intersect. cbn [padSize bind]. destruct HN as [-> | ->]; cbn [opt_entries bind]; [rewrite lb_ok; reflexivity|].
  destruct (opt_entries (w_heap w) (cl_q c)); rewrite lb_ok; reflexivity.
Qed.
Lemma intersect_finishes_log w i P c at_ aq t q core1 vs : nth_error (w_parties w) i = Some P -> pa_role P = RClient c ->
  cl_t c = Some at_ -> cl_q c = Some aq -> nth_error (w_heap w) at_ = Some (BMat t) -> nth_error (w_heap w) aq = Some (BMat q) -> at_ <> aq ->
  intersect (pa_core P) (cl_rawDataBits c) (Some (entry t)) (Some (entry q)) (w_facts w) = Ok (Some (core1, vs)) ->
  try_intersect_log w i = ([LStats (co_length (pa_core P)) (length vs); LFound], Ok (finished w i P c core1 vs at_ aq)).
Proof.
  intros HP HR ET EQ HT HQ NE HI. unfold ConsoleModel.try_intersect_log, as_client. rewrite (proj2 (the_party_ok w i P) HP), lb_ok, HR, lb_ok.
  rewrite ET, EQ. cbn [opt_entries entries_at]. rewrite HT, HQ, HI, lb_ok. cbn [release].
  cbn [w_set_facts w_heap put_party w_set_parties]. rewrite HT. rewrite lb_ok. cbn [w_set_heap w_heap]. rewrite nth_upd_other by exact NE. rewrite HQ. reflexivity.
Qed.
Lemma deliver_result_log d w me m P c M s Q : nth_error (w_parties w) me = Some P -> nth_error (w_msgs w) m = Some M -> pa_role P = RClient c ->
  m_party M <> pa_id P -> getPartyById P (m_party M) = Some s -> nth_error (w_parties w) s = Some Q -> hasAuthenticatedId P (pa_id Q) = true ->
  (m_type M = MOutput /\ pa_type Q = TServer) \/ (m_type M = MPolynomial /\ pa_type Q = TClient) ->
  receive_log (S d) w me m =
    (run v <- quietly (entries_at (w_heap w) (m_data M) 0%nat 0%nat);
     run _ <- say (LGot (pa_id P) v (pa_id Q));
     run w2 <- try_intersect_log (put_client w me P (result_of c (m_type M) (m_data M))) me;
     run _ <- say (LPart (m_type M));
     quietly (Ok (w2, Done, [(me, m_type M)]))).
Proof.
  intros HP HM HR NE HG HQ HA HT. rewrite (receive_log_client d w me m P M c HP HM HR).
  rewrite (client_known _ w me P c m M s Q HR NE HG HQ HA) by (destruct HT as [[-> ->]|[-> ->]]; reflexivity).
  destruct HT as [[E _]|[E _]]; rewrite E; cbn [result_of].
  - unfold ConsoleModel.client_output_log. rewrite lb_assoc. apply lb_ext. intros v _. rewrite lb_assoc. apply lb_ext. intros _ _.
    rewrite lb_assoc. apply lb_ext. intros w2 _. rewrite lb_assoc. apply lb_ext. intros _ _. rewrite lb_ok. reflexivity.
  - unfold ConsoleModel.client_polynomial_log. rewrite lb_assoc. apply lb_ext. intros v _. rewrite lb_assoc. apply lb_ext. intros _ _.
    rewrite lb_assoc. apply lb_ext. intros w2 _. rewrite lb_assoc. apply lb_ext. intros _ _. rewrite lb_ok. reflexivity.
Qed.

(** *** the server *)
Lemma serve_request_log d w me m P s M x Q cs partner kb a b MA MB core1 t MC to : nth_error (w_parties w) me = Some P -> nth_error (w_msgs w) m = Some M ->
  pa_role P = RServer s -> m_type M = MCloudRequest ->
  m_party M <> pa_id P -> getPartyById P (m_party M) = Some x -> nth_error (w_parties w) x = Some Q -> hasAuthenticatedId P (pa_id Q) = true -> pa_type Q = TClient ->
  bytes_at (w_heap w) (m_data M) = Ok cs -> cstr_at cs 0 = Ok (pa_id Q) -> cstr_at cs (length (pa_id Q) + 1) = Ok partner ->
  bytes_from cs (length (pa_id Q) + 1 + length partner + 1) tmpKeyByteSize = Ok kb ->
  map_find (sv_stored s) (pa_id Q) = Some (Some a) -> map_find (sv_stored s) partner = Some (Some b) ->
  nth_error (w_msgs w) a = Some MA -> nth_error (w_msgs w) b = Some MB ->
  computeTOrQ (pa_core P) (le_val kb) (entries_at (w_heap w) (m_data MA)) (entries_at (w_heap w) (m_data MB)) = Ok (core1, t) ->
  nth_error (w_msgs w) (sv_toClient s) = Some MC -> getPartyById P partner = Some to ->
  let w3 := put_msg (w_set_heap (put_party w me (pa_set_core P core1)) (w_heap w ++ [BMat t])) (sv_toClient s)
              (mkMsg (pa_id P) MOutput (Some (length (w_heap w))) 1) in
  receive_log (S d) w me m =
    (run _ <- say (LKey (pa_id P) (le_val kb) (pa_id Q));
     run _ <- say LServerTime;
     run (w4, o, tr) <- receive_log d w3 to (sv_toClient s);
     quietly (do (w5, o5) <- (match o with
                     | Done => do M4 <- the_msg w4 m; do _ <- bytes_at (w_heap w4) (m_data M4); do w5 <- release w4 (m_data M4); Ok (w5, Done)
                     | _ => Ok (w4, o)
                     end);
              Ok (w5, o5, (me, MCloudRequest) :: tr))).
Proof.
  intros HP HM HR HT NE HG HQ HA HTQ HB HC1 HC2 HK HSa HSb HMA HMB HTQ' HMC HTO w3.
  rewrite (receive_log_server d w me m P M s HP HM HR), (server_known _ w me P s m M x Q HR NE HG HQ HA HTQ) by auto. rewrite HT.
  unfold ConsoleModel.server_request_log. rewrite (proj2 (the_party_ok w x Q) HQ), lb_ok. rewrite HTQ. cbn [ptype_eqb]. rewrite HB, lb_ok, HC1, lb_ok.
  rewrite str_eqb_refl. cbn [negb]. rewrite HC2, lb_ok, HK, lb_ok. cbv zeta.
  unfold intersectionOutput. rewrite (proj2 (the_party_ok w me P) HP). cbn [bind]. rewrite HR. unfold stored_get. rewrite HSa, HSb.
  rewrite (proj2 (the_msg_ok w a MA) HMA). cbn [bind]. rewrite (proj2 (the_msg_ok w b MB) HMB). cbn [bind]. rewrite HTQ'. cbn [bind].
  rewrite lb_assoc. apply lb_ext. intros _ _. rewrite lb_ok. cbn [alloc].
  assert (ER : pa_set_role P (RServer (mkServer (sv_stored s) (sv_toClient s))) = P).
  { destruct P as [i ty di co ro]; cbn in *. subst ro. destruct s; reflexivity. }
  rewrite ER.
  set (wt := w_set_heap _ _). assert (EMC : the_msg wt (sv_toClient s) = Ok MC) by (apply the_msg_ok; exact HMC). rewrite EMC, lb_ok. cbv zeta.
  rewrite lb_assoc. apply lb_ext. intros _ _. rewrite HTO. cbn [send_with_log].
  change (put_msg wt (sv_toClient s) (m_setPartyId (m_setType (m_setData MC (Some (length (w_heap (put_party w me (pa_set_core P core1))))) 1) MOutput) (pa_id P))) with w3.
  rewrite lb_assoc. apply lb_ext. intros [[w4 o] tr] _.
  destruct o; [|reflexivity|reflexivity]. destruct (the_msg w4 m) as [M4| | | |]; try reflexivity. rewrite lb_ok. cbn [bind].
  destruct (bytes_at (w_heap w4) (m_data M4)); try reflexivity. rewrite lb_ok. cbn [bind]. destruct (release w4 (m_data M4)); reflexivity.
Qed.

(** *** the helper *)
Lemma help_log d w me m P c M x Q cs key k MC cl C sb : nth_error (w_parties w) me = Some P -> nth_error (w_msgs w) m = Some M -> pa_role P = RClient c ->
  m_type M = MClientRequest -> m_party M <> pa_id P -> getPartyById P (m_party M) = Some x -> nth_error (w_parties w) x = Some Q ->
  hasAuthenticatedId P (pa_id Q) = true -> pa_type Q = TClient ->
  bytes_at (w_heap w) (m_data M) = Ok cs -> cstr_at cs 0 = Ok (pa_id Q) -> nul_free (pa_id P) -> nul_free (pa_id Q) ->
  draw_key rbits fuel (w_draws w) = Ok (key, k) -> 0 <= key ->
  nth_error (w_msgs w) (cl_toCloud c) = Some MC -> find_cloud w (pa_parties P) = Ok (Some cl) -> nth_error (w_parties w) cl = Some C -> m <> cl_toCloud c ->
  bytes_from cs (length (pa_id Q) + 1) 3 = Ok sb ->
  let d0 := cloud_request_layout (pa_id P) (pa_id Q) key in
  let w2 := put_msg (w_set_heap (w_set_draws w k) (w_heap w ++ [BBytes (map Some d0)])) (cl_toCloud c)
              (mkMsg (pa_id P) MCloudRequest (Some (length (w_heap w))) (Z.of_nat (length d0))) in
  receive_log (S d) w me m =
    (run _ <- say (LSecret (pa_id P) (le_val sb) (pa_id Q));
     run _ <- say (LSending (pa_id P) key (pa_id C));
     run (w3, o, tr) <- receive_log d w2 cl (cl_toCloud c);
     run (w4, o4, tr4) <- (match o with
       | Thrown _ => quietly (Exit 2)
       | TooDeep => quietly (Ok (w3, TooDeep, tr))
       | Done => run (w4, o2, tr2) <- client_reply_log (receive_log d) w3 me x (le_val sb) key; quietly (Ok (w4, o2, tr ++ tr2))
       end);
     quietly (Ok (w4, o4, (me, MClientRequest) :: tr4))).
Proof.
  intros HP HM HR HT NE HG HQ HA HTQ HB HC HF1 HF2 HK HK0 HMC HCL HCl NM HSB d0 w2.
  rewrite (receive_log_client d w me m P M c HP HM HR), (client_known _ w me P c m M x Q HR NE HG HQ HA) by (rewrite HT, HTQ; reflexivity). rewrite HT.
  unfold ConsoleModel.client_request_log. rewrite HB, lb_ok, HC, lb_ok. rewrite (proj2 (the_party_ok w x Q) HQ), lb_ok. rewrite str_eqb_refl. cbn [negb].
  rewrite HK, lb_ok. rewrite (cloud_request_ok _ _ key HF1 HF2 HK0), lb_ok. cbn [alloc].
  set (wt := w_set_heap _ _). assert (EMC : the_msg wt (cl_toCloud c) = Ok MC) by (apply the_msg_ok; exact HMC). rewrite EMC, lb_ok. cbv zeta. rewrite map_length.
  change (put_msg wt (cl_toCloud c) (m_setPartyId (m_setType (m_setData MC (Some (length (w_heap (w_set_draws w k)))) (Z.of_nat (length (cloud_request_layout (pa_id P) (pa_id Q) key)))) MCloudRequest) (pa_id P))) with w2.
  assert (EF : forall l, find_cloud w2 l = find_cloud w l).
  { induction l as [|[i j] l IH]; [reflexivity|]. cbn [find_cloud]. change (the_party w2 j) with (the_party w j). destruct (the_party w j); cbn [bind]; try reflexivity. rewrite IH. reflexivity. }
  rewrite EF, HCL, lb_ok.
  assert (EM : the_msg w2 m = Ok M). { apply the_msg_ok. unfold w2. cbn. rewrite nth_upd_other by congruence. exact HM. } rewrite EM, lb_ok.
  assert (EB : bytes_at (w_heap w2) (m_data M) = Ok cs).
  { unfold w2. cbn. unfold bytes_at in HB |- *. destruct (m_data M) as [a|]; [|discriminate]. destruct (nth_error (w_heap w) a) as [bl|] eqn:E; [|discriminate].
    rewrite (nth_snoc_old _ _ _ _ E). exact HB. }
  rewrite EB, lb_ok, HSB, lb_ok. cbv zeta. rewrite lb_assoc. apply lb_ext. intros _ _.
  rewrite (proj2 (the_party_ok w2 cl C) HCl), lb_ok, lb_assoc. apply lb_ext. intros _ _. cbn [send_with_log].
  rewrite lb_assoc. apply lb_ext. intros [[w3 o] tr] _. reflexivity.
Qed.
Lemma reply_ok_log d w me P c sender other key core1 zp1 q MC : nth_error (w_parties w) me = Some P -> pa_role P = RClient c ->
  delegationOutput (pa_core P) (cl_zp c) (cl_secret c) other key = Ok (core1, zp1, q) -> nth_error (w_msgs w) (cl_toClient c) = Some MC ->
  client_reply_log (receive_log d) w me sender other key =
    (run _ <- say LHelperTime;
     receive_log d (put_msg (w_set_heap (put_party w me (pa_set_core (pa_set_role P (RClient (cl_set_q (cl_set_zp c zp1) (Some (length (w_heap w)))))) core1)) (w_heap w ++ [BMat q]))
                 (cl_toClient c) (mkMsg (pa_id P) MPolynomial (Some (length (w_heap w))) 1)) sender (cl_toClient c)).
Proof.
  intros HP HR HD HM. unfold ConsoleModel.client_reply_log, as_client. rewrite (proj2 (the_party_ok w me P) HP), lb_ok, HR, lb_ok, HD, lb_ok. cbn [alloc].
  set (wt := put_party _ _ _). assert (EMC : the_msg wt (cl_toClient c) = Ok MC) by (apply the_msg_ok; exact HM). rewrite EMC, lb_ok. cbn [send_with_log]. reflexivity.
Qed.
Lemma fst_say {B} l (f : unit -> logged B) : fst (lbind (say l) f) = l :: fst (f tt).
Proof. reflexivity. Qed.
Lemma as_client_mk i t d co c : as_client (mkParty i t d co (RClient c)) = Ok c.
Proof. reflexivity. Qed.
Ltac norm := repeat (rewrite ?as_client_mk, ?lb_assoc, ?lb_ok, ?fst_say; cbn beta iota).
Lemma run_log d w A B S PA PB PS cA cB sS mA mB matA matB r sb b key k coreS t x coreA zpA q y coreB vs :
  ready w A B S PA PB PS cA cB sS mA mB matA matB r sb b -> cl_q cB = None ->
  draw_key rbits fuel (w_draws w) = Ok (key, k) -> 0 <= key < 2 ^ 128 ->
  computeTOrQ (pa_core PS) key (entry matA) (entry matB) = Ok (coreS, t) -> entry t 0 0 = Ok x ->
  delegationOutput (pa_core PA) (cl_zp cA) (cl_secret cA) (le_val sb) key = Ok (coreA, zpA, q) -> entry q 0 0 = Ok y ->
  intersect (pa_core PB) (Some b) (Some (entry t)) (Some (entry q)) (w_facts w) = Ok (Some (coreB, vs)) ->
  let n := length (w_heap w) in
  let cB' := cl_set_setcap (cl_set_q (cl_set_t cB (Some (n + 1)%nat)) (Some (n + 2)%nat)) vs in
  let cA' := cl_set_q (cl_set_zp cA zpA) (Some (n + 2)%nat) in
  fst (receive_log (3 + d) w A r) =
    [LSecret (pa_id PA) (le_val sb) (pa_id PB); LSending (pa_id PA) key (pa_id PS); LKey (pa_id PS) key (pa_id PA); LServerTime;
     LGot (pa_id PB) x (pa_id PS); LPart MOutput; LHelperTime; LGot (pa_id PB) y (pa_id PA);
     LStats (co_length (pa_core PB)) (length vs); LFound; LPart MPolynomial].
Proof.
  intros RD Q0 HK HKR HT Hx HQ Hy HI n cB' cA'.
  destruct RD as [RA RB RS RcA RcB RsS NAB NAS NBS TA TB TS FA FB IAB IAS IBS DAB CL DSA DSB DBA DBS [MC HMC] [MQ HMQ] [MT HMT] N1 N2 N3 N4 SA SB
    [MA [aA [HMA [DA HAA]]]] [MB [aB [HMB [DB HAB]]]] [MR [aR [cs [HMR [PR [TR [DR [HAR [CR BR]]]]]]]]] BB].
  assert (HBA : hasAuthenticatedId PA (pa_id PB) = true) by (unfold hasAuthenticatedId; rewrite DAB; reflexivity).
  assert (HSA : hasAuthenticatedId PS (pa_id PA) = true) by (unfold hasAuthenticatedId; rewrite DSA; reflexivity).
  assert (HBS : hasAuthenticatedId PB (pa_id PS) = true) by (unfold hasAuthenticatedId; rewrite DBS; reflexivity).
  assert (HBA' : hasAuthenticatedId PB (pa_id PA) = true) by (unfold hasAuthenticatedId; rewrite DBA; reflexivity).
  set (d0 := cloud_request_layout (pa_id PA) (pa_id PB) key).
  change (3 + d)%nat with (Datatypes.S (2 + d)).
  rewrite (help_log (2 + d) w A r PA cA MR B PB cs key k MC S PS sb RA HMR RcA TR) by
    (try assumption; try (rewrite PR; congruence); try (rewrite DR; cbn [bytes_at]; rewrite HAR; reflexivity); try lia).
  cbv zeta. fold d0 n. norm.
  set (w2 := put_msg _ (cl_toCloud cA) _).
  destruct (cloud_request_reads (pa_id PA) (pa_id PB) key FA FB HKR) as [CR1 [CR2 [kb [CR3 CR4]]]]. cbv zeta in CR1, CR2, CR3. fold d0 in CR1, CR2, CR3.
  (* the server *)
  assert (P2 : w_parties w2 = w_parties w) by reflexivity.
  assert (H2 : w_heap w2 = w_heap w ++ [BBytes (map Some d0)]) by reflexivity.
  assert (M2c : nth_error (w_msgs w2) (cl_toCloud cA) = Some (mkMsg (pa_id PA) MCloudRequest (Some n) (Z.of_nat (length d0)))) by (cbn; apply (nth_upd_same _ _ _ _ HMC)).
  assert (M2 : forall m, m <> cl_toCloud cA -> nth_error (w_msgs w2) m = nth_error (w_msgs w) m) by (intros m Hm; cbn; apply nth_upd_other; congruence).
  change (2 + d)%nat with (Datatypes.S (1 + d)) at 1.
  rewrite (serve_request_log (1 + d) w2 S (cl_toCloud cA) PS sS (mkMsg (pa_id PA) MCloudRequest (Some n) (Z.of_nat (length d0))) A PA (map Some d0) (pa_id PB) kb mA mB MA MB coreS t MT B).
  all: try assumption; try reflexivity.
  2:{ cbn [m_data bytes_at]. rewrite H2. unfold n. rewrite nth_snoc. reflexivity. }
  2:{ rewrite M2 by congruence. exact HMA. }
  2:{ rewrite M2 by congruence. exact HMB. }
  2:{ rewrite DA, DB, H2. cbn [entries_at]. rewrite (nth_snoc_old _ _ _ _ HAA), (nth_snoc_old _ _ _ _ HAB), CR4. exact HT. }
  2:{ rewrite M2 by congruence. exact HMT. }
  cbv zeta. norm. set (w3 := put_msg _ (sv_toClient sS) _).
  assert (L2 : length (w_heap w2) = (n + 1)%nat) by (rewrite H2, app_length; reflexivity).
  assert (H3 : w_heap w3 = w_heap w ++ [BBytes (map Some d0); BMat t]) by (unfold w3; cbn [put_msg w_set_msgs w_heap w_set_heap]; rewrite H2, <- app_assoc; reflexivity).
  assert (P3S : nth_error (w_parties w3) S = Some (pa_set_core PS coreS)) by (cbn; apply (nth_upd_same _ _ _ _ RS)).
  assert (P3 : forall i, i <> S -> nth_error (w_parties w3) i = nth_error (w_parties w) i) by (intros i Hi; cbn; apply nth_upd_other; congruence).
  assert (M3t : nth_error (w_msgs w3) (sv_toClient sS) = Some (mkMsg (pa_id PS) MOutput (Some (n + 1)%nat) 1)).
  { unfold w3. cbn [put_msg w_set_msgs w_msgs w_set_heap put_party w_set_parties]. rewrite L2. rewrite <- (M2 (sv_toClient sS)) in HMT by congruence. apply (nth_upd_same _ _ _ _ HMT). }
  assert (M3 : forall m, m <> cl_toCloud cA -> m <> sv_toClient sS -> nth_error (w_msgs w3) m = nth_error (w_msgs w) m).
  { intros m Hm Hm'. unfold w3. cbn [put_msg w_set_msgs w_msgs w_set_heap put_party w_set_parties]. rewrite nth_upd_other by congruence. apply M2. exact Hm. }
  assert (M3c : nth_error (w_msgs w3) (cl_toCloud cA) = Some (mkMsg (pa_id PA) MCloudRequest (Some n) (Z.of_nat (length d0)))).
  { unfold w3. cbn [put_msg w_set_msgs w_msgs w_set_heap put_party w_set_parties]. rewrite nth_upd_other by congruence. exact M2c. }
  (* t arrives *)
  change (1 + d)%nat with (Datatypes.S d).
  rewrite (deliver_result_log d w3 B (sv_toClient sS) PB cB (mkMsg (pa_id PS) MOutput (Some (n + 1)%nat) 1) S (pa_set_core PS coreS));
    [|rewrite P3 by congruence; exact RB|exact M3t|exact RcB|cbn; congruence|exact DBS|exact P3S|exact HBS|left; split; [reflexivity|exact TS]].
  cbn [m_data m_type entries_at]. rewrite H3.
  assert (E1 : nth_error (w_heap w ++ [BBytes (map Some d0); BMat t]) (n + 1) = Some (BMat t)).
  { rewrite nth_error_app2 by (unfold n; lia). replace (n + 1 - length (w_heap w))%nat with 1%nat by (unfold n; lia). reflexivity. }
  rewrite E1, Hx. cbn [result_of]. norm.
  set (w4 := put_client w3 B PB (cl_set_t cB (Some (n + 1)%nat))).
  assert (P4B : nth_error (w_parties w4) B = Some (pa_set_role PB (RClient (cl_set_t cB (Some (n + 1)%nat))))).
  { unfold w4, put_client. cbn [put_party w_set_parties w_parties]. apply (nth_upd_same _ _ _ PB). rewrite P3 by congruence. exact RB. }
  rewrite (intersect_waits_log w4 B _ (cl_set_t cB (Some (n + 1)%nat)) b P4B); [|reflexivity|exact BB|left; exact Q0]. norm.
  assert (TC : the_msg w4 (cl_toCloud cA) = Ok (mkMsg (pa_id PA) MCloudRequest (Some n) (Z.of_nat (length d0)))) by (apply the_msg_ok; exact M3c).
  rewrite TC. cbn [bind m_data bytes_at release]. change (w_heap w4) with (w_heap w3). rewrite H3.
  assert (E0 : nth_error (w_heap w ++ [BBytes (map Some d0); BMat t]) n = Some (BBytes (map Some d0))).
  { rewrite nth_error_app2 by (unfold n; lia). replace (n - length (w_heap w))%nat with 0%nat by (unfold n; lia). reflexivity. }
  rewrite E0. cbn [bind]. norm.
  set (w5 := w_set_heap w4 _).
  assert (H5 : w_heap w5 = w_heap w ++ [Freed; BMat t]).
  { unfold w5. cbn [w_set_heap w_heap]. replace n with (length (w_heap w) + 0)%nat by (unfold n; lia). clear. induction (w_heap w) as [|a l IH]; [reflexivity|]. cbn. rewrite IH. reflexivity. }
  (* q leaves *)
  assert (P5A : nth_error (w_parties w5) A = Some PA).
  { unfold w5, w4, put_client. cbn [w_set_heap w_parties put_party w_set_parties]. rewrite nth_upd_other by congruence. rewrite P3 by congruence. exact RA. }
  assert (MQ5 : exists M, nth_error (w_msgs w5) (cl_toClient cA) = Some M).
  { change (w_msgs w5) with (w_msgs w3). assert (LM : length (w_msgs w3) = length (w_msgs w)) by (unfold w3, w2; cbn; rewrite !upd_length; reflexivity).
    destruct (nth_error (w_msgs w3) (cl_toClient cA)) eqn:E; [eauto|]. exfalso. apply nth_error_None in E. assert (cl_toClient cA < length (w_msgs w))%nat by (apply nth_error_Some; congruence). lia. }
  destruct MQ5 as [MQ5 HMQ5].
  rewrite (reply_ok_log (2 + d) w5 A PA cA B (le_val sb) key coreA zpA q MQ5 P5A RcA HQ HMQ5).
  assert (L5 : length (w_heap w5) = (n + 2)%nat) by (rewrite H5, app_length; unfold n; cbn; lia). rewrite L5, H5, <- app_assoc. cbn [app].
  fold cA'. set (w6 := put_msg _ (cl_toClient cA) _).
  assert (P6A : nth_error (w_parties w6) A = Some (pa_set_core (pa_set_role PA (RClient cA')) coreA)).
  { unfold w6. cbn [put_msg w_set_msgs w_set_heap w_parties put_party w_set_parties]. apply (nth_upd_same _ _ _ _ P5A). }
  assert (P6 : forall i, i <> A -> nth_error (w_parties w6) i = nth_error (w_parties w5) i).
  { intros i Hi. unfold w6. cbn [put_msg w_set_msgs w_set_heap w_parties put_party w_set_parties]. apply nth_upd_other. congruence. }
  assert (M6 : nth_error (w_msgs w6) (cl_toClient cA) = Some (mkMsg (pa_id PA) MPolynomial (Some (n + 2)%nat) 1)).
  { unfold w6. cbn [put_msg w_set_msgs w_set_heap w_msgs put_party w_set_parties]. apply (nth_upd_same _ _ _ _ HMQ5). }
  assert (H6 : w_heap w6 = w_heap w ++ [Freed; BMat t; BMat q]) by reflexivity.
  set (PB4 := pa_set_role PB (RClient (cl_set_t cB (Some (n + 1)%nat)))) in *.
  assert (P6B : nth_error (w_parties w6) B = Some PB4) by (rewrite P6 by congruence; exact P4B).
  change (2 + d)%nat with (Datatypes.S (Datatypes.S d)).
  rewrite (deliver_result_log (Datatypes.S d) w6 B (cl_toClient cA) PB4 (cl_set_t cB (Some (n + 1)%nat)) (mkMsg (pa_id PA) MPolynomial (Some (n + 2)%nat) 1) A
     (pa_set_core (pa_set_role PA (RClient cA')) coreA));
    [|exact P6B|exact M6|reflexivity|cbn; congruence|exact DBA|exact P6A|exact HBA'|right; split; [reflexivity|exact TA]].
  cbn [m_data m_type entries_at]. rewrite H6.
  assert (E2 : nth_error (w_heap w ++ [Freed; BMat t; BMat q]) (n + 2) = Some (BMat q)).
  { rewrite nth_error_app2 by (unfold n; lia). replace (n + 2 - length (w_heap w))%nat with 2%nat by (unfold n; lia). reflexivity. }
  assert (E3 : nth_error (w_heap w ++ [Freed; BMat t; BMat q]) (n + 1) = Some (BMat t)).
  { rewrite nth_error_app2 by (unfold n; lia). replace (n + 1 - length (w_heap w))%nat with 1%nat by (unfold n; lia). reflexivity. }
  rewrite E2, Hy. cbn [result_of]. norm.
  set (w7 := put_client w6 B PB4 _).
  set (cB2 := cl_set_q (cl_set_t cB (Some (n + 1)%nat)) (Some (n + 2)%nat)) in *.
  assert (P7B : nth_error (w_parties w7) B = Some (pa_set_role PB4 (RClient cB2))).
  { unfold w7, put_client. cbn [put_party w_set_parties w_parties]. apply (nth_upd_same _ _ _ _ P6B). }
  rewrite (intersect_finishes_log w7 B (pa_set_role PB4 (RClient cB2)) cB2 (n + 1)%nat (n + 2)%nat t q coreB vs P7B);
    [|reflexivity|reflexivity|reflexivity|change (w_heap w7) with (w_heap w6); rewrite H6; exact E3|change (w_heap w7) with (w_heap w6); rewrite H6; exact E2|lia
     |change (cl_rawDataBits cB2) with (cl_rawDataBits cB); rewrite BB; exact HI].
  cbn [bind app].
  rewrite CR4. reflexivity.
Qed.

(** *** the simulator *)
Lemma outsource_log d w me m P s M x Q : nth_error (w_parties w) me = Some P -> nth_error (w_msgs w) m = Some M -> pa_role P = RServer s ->
  m_type M = MOutsourcing -> m_party M <> pa_id P -> getPartyById P (m_party M) = Some x -> nth_error (w_parties w) x = Some Q ->
  hasAuthenticatedId P (pa_id Q) = true -> pa_type Q = TClient ->
  receive_log (S d) w me m =
    (run _ <- say (LStored (pa_id P) (pa_id Q) (m_len M));
     run _ <- say LStoredTime;
     quietly (Ok (put_party w me (pa_set_role P (RServer (mkServer (map_put (sv_stored s) (pa_id Q) (Some m)) (sv_toClient s)))), Done, [(me, MOutsourcing)]))).
Proof.
  intros HP HM HR HT NE HG HQ HA HTQ. rewrite (receive_log_server d w me m P M s HP HM HR), (server_known _ w me P s m M x Q HR NE HG HQ HA HTQ) by auto.
  rewrite HT. reflexivity.
Qed.
Section S.
Variables (L h D : nat) (al : halgo Z) (bits : Z) (idA idB idS : list Z) (sA sB : Z) (rawA rawB : list Z) (nt pos draws facts : nat).
Hypothesis NAB : idA <> idB.
Hypothesis NAS : idA <> idS.
Hypothesis NBS : idB <> idS.
Hypothesis HA : rawA <> [].
Hypothesis HB : rawB <> [].
#[local] Notation dirA := (WorldSim.dirA idB idS).
#[local] Notation dirB := (WorldSim.dirB idA idS).
#[local] Notation dirS := (WorldSim.dirS idA idB).
#[local] Notation core0 := (WorldSim.core0 p L h D).
#[local] Notation party0 := (WorldSim.party0 p L h D).
#[local] Notation cloud0 := (WorldSim.cloud0 p L h D idA idB idS).
#[local] Notation client1 := (WorldSim.client1 bits).
#[local] Notation world0 := (WorldSim.world0 p L h D idA idB idS sA sB pos draws facts).
#[local] Notation world1 := (WorldSim.world1 p L h D bits idA idB idS sA sB rawA rawB draws facts).
Lemma fst_or_exit x : fst (or_exit_log x) = fst x.
Proof. unfold or_exit_log. rewrite fst_lbind. destruct (snd x) as [[[w o] tr]| | | |]; try destruct o; cbn [fst quietly]; apply app_nil_r. Qed.
Lemma before_request_log hA cA cB tA tB zA zB mA mB d :
  new_hb L h (Some al) = Ok hA ->
  blind sha rand fuel p hw core0 sA rawA (length rawA) (Some bits) hA (new_zpprf p pos) nt = Ok (cA, tA, zA, mA) ->
  blind sha rand fuel p hw core0 sB rawB (length rawB) (Some bits) hA (new_zpprf p (p_pos (zp_prf zA))) nt = Ok (cB, tB, zB, mB) ->
  client_request_bytes idB sB = Ok d ->
  fst (simulate_log L h D al bits idA idB idS sA sB rawA rawB nt pos draws facts) =
    [LStored idS idA (Z.of_nat (D * L)); LStoredTime; LStored idS idB (Z.of_nat (D * L)); LStoredTime] ++
    fst (receive_log 4 (world1 cA cB tA tB zA zB mA mB d) 0 7).
Proof.
  intros EA BA BB ED. unfold ConsoleModel.simulate_log. rewrite EA. norm.
  unfold new_client, empty_world, new_server, w_set_msgs, w_set_parties. cbn [w_parties w_msgs w_heap w_rand w_draws w_facts app length].
  fold core0. change (mkWorld _ _ _ _ _ _) with (mkWorld [party0 idA sA [] hA 0; party0 idB sB [] hA 2; mkParty idS TServer [] core0 (RServer (mkServer [] 4%nat))]
      [new_message; new_message; new_message; new_message; new_message] [] pos draws facts).
  rewrite (introductions p L h D idA idB idS sA sB pos draws facts NAB NAS NBS). norm. unfold new_msg, world0, w_set_msgs. cbn [w_parties w_msgs w_heap w_rand w_draws w_facts app length].
  erewrite (fun w => setRawData_eq sha rand fuel p hw w 0 (party0 idA sA dirA hA 0) _ rawA bits nt zA cA tA mA); [|reflexivity|reflexivity|exact HA|exact BA]. norm.
  unfold put_party, w_set_rand, w_set_parties, w_set_heap. cbn [w_parties w_msgs w_heap w_rand w_draws w_facts app length upd pa_set_core pa_set_role pa_id pa_type pa_parties party0 pa_core pa_role cl_q cl_t cl_toCloud cl_toClient cl_setcap cl_secret].
  erewrite (fun w => setRawData_eq sha rand fuel p hw w 1 (party0 idB sB dirB hA 2) _ rawB bits nt zB cB tB mB); [|reflexivity|reflexivity|exact HB|exact BB]. norm.
  unfold put_party, w_set_rand, w_set_parties, w_set_heap. cbn [w_parties w_msgs w_heap w_rand w_draws w_facts app length upd pa_set_core pa_set_role pa_id pa_type pa_parties party0 pa_core pa_role cl_q cl_t cl_toCloud cl_toClient cl_setcap cl_secret].
  unfold pa_set_core, pa_set_role, WorldSim.party0. cbn [the_party the_msg w_parties w_msgs nth_error bind pa_role cl_blinded pa_id pa_type pa_parties pa_core]. norm.
  unfold put_msg, w_set_msgs. cbn [w_parties w_msgs w_heap w_rand w_draws w_facts upd nth_error bind m_setPartyId m_setType m_setData new_message m_party m_type m_data m_len]. norm.
  cbn [the_party the_msg w_parties w_msgs nth_error bind m_party m_type m_data m_len upd w_heap w_rand w_draws w_facts]. norm.
  destruct (dir_find idA idB idS NAB NAS NBS) as [_ [_ [_ [_ [F1 F2]]]]].
  unfold send_log, send_with_log, or_exit_log. norm.
  match goal with |- context [ConsoleModel.receive_log _ _ _ _ _ _ _ 4 ?w 2 5] => set (w5 := w) end.
  rewrite (outsource_log 3 w5 2 5 cloud0 (mkServer [] 4%nat) (mkMsg idA MOutsourcing (Some 0%nat) (Z.of_nat (D * L))) 0
     (mkParty idA TClient dirA cA (RClient (client1 rawA sA tA zA 0 0)))); try reflexivity; [|exact NAS|exact F1|unfold hasAuthenticatedId, getPartyById; cbn [cloud0 pa_parties pa_id]; rewrite F1; reflexivity].
  norm. cbn [fst snd]. norm.
  match goal with |- context [ConsoleModel.receive_log _ _ _ _ _ _ _ 4 ?w 2 6] => set (w6 := w) end.
  rewrite (outsource_log 3 w6 2 6 (pa_set_role cloud0 (RServer (mkServer (map_put [] idA (Some 5%nat)) 4%nat))) (mkServer (map_put [] idA (Some 5%nat)) 4%nat) (mkMsg idB MOutsourcing (Some 1%nat) (Z.of_nat (D * L))) 1
     (mkParty idB TClient dirB cB (RClient (client1 rawB sB tB zB 1 2)))); try reflexivity; [|exact NBS|exact F2|unfold hasAuthenticatedId, getPartyById; cbn [cloud0 pa_set_role pa_parties pa_id]; rewrite F2; reflexivity].
  norm. rewrite ED. norm. cbn [alloc]. cbn [app]. do 4 f_equal.
  fold (or_exit_log (receive_log 4 (world1 cA cB tA tB zA zB mA mB d) 0 7)). apply fst_or_exit.
Qed.
Hypothesis FA : nul_free idA.
Hypothesis FB : nul_free idB.
Lemma simulate_console hA cA cB tA tB zA zB mA mB key k cS t x cA1 zA1 q y cB1 vs : 
  new_hb L h (Some al) = Ok hA ->
  blind sha rand fuel p hw core0 sA rawA (length rawA) (Some bits) hA (new_zpprf p pos) nt = Ok (cA, tA, zA, mA) ->
  blind sha rand fuel p hw core0 sB rawB (length rawB) (Some bits) hA (new_zpprf p (p_pos (zp_prf zA))) nt = Ok (cB, tB, zB, mB) ->
  draw_key rbits fuel draws = Ok (key, k) -> 0 <= key < 2 ^ 128 -> 2 ^ 8 <= sB ->
  computeTOrQ core0 key (entry mA) (entry mB) = Ok (cS, t) -> entry t 0 0 = Ok x ->
  delegationOutput cA zA sA (sB mod 2 ^ 24) key = Ok (cA1, zA1, q) -> entry q 0 0 = Ok y ->
  intersect cB (Some bits) (Some (entry t)) (Some (entry q)) facts = Ok (Some (cB1, vs)) ->
  fst (simulate_log L h D al bits idA idB idS sA sB rawA rawB nt pos draws facts) =
    [LStored idS idA (Z.of_nat (D * L)); LStoredTime; LStored idS idB (Z.of_nat (D * L)); LStoredTime;
     LSecret idA (sB mod 2 ^ 24) idB; LSending idA key idS; LKey idS key idA; LServerTime;
     LGot idB x idS; LPart MOutput; LHelperTime; LGot idB y idA; LStats (co_length cB) (length vs); LFound; LPart MPolynomial].
Proof.
  intros EA BA BB HK HKR HS HT Hx HQ Hy HI.
  pose proof (client_request_bytes_ok idB sB FB ltac:(lia)) as ED. set (d := map Some _) in ED.
  destruct (client_request_reads idB sB FB ltac:(lia)) as [RC [_ RS]]. cbv zeta in RC, RS. fold d in RC, RS. destruct (RS HS) as [sb [RS1 RS2]].
  rewrite (before_request_log hA cA cB tA tB zA zB mA mB d EA BA BB ED).
  pose proof (world1_ready p L h D bits idA idB idS sA sB rawA rawB draws facts NAB NAS NBS FA FB cA cB tA tB zA zB mA mB d sb RC RS1) as RD.
  pose proof (run_log 1 _ _ _ _ _ _ _ _ _ _ _ _ _ _ _ _ _ key k cS t x cA1 zA1 q y cB1 vs RD eq_refl HK HKR HT Hx) as E.
  cbn [Nat.add] in E. rewrite E.
  - rewrite RS2. reflexivity.
  - cbn [pa_core cl_zp cl_secret WorldSim.client1]. rewrite RS2. exact HQ.
  - exact Hy.
  - exact HI.
Qed.
End S.
End R.
