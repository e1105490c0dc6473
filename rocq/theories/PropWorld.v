(** Properties of the message layer: C51-C61, C70. *)
From Verif Require Import Base Spec Lib NtlMiss NtlMissProofs StrIntModel HashBucketsModel HashBucketsSpec HashBucketsProofs.
From Verif Require Import PRFModel PRFSpec PRFProofs PolyModel PolySpec EopsiModel EopsiSpec EopsiBlind EopsiRun EopsiFacts PropEopsi.
From Verif Require Import WorldModel WorldSpec WorldProofs WorldFrame WorldRun WorldMore WorldSim WorldLaws.
From Coq Require Import Lia Znumtheory.

Section W.
Variable sha : list Z -> list Z.
Variable rand : nat -> Z.
Variable fuel : nat.
Variable p : Z.
Variables canzass berlekamp : nat -> list Z -> list (list Z * Z).
Variable hw : nat.
Variable rbits : nat -> Z.
#[local] Notation receive := (receive sha rand fuel p canzass berlekamp rbits).
#[local] Notation send := (send sha rand fuel p canzass berlekamp rbits).
#[local] Notation intersect := (intersect sha rand fuel p canzass berlekamp).
#[local] Notation computeTOrQ := (computeTOrQ sha rand fuel p).
#[local] Notation exec := (exec sha rand fuel p canzass berlekamp hw rbits).
#[local] Notation exec_all := (exec_all sha rand fuel p canzass berlekamp hw rbits).
#[local] Notation log_of := (log_of sha rand fuel p canzass berlekamp hw rbits).
#[local] Notation outsources := (outsources sha rand fuel p canzass berlekamp hw rbits).
#[local] Notation simulate := (simulate sha rand fuel p canzass berlekamp hw rbits).
#[local] Notation session := (session sha rand fuel p canzass berlekamp hw).

(** *** C51 *)
(** the bytes the helper sends, and how they read *)
Theorem C51_encoding : forall own other key, nul_free own -> nul_free other -> 0 <= key < 2 ^ 128 ->
  exists cs kb, cloud_request own other key = Ok cs /\ cs = map Some (own ++ [0] ++ other ++ [0] ++ le_bytes 16 key ++ [0]) /\
    cstr_at cs 0 = Ok own /\ cstr_at cs (length own + 1) = Ok other /\
    bytes_from cs (length own + 1 + length other + 1) 16 = Ok kb /\ le_val kb = key.
Proof.
  intros own other key HO HT HK. destruct (cloud_request_reads own other key HO HT HK) as [A [B [kb [C D]]]].
  exists (map Some (cloud_request_layout own other key)), kb. split; [apply cloud_request_ok; try assumption; lia|]. split; [reflexivity|]. auto.
Qed.
(** A server that handles a request encoded this way computes t for exactly
    these two clients and this key, and sends it to the partner. *)
Theorem C51_server_decodes : forall d w me m P s M h Q a0 cs partner key w' o tr,
  nth_error (w_parties w) me = Some P -> nth_error (w_msgs w) m = Some M -> pa_role P = RServer s -> m_type M = MCloudRequest ->
  getPartyById P (m_party M) = Some h -> nth_error (w_parties w) h = Some Q ->
  nul_free (pa_id Q) -> nul_free partner -> 0 <= key < 2 ^ 128 ->
  m_data M = Some a0 -> nth_error (w_heap w) a0 = Some (BBytes cs) -> cloud_request (pa_id Q) partner key = Ok cs ->
  receive (S d) w me m = Ok (w', o, tr) -> (forall r, o <> Thrown r) ->
  exists a b MA MB core1 t to w3 w4 tr',
    map_find (sv_stored s) (pa_id Q) = Some (Some a) /\ map_find (sv_stored s) partner = Some (Some b) /\
    nth_error (w_msgs w) a = Some MA /\ nth_error (w_msgs w) b = Some MB /\
    computeTOrQ (pa_core P) key (entries_at (w_heap w) (m_data MA)) (entries_at (w_heap w) (m_data MB)) = Ok (core1, t) /\
    getPartyById P partner = Some to /\
    nth_error (w_msgs w3) (sv_toClient s) = Some (mkMsg (pa_id P) MOutput (Some (length (w_heap w))) 1) /\
    nth_error (w_heap w3) (length (w_heap w)) = Some (BMat t) /\
    receive d w3 to (sv_toClient s) = Ok (w4, o, tr') /\ tr = (me, MCloudRequest) :: tr'.
Proof.
  intros d w me m P s M h Q a0 cs partner key w' o tr HP HM HR HT HG HQ F1 F2 HK ED HA EC H ND.
  rewrite (cloud_request_ok _ _ key F1 F2 ltac:(lia)) in EC. apply Ok_inj in EC.
  destruct (cloud_request_reads (pa_id Q) partner key F1 F2 HK) as [R1 [R2 [kb [R3 R4]]]]. rewrite EC in R1, R2, R3.
  eapply (server_reply sha rand fuel p canzass berlekamp rbits d w me m P s M h Q cs partner key kb w' o tr); try eassumption.
  rewrite ED. cbn. rewrite HA. reflexivity.
Qed.
(** a sender whose id contains a NUL character is always rejected *)
Theorem C51_nul_ids : forall d w me m P M s Q, nth_error (w_parties w) me = Some P -> nth_error (w_msgs w) m = Some M ->
  getPartyById P (m_party M) = Some s -> nth_error (w_parties w) s = Some Q -> In 0 (pa_id Q) -> m_type M = MClientRequest \/ m_type M = MCloudRequest ->
  (forall w' o tr, receive (S d) w me m = Ok (w', o, tr) -> w' = w /\ exists r, o = Thrown r) /\
  (forall cs claimed, m_party M <> pa_id P -> hasAuthenticatedId P (pa_id Q) = true -> accepts (pa_role P) (m_type M) (pa_type Q) ->
     bytes_at (w_heap w) (m_data M) = Ok cs -> cstr_at cs 0 = Ok claimed -> receive (S d) w me m = Ok (w, Thrown IdMismatch, [(me, m_type M)])).
Proof. exact (nul_id_rejected sha rand fuel p canzass berlekamp rbits). Qed.

(** the bytes of both requests for any ids: of an id with a NUL byte only the
    part before it travels, the rest of its room stays uninitialised *)
Theorem C51_layout_any : forall own other key a b, c_part own a -> c_part other b -> 0 <= key ->
  cloud_request own other key =
    Ok (map Some (a ++ [0]) ++ repeat None (length own - length a) ++ map Some (b ++ [0]) ++ repeat None (length other - length b) ++
        map Some (le_bytes 16 key ++ [0])) /\
  client_request_bytes own key =
    Ok (map Some (a ++ [0]) ++ repeat None (length own - length a) ++ map Some (le_bytes (Z.to_nat (bytes_of_zz key)) key ++ [0])).
Proof. intros own other key a b HA HB HK. split; [apply cloud_request_any|apply client_request_any]; assumption. Qed.

(** *** C52 *)
(** three bytes from behind the id in the simulator's request *)
Theorem C52_three_bytes : forall id secret, nul_free id -> 0 <= secret ->
  exists cs, client_request_bytes id secret = Ok cs /\ cstr_at cs 0 = Ok id /\
    (secret < 2 ^ 8 -> bytes_from cs (length id + 1) 3 = UB OutOfBounds) /\
    (2 ^ 8 <= secret -> exists sb, bytes_from cs (length id + 1) 3 = Ok sb /\ le_val sb = secret mod 2 ^ 24) /\
    ((exists sb, bytes_from cs (length id + 1) 3 = Ok sb /\ le_val sb = secret) <-> 2 ^ 8 <= secret < 2 ^ 24).
Proof.
  intros id secret HI HS. destruct (client_request_reads id secret HI HS) as [A [B C]]. eexists. split; [apply client_request_bytes_ok; assumption|].
  split; [exact A|]. split; [exact B|]. split; [exact C|]. split.
  - intros [sb [E V]]. destruct (Z.lt_ge_cases secret (2 ^ 8)) as [L|L]; [rewrite (B L) in E; discriminate|]. split; [exact L|].
    destruct (C L) as [sb' [E' V']]. rewrite E in E'. apply Ok_inj in E'. subst sb'. rewrite V in V'. rewrite V'. apply Z.mod_pos_bound. reflexivity.
  - intros [L U]. destruct (C L) as [sb [E V]]. exists sb. split; [exact E|]. rewrite V. apply Z.mod_small. lia.
Qed.
(** a helper that gets such a request with a secret below 2^8 reads outside the message *)
Theorem C52_short_secret : forall d w me m P c M x Q a cs secret key k MC cl,
  nth_error (w_parties w) me = Some P -> nth_error (w_msgs w) m = Some M -> pa_role P = RClient c ->
  m_type M = MClientRequest -> m_party M <> pa_id P -> getPartyById P (m_party M) = Some x -> nth_error (w_parties w) x = Some Q ->
  hasAuthenticatedId P (pa_id Q) = true -> pa_type Q = TClient -> nul_free (pa_id P) -> nul_free (pa_id Q) ->
  m_data M = Some a -> nth_error (w_heap w) a = Some (BBytes cs) -> client_request_bytes (pa_id Q) secret = Ok cs -> 0 <= secret < 2 ^ 8 ->
  draw_key rbits fuel (w_draws w) = Ok (key, k) -> 0 <= key ->
  nth_error (w_msgs w) (cl_toCloud c) = Some MC -> find_cloud w (pa_parties P) = Ok (Some cl) -> m <> cl_toCloud c ->
  receive (S d) w me m = UB OutOfBounds.
Proof.
  intros d w me m P c M x Q a cs secret key k MC cl HP HM HR HT NE HG HQ HA HTQ F1 F2 ED HH HCB HS HK HK0 HMC HCL NM.
  rewrite (client_request_bytes_ok (pa_id Q) secret F2 ltac:(lia)) in HCB. apply Ok_inj in HCB.
  destruct (client_request_reads (pa_id Q) secret F2 ltac:(lia)) as [R1 [R2 _]]. rewrite HCB in R1, R2.
  apply (help_unreadable sha rand fuel p canzass berlekamp rbits d w me m P c M x Q cs key k MC cl OutOfBounds); try assumption.
  - rewrite ED. cbn. rewrite HH. reflexivity.
  - apply R2. lia.
Qed.

(** *** C53 *)
(** a delivery that returns is an accepted kind of message from an authenticated party *)
Theorem C53_only_accepted : forall d w me m w' o tr, receive (S d) w me m = Ok (w', o, tr) -> (forall r, o <> Thrown r) ->
  exists P M s Q, nth_error (w_parties w) me = Some P /\ nth_error (w_msgs w) m = Some M /\ m_party M <> pa_id P /\
    getPartyById P (m_party M) = Some s /\ nth_error (w_parties w) s = Some Q /\ hasAuthenticatedId P (pa_id Q) = true /\
    accepts (pa_role P) (m_type M) (pa_type Q).
Proof.
  intros d w me m w' o tr H ND. apply receive_inv in H. destruct H as [P [M [tr1 [HP [HM [H _]]]]]].
  apply step_inv in H. destruct H as [[_ [_ [r E]]]|[NE [s [Q [HG [HQ [HA [AC _]]]]]]]]; [destruct (ND r E)|]. exists P, M, s, Q. auto 10.
Qed.
(** any other combination throws, and nothing changes *)
Theorem C53_others_refused : forall d w me m P M s Q, nth_error (w_parties w) me = Some P -> nth_error (w_msgs w) m = Some M -> m_party M <> pa_id P ->
  getPartyById P (m_party M) = Some s -> nth_error (w_parties w) s = Some Q ->
  hasAuthenticatedId P (pa_id Q) = false \/ ~ accepts (pa_role P) (m_type M) (pa_type Q) ->
  exists r, receive (S d) w me m = Ok (w, Thrown r, [(me, m_type M)]).
Proof. exact (not_accepted sha rand fuel p canzass berlekamp rbits). Qed.
(** a server does take outsourcing messages from authenticated clients *)
Theorem C53_outsourcing_accepted : forall d w me m P s M x Q, nth_error (w_parties w) me = Some P -> nth_error (w_msgs w) m = Some M -> pa_role P = RServer s ->
  m_type M = MOutsourcing -> m_party M <> pa_id P -> getPartyById P (m_party M) = Some x -> nth_error (w_parties w) x = Some Q ->
  hasAuthenticatedId P (pa_id Q) = true -> pa_type Q = TClient ->
  exists w', receive (S d) w me m = Ok (w', Done, [(me, MOutsourcing)]) /\ w_msgs w' = w_msgs w /\ w_heap w' = w_heap w /\
    (forall i, i <> me -> nth_error (w_parties w') i = nth_error (w_parties w) i).
Proof.
  intros. eexists. split; [eapply outsource_ok; eassumption|]. split; [reflexivity|]. split; [reflexivity|]. intros i Hi. cbn. apply nth_upd_other. congruence.
Qed.

(** *** C54 *)
Theorem C54_strangers : forall d w me m P M, nth_error (w_parties w) me = Some P -> nth_error (w_msgs w) m = Some M ->
  m_party M <> pa_id P -> getPartyById P (m_party M) = None ->
  match pa_role P with
  | RServer _ => receive (S d) w me m = Ok (w, Thrown NotAuthorised, [(me, m_type M)])
  | RClient _ => receive (S d) w me m = UB NullDeref
  end.
Proof.
  intros d w me m P M HP HM NE HG. rewrite (receive_S _ _ _ _ _ _ _ d w me m P M HP HM), (step_stranger _ _ _ _ _ _ _ d w me m P M NE HG).
  destruct (pa_role P); reflexivity.
Qed.

(** *** C55 *)
Theorem C55_self_and_null :
  (forall d w me m P M, nth_error (w_parties w) me = Some P -> nth_error (w_msgs w) m = Some M -> m_party M = pa_id P ->
     receive (S d) w me m = Ok (w, Thrown SelfMessage, [(me, m_type M)])) /\
  (forall d w to, send d w to None = Ok (w, Thrown NullMessage, [])).
Proof.
  split; [|reflexivity]. intros d w me m P M HP HM E. rewrite (receive_S _ _ _ _ _ _ _ d w me m P M HP HM), (step_self _ _ _ _ _ _ _ d w me m P M E). reflexivity.
Qed.

(** *** C56 *)
(** Along any program that does not rename the party, its directory finds
    exactly the ids registered by authenticate calls (plus those found at the
    start), each with the party registered last, and never its own id. *)
Theorem C56_directory : forall l w w' me P, exec_all w l = Ok w' -> nth_error (w_parties w) me = Some P -> getPartyById P (pa_id P) = None ->
  (forall id, ~ In (OSetId me id) l) ->
  let log := log_of (fun w o => registers w me o) w l in
  exists P', nth_error (w_parties w') me = Some P' /\ pa_id P' = pa_id P /\
    (forall id, getPartyById P' id = match latest log id with Some j => Some j | None => getPartyById P id end) /\
    (forall id, hasAuthenticatedId P' id = true <-> (exists j, In (id, j) log) \/ hasAuthenticatedId P id = true) /\
    getPartyById P' (pa_id P') = None /\ hasAuthenticatedId P' (pa_id P') = false.
Proof.
  intros l w w' me P H HP HN NS log. destruct (history_effect _ _ _ _ _ _ _ _ l w w' me P H HP) as [P' [HP' [D [_ [_ I]]]]].
  specialize (I NS). exists P'. split; [exact HP'|]. split; [exact I|]. split; [exact D|].
  assert (SELF : getPartyById P' (pa_id P') = None).
  { rewrite I, D. destruct (latest _ (pa_id P)) as [j|] eqn:E; [|exact HN]. exfalso. apply latest_in in E.
    exact (registers_not_self _ _ _ _ _ _ _ _ l w w' me P H HP NS (pa_id P) j E eq_refl). }
  split; [|split; [exact SELF|unfold hasAuthenticatedId; rewrite SELF; reflexivity]].
  intros id. unfold hasAuthenticatedId. rewrite D. fold log. destruct (latest log id) as [j|] eqn:E.
  - split; [intros _; left; exists j; apply latest_in; exact E|reflexivity].
  - rewrite latest_none in E. split; [auto|]. intros [[j X]|X]; [destruct (E j X)|exact X].
Qed.

(** *** C57 *)
(** what a server has stored for each id after any program *)
Theorem C57_latest_stored : forall l w w' me P s, exec_all w l = Ok w' -> nth_error (w_parties w) me = Some P -> pa_role P = RServer s ->
  exists P' s', nth_error (w_parties w') me = Some P' /\ pa_role P' = RServer s' /\
    forall id, map_find (sv_stored s') id = match latest (log_of (fun w o => outsources w me o) w l) id with Some m => Some (Some m) | None => map_find (sv_stored s) id end.
Proof.
  intros l w w' me P s H HP HR. destruct (history_effect _ _ _ _ _ _ _ _ l w w' me P H HP) as [P' [HP' [_ [S [R _]]]]].
  unfold stored_of in S. rewrite HR in R, S. destruct (pa_role P') as [|s'] eqn:E'; [contradiction|]. exists P', s'. split; [exact HP'|]. split; [exact E'|]. exact S.
Qed.
(** Messages are stored by reference: if the data pointer of a stored message
    is changed after it was sent, the server uses the new data. *)
Theorem C57_by_reference : forall d w me m P s M h Q a0 cs partner key a b MA MB data len w' o tr,
  nth_error (w_parties w) me = Some P -> pa_role P = RServer s ->
  map_find (sv_stored s) (pa_id Q) = Some (Some a) -> map_find (sv_stored s) partner = Some (Some b) ->
  nth_error (w_msgs w) a = Some MA -> nth_error (w_msgs w) b = Some MB -> a <> b -> m <> a ->
  nth_error (w_msgs w) m = Some M -> m_type M = MCloudRequest ->
  getPartyById P (m_party M) = Some h -> nth_error (w_parties w) h = Some Q ->
  nul_free (pa_id Q) -> nul_free partner -> 0 <= key < 2 ^ 128 ->
  m_data M = Some a0 -> nth_error (w_heap w) a0 = Some (BBytes cs) -> cloud_request (pa_id Q) partner key = Ok cs ->
  receive (S d) (put_msg w a (m_setData MA data len)) me m = Ok (w', o, tr) -> (forall r, o <> Thrown r) ->
  exists core1 t to w3 w4 tr',
    computeTOrQ (pa_core P) key (entries_at (w_heap w) data) (entries_at (w_heap w) (m_data MB)) = Ok (core1, t) /\
    nth_error (w_msgs w3) (sv_toClient s) = Some (mkMsg (pa_id P) MOutput (Some (length (w_heap w))) 1) /\
    nth_error (w_heap w3) (length (w_heap w)) = Some (BMat t) /\
    receive d w3 to (sv_toClient s) = Ok (w4, o, tr').
Proof.
  intros d w me m P s M h Q a0 cs partner key a b MA MB data len w' o tr HP HR SA SB HMA HMB NAB NMA HM HT HG HQ F1 F2 HK ED HA EC H ND.
  set (w1 := put_msg w a (m_setData MA data len)) in *.
  assert (HM1 : nth_error (w_msgs w1) m = Some M) by (cbn; rewrite nth_upd_other by congruence; exact HM).
  destruct (C51_server_decodes d w1 me m P s M h Q a0 cs partner key w' o tr HP HM1 HR HT HG HQ F1 F2 HK ED HA EC H ND)
    as [a' [b' [MA' [MB' [co [t [to [w3 [w4 [tr' [SA' [SB' [HMA' [HMB' [HC [_ [H3 [H4 [H5 _]]]]]]]]]]]]]]]]]]].
  assert (a' = a) by congruence. assert (b' = b) by congruence. subst a' b'.
  cbn in HMA', HMB'. rewrite (nth_upd_same _ _ _ _ HMA) in HMA'. rewrite nth_upd_other in HMB' by congruence. injection HMA' as <-. assert (MB' = MB) by congruence. subst MB'.
  exists co, t, to, w3, w4, tr'. split; [exact HC|]. split; [exact H3|]. split; [exact H4|exact H5].
Qed.

(** *** C58 *)
Theorem C58_no_data : forall d w me m P s M h Q a0 cs partner key,
  nth_error (w_parties w) me = Some P -> nth_error (w_msgs w) m = Some M -> pa_role P = RServer s -> m_type M = MCloudRequest ->
  m_party M <> pa_id P -> getPartyById P (m_party M) = Some h -> nth_error (w_parties w) h = Some Q -> hasAuthenticatedId P (pa_id Q) = true -> pa_type Q = TClient ->
  nul_free (pa_id Q) -> nul_free partner -> 0 <= key < 2 ^ 128 ->
  m_data M = Some a0 -> nth_error (w_heap w) a0 = Some (BBytes cs) -> cloud_request (pa_id Q) partner key = Ok cs ->
  (forall a, map_find (sv_stored s) (pa_id Q) <> Some (Some a)) \/ (forall b, map_find (sv_stored s) partner <> Some (Some b)) ->
  receive (S d) w me m = UB NullDeref.
Proof.
  intros d w me m P s M h Q a0 cs partner key HP HM HR HT NE HG HQ HA HTQ F1 F2 HK ED HAD EC HN.
  rewrite (cloud_request_ok _ _ key F1 F2 ltac:(lia)) in EC. apply Ok_inj in EC.
  destruct (cloud_request_reads (pa_id Q) partner key F1 F2 HK) as [R1 [R2 [kb [R3 R4]]]]. rewrite EC in R1, R2, R3.
  apply (server_no_data sha rand fuel p canzass berlekamp rbits d w me m P s M h Q cs partner kb); try assumption. rewrite ED. cbn. rewrite HAD. reflexivity.
Qed.

(** *** C59 *)
(** After a client got the second of the two results of a run, and whatever
    the program does afterwards: a polynomial delivered to it makes it read
    freed memory, and so does an output unless it has acted as a helper since. *)
Theorem C59_no_second_run : forall d w B m P c M w1 tr,
  nth_error (w_parties w) B = Some P -> nth_error (w_msgs w) m = Some M -> pa_role P = RClient c ->
  (m_type M = MPolynomial /\ cl_t c <> None) \/ (m_type M = MOutput /\ cl_q c <> None) ->
  receive (S d) w B m = Ok (w1, Done, tr) ->
  forall l w2, exec_all w1 l = Ok w2 ->
  exists P2 c2 ta qa, nth_error (w_parties w2) B = Some P2 /\ pa_role P2 = RClient c2 /\ cl_t c2 = Some ta /\ cl_q c2 = Some qa /\
    nth_error (w_heap w2) ta = Some Freed /\
    (forall d' m2 M2 w3 tr3, nth_error (w_msgs w2) m2 = Some M2 -> m_type M2 = MPolynomial -> receive (S d') w2 B m2 <> Ok (w3, Done, tr3)) /\
    (forall d' m2 M2 w3 tr3, nth_error (w_msgs w2) m2 = Some M2 -> m_type M2 = MOutput -> nth_error (w_heap w2) qa = Some Freed -> receive (S d') w2 B m2 <> Ok (w3, Done, tr3)) /\
    (forall d' m2 t b a, (0 < co_length (pa_core P2))%nat -> (0 < co_degree (pa_core P2))%nat -> cl_rawDataBits c2 = Some b ->
       result_msg w2 B P2 m2 t a -> t = MPolynomial \/ (t = MOutput /\ nth_error (w_heap w2) qa = Some Freed) -> receive (S d') w2 B m2 = UB Dangling).
Proof.
  intros d w B m P c M w1 tr HP HM HR HC H l w2 HX.
  destruct (second_result _ _ _ _ _ _ _ d w B m P c M w1 Done tr HP HM HR H eq_refl HC) as [SP _].
  apply (history_spent _ _ _ _ _ _ _ _ B l w1 w2 HX) in SP. destruct SP as [P2 [c2 [ta [qa [HP2 [HR2 [HT2 [HF2 HQ2]]]]]]]].
  exists P2, c2, ta, qa. repeat (split; [assumption|]). split; [|split].
  - intros d' m2 M2 w3 tr3 HM2 ET E. destruct (second_result _ _ _ _ _ _ _ d' w2 B m2 P2 c2 M2 w3 Done tr3 HP2 HM2 HR2 E eq_refl) as [_ [N _]]; [left; split; [exact ET|congruence]|].
    exact (N ET ta HT2 HF2).
  - intros d' m2 M2 w3 tr3 HM2 ET HF E. destruct (second_result _ _ _ _ _ _ _ d' w2 B m2 P2 c2 M2 w3 Done tr3 HP2 HM2 HR2 E eq_refl) as [_ [_ N]]; [right; split; [exact ET|congruence]|].
    exact (N ET qa HQ2 HF).
  - intros d' m2 t b a HL HD HB RM HT. eapply freed_result; [exact HP2|exact HR2|exact HB|exact HL|exact HD|exact RM|].
    destruct HT as [->|[-> HF]]; [left|right]; split; try reflexivity; eauto.
Qed.

(** *** C60 *)
Theorem C60_bounded : forall d w me m,
  receive (3 + d) w me m = receive 3 w me m /\
  forall w' o tr, receive (3 + d) w me m = Ok (w', o, tr) -> o <> TooDeep /\ (1 <= length tr <= 4)%nat.
Proof.
  intros d w me m. split; [apply receive_depth|]. intros w' o tr H. pose proof (receive_bounded _ _ _ _ _ _ _ d w me m w' o tr H) as [A B].
  split; [exact A|]. split; [|exact B]. apply receive_inv in H. destruct H as [P [M [tr1 [_ [_ [_ ->]]]]]]. cbn. lia.
Qed.

(** *** C61 *)
(** The first result is only stored; the second one leads to the same world,
    whichever it is, and the intersection is computed from both. *)
Theorem C61_order : forall d w B P c b mt mq at_ aq, nth_error (w_parties w) B = Some P -> pa_role P = RClient c -> cl_rawDataBits c = Some b ->
  cl_t c = None -> cl_q c = None -> result_msg w B P mt MOutput at_ -> result_msg w B P mq MPolynomial aq ->
  exists wt wq,
    receive (S d) w B mt = Ok (wt, Done, [(B, MOutput)]) /\ receive (S d) w B mq = Ok (wq, Done, [(B, MPolynomial)]) /\
    getIntersection wt B = Ok (cl_setcap c) /\ getIntersection wq B = Ok (cl_setcap c) /\
    (forall w', (exists tr, receive (S d) wt B mq = Ok (w', Done, tr)) <-> (exists tr, receive (S d) wq B mt = Ok (w', Done, tr))) /\
    (forall w' tr, receive (S d) wt B mq = Ok (w', Done, tr) ->
       exists core1 vs, intersect (pa_core P) (Some b) (Some (entries_at (w_heap w) (Some at_))) (Some (entries_at (w_heap w) (Some aq))) (w_facts w) = Ok (Some (core1, vs)) /\
         getIntersection w' B = Ok vs).
Proof.
  intros d w B P c b mt mq at_ aq HP HR HB ET EQ Rt Rq.
  destruct (either_order sha rand fuel p canzass berlekamp rbits w B P c b mt mq at_ aq d HP HR HB ET EQ Rt Rq) as [H1 [H2 [H3 H4]]]. cbv zeta in H1, H2, H3, H4.
  eexists. eexists. split; [exact H1|]. split; [exact H2|].
  assert (GI : forall c', getIntersection (put_client w B P c') B = Ok (cl_setcap c')).
  { intros c'. unfold getIntersection, the_party, put_client. cbn [put_party w_set_parties w_parties]. rewrite (nth_upd_same _ _ _ _ HP). reflexivity. }
  split; [exact (GI (cl_set_t c (Some at_)))|]. split; [exact (GI (cl_set_q c (Some aq)))|]. split.
  - intros w'. rewrite H3, H4. split; intros [tr H]; apply bind_ok in H; destruct H as [w2 [E H]]; apply Ok_inj in H; injection H as <- _; rewrite E; eexists; reflexivity.
  - intros w' tr H. rewrite H3 in H. apply bind_ok in H. destruct H as [w2 [E H]]. apply Ok_inj in H. injection H as <- _.
    revert E. unfold try_intersect. unfold the_party, put_client. cbn [put_party w_set_parties w_parties]. rewrite (nth_upd_same _ _ _ _ HP).
    cbn [bind as_client pa_set_role pa_role pa_core w_heap w_facts cl_set_q cl_set_t cl_t cl_q cl_rawDataBits opt_entries]. rewrite HB.
    intros E. apply bind_ok in E. destruct E as [r [HI E]].
    destruct r as [[co vs]|].
    2:{ exfalso. unfold EopsiModel.intersect in HI. apply bind_ok in HI. destruct HI as [pad [_ HI]]. apply bind_ok in HI. destruct HI as [df [_ HI]]. apply bind_ok in HI. destruct HI as [[c1 us] [_ HI]].
        apply bind_ok in HI. destruct HI as [[x vs] [_ HI]]. discriminate. }
    exists co, vs. split; [exact HI|]. apply bind_ok in E. destruct E as [w3 [E3 E]]. apply release_parties in E3, E. destruct E3 as [E3 _]. destruct E as [E _].
    unfold getIntersection, the_party. rewrite E, E3. cbn [put_party w_set_parties w_parties w_set_facts]. rewrite upd_upd, (nth_upd_same _ _ _ _ HP). reflexivity.
Qed.
End W.

Print Assumptions C51_encoding.
Print Assumptions C51_server_decodes.
Print Assumptions C51_nul_ids.
Print Assumptions C51_layout_any.
Print Assumptions C52_three_bytes.
Print Assumptions C52_short_secret.
Print Assumptions C53_only_accepted.
Print Assumptions C53_others_refused.
Print Assumptions C53_outsourcing_accepted.
Print Assumptions C54_strangers.
Print Assumptions C55_self_and_null.
Print Assumptions C56_directory.
Print Assumptions C57_latest_stored.
Print Assumptions C57_by_reference.
Print Assumptions C58_no_data.
Print Assumptions C59_no_second_run.
Print Assumptions C60_bounded.
Print Assumptions C61_order.

(** *** a concrete world for the examples *)
(** two clients (0: id "a", 1: id "b") and a server (2: id "c"), everybody
    knows everybody, both clients have outsourced (messages 5 and 6) *)
Definition ex_nofactor (_ : nat) (_ : list Z) : list (list Z * Z) := [].
Definition ex_bits (_ : nat) : Z := 2 ^ 127 + 99.
Definition ex_hb : hb Z := match new_hb 3 2 (Some ex_algo) with Ok h => h | _ => {| hb_n := 0; hb_k := 0; hb_maxload := 0; hb_buckets := []; hb_algo := None; hb_strint := None |} end.
#[local] Notation ex_exec := (exec_all ex_sha ex_rand 10 61 ex_nofactor ex_nofactor 4 ex_bits).
#[local] Notation ex_receive := (receive ex_sha ex_rand 10 61 ex_nofactor ex_nofactor ex_bits).
Definition ex_setup : list op :=
  [ONewClient ex_hb 61 3 2 5 [97] 77; ONewClient ex_hb 61 3 2 5 [98] 300; ONewServer 61 3 2 5 [99];
   OAuthenticate 0 1; OAuthenticate 0 2; OAuthenticate 1 0; OAuthenticate 1 2; OAuthenticate 2 0; OAuthenticate 2 1; OAuthenticate 2 2;
   ONewMessage (mkMsg [97] MOutsourcing None 8); ONewMessage (mkMsg [98] MOutsourcing None 8);
   OSetRawData 0 (Some [0; 1; 4]) 3 3 1; OSetRawData 1 (Some [1; 3; 0]) 3 3 1; OMsgData 5 (Some 0%nat) 15; OMsgData 6 (Some 1%nat) 15;
   OSend 2 (Some 5%nat); OSend 2 (Some 6%nat)].
Definition ex_end (l : list op) : world := match ex_exec (empty_world 0 0 0) (ex_setup ++ l) with Ok w => w | _ => empty_world 0 0 0 end.
Definition ex_id (w : world) (i : nat) : option (list Z) := match nth_error (w_parties w) i with Some P => Some (pa_id P) | None => None end.
(** how a delivery ends, and who was called *)
Definition ex_deliver (w : world) (me m : nat) : res (outcome * list (nat * mtype)) := match ex_receive 4 w me m with Ok (_, o, tr) => Ok (o, tr) | Exit c => Exit c | UB u => UB u | Abort => Abort | NoFuel => NoFuel end.
Definition ex_cloud_request (key : Z) : list cell := match cloud_request [97] [98] key with Ok cs => cs | _ => [] end.
Definition ex_client_request (secret : Z) : list cell := match client_request_bytes [98] secret with Ok cs => cs | _ => [] end.

(** the cloud request of client 0 about client 1 (message 7, bytes in block 2) is carried out *)
Example C51_nonvacuous : nul_free [97] /\ nul_free [98] /\ 0 <= 2 ^ 127 + 99 < 2 ^ 128 /\
  (let w := ex_end [ONewBytes (ex_cloud_request (2 ^ 127 + 99)); ONewMessage (mkMsg [97] MCloudRequest (Some 2%nat) 21)] in
   ex_deliver w 2 7 = Ok (Done, [(2%nat, MCloudRequest); (1%nat, MOutput)])).
Proof. split; [repeat constructor; lia|]. split; [repeat constructor; lia|]. split; [lia|]. vm_compute. reflexivity. Qed.
(** client 0 is renamed to "a\000" before the server registers it under that id *)
Example C51_layout_nonvacuous : c_part [97; 0; 99] [97] /\ c_part [98] [98] /\
  match cloud_request [97; 0; 99] [98] 5 with Ok cs => firstn 6 cs = [Some 97; Some 0; None; None; Some 98; Some 0] | _ => False end.
Proof.
  split; [|split; [|reflexivity]]; (split; [repeat constructor; discriminate|]); [right; exists [99]; reflexivity|left; reflexivity].
Qed.
Example C51_nul_nonvacuous :
  let w := ex_end [OSetId 0 [97; 0]; OAuthenticate 2 0; ONewBytes (ex_cloud_request (2 ^ 127 + 99)); ONewMessage (mkMsg [97; 0] MCloudRequest (Some 2%nat) 21)] in
  ex_id w 0 = Some [97; 0] /\ ex_deliver w 2 7 = Ok (Thrown IdMismatch, [(2%nat, MCloudRequest)]).
Proof. vm_compute. auto. Qed.
(** client 1 asks client 0: with a secret of two bytes the run ends, with one byte it does not *)
Example C52_nonvacuous :
  (let w := ex_end [ONewBytes (ex_client_request 300); ONewMessage (mkMsg [98] MClientRequest (Some 2%nat) 5)] in
   ex_deliver w 0 7 = Ok (Done, [(0%nat, MClientRequest); (2%nat, MCloudRequest); (1%nat, MOutput); (1%nat, MPolynomial)])) /\
  (let w := ex_end [ONewBytes (ex_client_request 255); ONewMessage (mkMsg [98] MClientRequest (Some 2%nat) 5)] in
   ex_deliver w 0 7 = UB OutOfBounds).
Proof. split; vm_compute; reflexivity. Qed.
(** accepted: a second outsourcing; refused: an outsourcing message to a client, an output from a client, an unknown type *)
Example C53_nonvacuous :
  ex_deliver (ex_end []) 2 5 = Ok (Done, [(2%nat, MOutsourcing)]) /\ ex_deliver (ex_end []) 1 5 = Ok (Thrown NotAuthorised, [(1%nat, MOutsourcing)]) /\
  ex_deliver (ex_end [OMsgType 5 MOutput]) 1 5 = Ok (Thrown NotAuthorised, [(1%nat, MOutput)]) /\
  ex_deliver (ex_end [OSetType 0 TServer]) 2 5 = Ok (Thrown BetweenServers, [(2%nat, MOutsourcing)]).
Proof. repeat split; vm_compute; reflexivity. Qed.
(** the same message under an id nobody knows *)
Example C54_nonvacuous :
  ex_deliver (ex_end [OMsgParty 5 [120]]) 2 5 = Ok (Thrown NotAuthorised, [(2%nat, MOutsourcing)]) /\ ex_deliver (ex_end [OMsgParty 5 [120]]) 1 5 = UB NullDeref.
Proof. split; vm_compute; reflexivity. Qed.
Example C55_nonvacuous : ex_id (ex_end []) 0 = Some [97] /\ ex_deliver (ex_end []) 0 5 = Ok (Thrown SelfMessage, [(0%nat, MOutsourcing)]).
Proof. split; vm_compute; reflexivity. Qed.
(** a program that registers four times: once itself (ignored), twice the same
    id.  The log the theorem speaks about. *)
Example C56_nonvacuous :
  let l := [OAuthenticate 0 0; OAuthenticate 0 1; OSetId 2 [98]; OAuthenticate 0 2; OAuthenticate 1 2] in
  let w := ex_end [] in
  log_of ex_sha ex_rand 10 61 ex_nofactor ex_nofactor 4 ex_bits (fun w o => registers w 0 o) w l = [([98], 1%nat); ([98], 2%nat)] /\
  (exists P, nth_error (w_parties w) 0 = Some P /\ getPartyById P [97] = None /\ getPartyById P [98] = Some 1%nat) /\
  (exists w' P', ex_exec w l = Ok w' /\ nth_error (w_parties w') 0 = Some P' /\ getPartyById P' [98] = Some 2%nat).
Proof.
  cbv zeta. split; [vm_compute; reflexivity|]. split.
  - destruct (nth_error (w_parties (ex_end [])) 0) as [P|] eqn:E; [|vm_compute in E; discriminate]. exists P. split; [reflexivity|].
    vm_compute in E. injection E as <-. split; reflexivity.
  - destruct (ex_exec (ex_end []) [OAuthenticate 0 0; OAuthenticate 0 1; OSetId 2 [98]; OAuthenticate 0 2; OAuthenticate 1 2]) as [w'| | | |] eqn:E; try (vm_compute in E; discriminate).
    exists w'. vm_compute in E. apply Ok_inj in E. subst w'. eexists. split; [reflexivity|]. split; reflexivity.
Qed.
(** client 0 outsources again with another message (7); the server then holds
    message 7 for "a" and message 6 for "b" *)
Example C57_nonvacuous :
  let l := [ONewMessage (mkMsg [97] MOutsourcing (Some 1%nat) 15); OSend 2 (Some 7%nat); OSend 1 (Some 7%nat)] in
  log_of ex_sha ex_rand 10 61 ex_nofactor ex_nofactor 4 ex_bits (fun w o => outsources ex_sha ex_rand 10 61 ex_nofactor ex_nofactor 4 ex_bits w 2 o) (empty_world 0 0 0) (ex_setup ++ l)
    = [([97], 5%nat); ([98], 6%nat); ([97], 7%nat)] /\
  (exists P s, nth_error (w_parties (ex_end l)) 2 = Some P /\ pa_role P = RServer s /\ map_find (sv_stored s) [97] = Some (Some 7%nat) /\ map_find (sv_stored s) [98] = Some (Some 6%nat)).
Proof.
  cbv zeta. split; [vm_compute; reflexivity|].
  destruct (nth_error (w_parties (ex_end [ONewMessage (mkMsg [97] MOutsourcing (Some 1%nat) 15); OSend 2 (Some 7%nat); OSend 1 (Some 7%nat)])) 2) as [P|] eqn:E; [|vm_compute in E; discriminate].
  exists P. vm_compute in E. injection E as <-. eexists. split; [reflexivity|]. split; [reflexivity|]. split; reflexivity.
Qed.
(** by reference: after the sender lets message 5 point to a shorter matrix or
    to nothing, the cloud request fails although the data were outsourced *)
Example C57_reference_nonvacuous :
  let req := [ONewBytes (ex_cloud_request (2 ^ 127 + 99)); ONewMessage (mkMsg [97] MCloudRequest (Some 2%nat) 21)] in
  ex_deliver (ex_end req) 2 7 = Ok (Done, [(2%nat, MCloudRequest); (1%nat, MOutput)]) /\
  ex_deliver (ex_end (OMsgData 5 None 8 :: req)) 2 7 = UB NullDeref /\
  ex_deliver (ex_end (OMsgData 5 (Some 1%nat) 15 :: req)) 2 7 = Ok (Done, [(2%nat, MCloudRequest); (1%nat, MOutput)]).
Proof. repeat split; vm_compute; reflexivity. Qed.
(** the same request when client 1 has outsourced nothing *)
Example C58_nonvacuous :
  match ex_exec (empty_world 0 0 0) (firstn 17 ex_setup ++ [ONewBytes (ex_cloud_request (2 ^ 127 + 99)); ONewMessage (mkMsg [97] MCloudRequest (Some 2%nat) 21)]) with
  | Ok w => ex_deliver w 2 7 = UB NullDeref
  | _ => False
  end.
Proof. vm_compute. reflexivity. Qed.
(** a second request after a complete run *)
Example C59_nonvacuous :
  let req := [ONewBytes (ex_client_request 300); ONewMessage (mkMsg [98] MClientRequest (Some 2%nat) 5); OSend 0 (Some 7%nat)] in
  ex_deliver (ex_end req) 0 7 = UB Dangling /\ match ex_exec (ex_end []) req with Ok _ => True | _ => False end.
Proof. split; vm_compute; [reflexivity|exact I]. Qed.
(** a run with four deliveries, the maximum *)
Example C60_nonvacuous :
  let w := ex_end [ONewBytes (ex_client_request 300); ONewMessage (mkMsg [98] MClientRequest (Some 2%nat) 5)] in
  match ex_receive 3 w 0 7 with Ok (_, o, tr) => o = Done /\ length tr = 4%nat | _ => False end.
Proof. vm_compute. auto. Qed.
(** results for client 1 in both orders (message 7: an output, 8: a polynomial) *)
Example C61_nonvacuous :
  let pre := [ONewMessage (mkMsg [99] MOutput (Some 0%nat) 1); ONewMessage (mkMsg [97] MPolynomial (Some 1%nat) 1)] in
  ex_exec (ex_end (pre ++ [OSend 1 (Some 7%nat)])) [OSend 1 (Some 8%nat)] = ex_exec (ex_end (pre ++ [OSend 1 (Some 8%nat)])) [OSend 1 (Some 7%nat)] /\
  match ex_exec (ex_end (pre ++ [OSend 1 (Some 7%nat)])) [OSend 1 (Some 8%nat)] with
  | Ok w => exists P c, nth_error (w_parties w) 1 = Some P /\ pa_role P = RClient c /\ cl_t c = Some 0%nat /\ cl_q c = Some 1%nat /\ nth_error (w_heap w) 0 = Some Freed
  | _ => False end.
Proof. split; vm_compute; [reflexivity|]. eexists. eexists. repeat split. Qed.

(** *** C83, on the objects of a program *)
Section Setters.
Variable sha : list Z -> list Z.
Variable rand : nat -> Z.
Variable fuel : nat.
Variable p : Z.
Variables canzass berlekamp : nat -> list Z -> list (list Z * Z).
Variable hw : nat.
Variable rbits : nat -> Z.
#[local] Notation exec_all := (exec_all sha rand fuel p canzass berlekamp hw rbits).
Definition set_op (i : nat) (s : setter) : op := match s with SetF f => OSetFieldsize i f | SetD d => OSetDegree i d end.
Lemma set_ops l : forall w i id T auth f L h d pos role,
  nth_error (w_parties w) i = Some (mkParty id T auth (new_core f L h d pos) role) ->
  exec_all w (map (set_op i) l) = Ok (put_party w i (mkParty id T auth (new_core (last_field f l) L h (last_degree d l) pos) role)).
Proof.
  induction l as [|s l IH]; intros w i id T auth f L h d pos role H.
  - cbn [map WorldModel.exec_all last_field last_degree fold_left]. f_equal. unfold put_party. destruct w as [ps ms hp a b c]. cbn [w_parties w_set_parties] in *.
    unfold w_set_parties. cbn. f_equal. clear -H. revert i H. induction ps as [|P ps IH]; intros [|i] H; cbn in *; try discriminate; [congruence|]. f_equal. apply IH. exact H.
  - cbn [map WorldModel.exec_all]. destruct s as [g|e]; cbn [set_op exec]; unfold on_party; unfold the_party; rewrite H; cbn [bind];
      unfold pa_set_core; cbn [pa_id pa_type pa_parties pa_core pa_role].
    + change (setFieldsize (new_core f L h d pos) g) with (new_core g L h d pos).
      rewrite (IH _ i id T auth g L h d pos role); [|unfold put_party; cbn [w_parties w_set_parties]; eapply nth_upd_same; exact H].
      unfold put_party. cbn [w_parties w_set_parties]. unfold w_set_parties. cbn [w_parties w_msgs w_heap w_rand w_draws w_facts]. rewrite upd_upd. reflexivity.
    + change (setDegree (new_core f L h d pos) e) with (new_core f L h e pos).
      rewrite (IH _ i id T auth f L h e pos role); [|unfold put_party; cbn [w_parties w_set_parties]; eapply nth_upd_same; exact H].
      unfold put_party. cbn [w_parties w_set_parties]. unfold w_set_parties. cbn [w_parties w_msgs w_heap w_rand w_draws w_facts]. rewrite upd_upd. reflexivity.
Qed.

(** a server: as if constructed with the last values *)
Theorem C83_server : forall w f L h d id l,
  exec_all w (ONewServer f L h d id :: map (set_op (length (w_parties w))) l) =
  exec_all w [ONewServer (last_field f l) L h (last_degree d l) id].
Proof.
  intros. cbn [WorldModel.exec_all exec new_server fst bind].
  rewrite (set_ops l _ (length (w_parties w)) id TServer [] f L h d 0 (RServer (mkServer [] (length (w_msgs w)))));
    [|cbn [w_parties w_set_msgs w_set_parties]; apply nth_snoc].
  f_equal. unfold put_party, w_set_msgs, w_set_parties. cbn [w_parties w_msgs w_heap w_rand w_draws w_facts].
  f_equal. exact (upd_mid (w_parties w) [] _ _).
Qed.

(** a client: the same, but for its mask generator, which keeps the field
    size of the constructor *)
Theorem C83_client : forall w table f L h d id s l,
  let i := length (w_parties w) in
  let w1 := fst (new_client w table (last_field f l) L h (last_degree d l) id s) in
  exists P c, nth_error (w_parties w1) i = Some P /\ pa_role P = RClient c /\
  exec_all w (ONewClient table f L h d id s :: map (set_op i) l) =
    Ok (put_party w1 i (pa_set_role P (RClient
      (mkClient (cl_rawData c) (cl_rawDataSize c) (cl_rawDataBits c) (cl_blinded c) (cl_secret c) (cl_table c)
         (cl_q c) (cl_t c) (new_zpprf f 0) (cl_toCloud c) (cl_toClient c) (cl_setcap c))))).
Proof.
  intros w table f L h d id s l i w1. eexists _, _. split; [subst w1 i; cbn [new_client fst w_parties w_set_msgs w_set_parties]; apply nth_snoc|].
  split; [reflexivity|]. cbn [WorldModel.exec_all exec new_client fst bind].
  rewrite (set_ops l _ i id TClient [] f L h d 0
    (RClient (mkClient [] 0 None None s table None None (new_zpprf f 0) (length (w_msgs w)) (S (length (w_msgs w))) [])));
    [|cbn [w_parties w_set_msgs w_set_parties]; apply nth_snoc].
  f_equal. subst w1 i. unfold put_party, w_set_msgs, w_set_parties, new_client, pa_set_role. cbn.
  f_equal. rewrite !upd_mid. reflexivity.
Qed.

(** so after a change to a wider field the masks only cover the bits of the
    constructor's field *)
Theorem C83_narrow_masks : forall f f' pos seed index, is_sha sha -> 1 < f -> num_bits f + 7 < 2 ^ 64 -> 0 < p -> num_bits f < num_bits f' ->
  exists st g, zp_generate sha rand p fuel (new_zpprf f pos) seed index (num_bits f') = Ok (st, g) /\ 0 <= g < 2 ^ num_bits f.
Proof.
  intros f f' pos seed index HS Hf Hb Hp Hlt.
  destruct (zp_generate_ok sha HS rand p fuel (new_zpprf f pos) seed index (num_bits f')) as [st [E _]].
  - exact (new_prf_wf pos).
  - unfold mod_ok; cbn [new_zpprf zp_modulo]; split; [lia|exact Hb].
  - apply num_bits_nonneg.
  - exists st. eexists. split; [exact E|]. unfold zp_value, zp_width. cbn [new_zpprf zp_modulo].
    destruct (Z.eqb_spec (num_bits f') 0) as [Z0|_]; [pose proof (num_bits_nonneg f); lia|]. rewrite Z.min_r by lia.
    pose proof (prf_value_range sha seed index (num_bits f) (num_bits_nonneg f)) as R.
    pose proof (Z.mod_pos_bound (prf_value sha seed index (num_bits f)) p Hp). pose proof (Z.mod_le (prf_value sha seed index (num_bits f)) p (proj1 R) Hp). lia.
Qed.
End Setters.
Print Assumptions C83_server.
Print Assumptions C83_client.
Print Assumptions C83_narrow_masks.

Example C83_nonvacuous_masks : num_bits 61 < num_bits 1009 /\ 1 < 61 /\ num_bits 61 + 7 < 2 ^ 64.
Proof. vm_compute. repeat split; congruence. Qed.
