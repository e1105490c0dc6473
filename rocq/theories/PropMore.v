(** Properties C85-C88: keys, message objects, the choice of the server, clients without data. *)
From Verif Require Import Base Spec Lib NtlMiss NtlMissProofs StrIntModel HashBucketsModel HashBucketsSpec HashBucketsProofs.
From Verif Require Import PRFModel PRFSpec PRFProofs PolyModel PolySpec EopsiModel EopsiSpec EopsiBlind EopsiRun EopsiFacts PropEopsi.
From Verif Require Import WorldModel WorldSpec WorldProofs WorldFrame WorldRun WorldMore WorldSim WorldLaws WorldDir PropWorld.
From Coq Require Import Lia Znumtheory.

(** *** C85 *)
(** The helper's temporary key is the first value of NTL::RandomBits that has
    128 bits: shorter ones are drawn and dropped. *)
Theorem C85_key : forall rbits fuel k,
  (forall key k', draw_key rbits fuel k = Ok (key, k') <->
     exists n, (n < fuel)%nat /\ k' = S (k + n) /\ key = rbits (k + n)%nat /\ 128 <= num_bits key /\
       forall i, (i < n)%nat -> num_bits (rbits (k + i)%nat) < 128) /\
  ((forall n, (n < fuel)%nat -> num_bits (rbits (k + n)%nat) < 128) -> draw_key rbits fuel k = NoFuel) /\
  (* with values of at most 128 bits the key uses all of them *)
  ((forall i, 0 <= rbits i < 2 ^ 128) -> forall key k', draw_key rbits fuel k = Ok (key, k') -> 2 ^ 127 <= key < 2 ^ 128).
Proof.
  intros rbits fuel k.
  assert (A : forall key k', draw_key rbits fuel k = Ok (key, k') <->
     exists n, (n < fuel)%nat /\ k' = S (k + n) /\ key = rbits (k + n)%nat /\ 128 <= num_bits key /\
       forall i, (i < n)%nat -> num_bits (rbits (k + i)%nat) < 128).
  { revert k. induction fuel as [|f IH]; intros k key k'; cbn [draw_key]; [split; [discriminate|intros [n [H _]]; lia]|].
    unfold DEFAULT_KEY_BITSIZE. destruct (Z.ltb_spec (num_bits (rbits k)) 128) as [L|L].
    - rewrite IH. split.
      + intros [n [Hn [-> [-> [B F]]]]]. exists (S n). replace (k + S n)%nat with (S k + n)%nat by lia. repeat split; try lia; try assumption.
        intros [|i] Hi; [rewrite Nat.add_0_r; exact L|]. replace (k + S i)%nat with (S k + i)%nat by lia. apply F. lia.
      + intros [[|n] [Hn [-> [-> [B F]]]]]; [rewrite Nat.add_0_r in B; lia|]. exists n. replace (k + S n)%nat with (S k + n)%nat in * by lia. repeat split; try lia; try assumption.
        intros i Hi. replace (S k + i)%nat with (k + S i)%nat by lia. apply F. lia.
    - split.
      + intros E. apply Ok_inj in E. injection E as <- <-. exists O. rewrite Nat.add_0_r. repeat split; try lia.
      + intros [[|n] [Hn [-> [-> [B F]]]]]; [rewrite Nat.add_0_r; reflexivity|]. exfalso. specialize (F O ltac:(lia)). rewrite Nat.add_0_r in F. lia. }
  split; [exact A|]. split.
  - intros H. clear A. revert k H. induction fuel as [|f IH]; intros k H; [reflexivity|]. cbn [draw_key]. unfold DEFAULT_KEY_BITSIZE.
    pose proof (H O ltac:(lia)) as H0. rewrite Nat.add_0_r in H0. destruct (Z.ltb_spec (num_bits (rbits k)) 128); [|lia].
    apply IH. intros n Hn. replace (S k + n)%nat with (k + S n)%nat by lia. apply H. lia.
  - intros R key k' H. apply A in H. destruct H as [n [_ [_ [-> [B _]]]]]. specialize (R (k + n)%nat). split; [|lia].
    unfold num_bits in B. set (z := rbits (k + n)%nat) in *. destruct (Z.eqb_spec z 0) as [E|E]; [lia|].
    rewrite Z.abs_eq in B by lia. assert (L : 127 <= Z.log2 z) by lia. apply Z.log2_le_pow2; lia.
Qed.
Print Assumptions C85_key.
Example C85_nonvacuous : draw_key (fun k => match k with O => 99 | _ => 2 ^ 127 + 99 end) 10 0 = Ok (2 ^ 127 + 99, 2%nat) /\
  draw_key (fun _ => 2 ^ 127 - 1) 10 0 = NoFuel.
Proof. split; vm_compute; reflexivity. Qed.

(** *** C86 *)
(** A message object holds the last id, type and data that were set; a null
    pointer makes its length 8, whatever length was given. *)
Inductive mcall := CParty (id : list Z) | CType (t : mtype) | CData (d : option nat) (len : Z).
Definition call (M : message) (c : mcall) : message :=
  match c with CParty id => m_setPartyId M id | CType t => m_setType M t | CData d len => m_setData M d len end.
(** the argument of the last call that [f] picks *)
Fixpoint last_of {A} (f : mcall -> option A) (l : list mcall) (a : A) : A :=
  match l with [] => a | c :: t => last_of f t (match f c with Some b => b | None => a end) end.
Theorem C86_message : forall l M, let M' := fold_left call l M in
  m_party M' = last_of (fun c => match c with CParty id => Some id | _ => None end) l (m_party M) /\
  m_type M' = last_of (fun c => match c with CType t => Some t | _ => None end) l (m_type M) /\
  (m_data M', m_len M') = last_of (fun c => match c with CData None _ => Some (None, 8) | CData (Some a) n => Some (Some a, n) | _ => None end) l (m_data M, m_len M).
Proof.
  induction l as [|c l IH]; intros M; cbn [fold_left last_of]; [auto|]. destruct (IH (call M c)) as [A [B C]]. cbv zeta. rewrite A, B, C.
  destruct c as [id|t|[a|] n]; auto.
Qed.
(** a message as constructed without arguments *)
Theorem C86_new : m_party new_message = [] /\ m_type new_message = MUnknown /\ m_data new_message = None /\ m_len new_message = 8.
Proof. auto. Qed.
Print Assumptions C86_message.
Print Assumptions C86_new.
Example C86_nonvacuous : let M := fold_left call [CData (Some 3%nat) 20; CType MOutput; CParty [97]; CData None 20] new_message in
  m_len M = 8 /\ m_type M = MOutput /\ m_party M = [97] /\ m_data M = None.
Proof. repeat split. Qed.

Section W.
Variable sha : list Z -> list Z.
Variable rand : nat -> Z.
Variable fuel : nat.
Variable p : Z.
Variables canzass berlekamp : nat -> list Z -> list (list Z * Z).
Variable hw : nat.
Variable rbits : nat -> Z.
#[local] Notation receive := (receive sha rand fuel p canzass berlekamp rbits).
#[local] Notation exec_all := (exec_all sha rand fuel p canzass berlekamp hw rbits).

(** *** C87 *)
(** In every program: the server a helper asks is, of the parties it has
    authenticated that are servers, the one with the least id. *)
Theorem C87_smallest_server : forall l pos draws facts w d me m P c M w' o s t rest,
  exec_all (empty_world pos draws facts) l = Ok w ->
  nth_error (w_parties w) me = Some P -> nth_error (w_msgs w) m = Some M -> pa_role P = RClient c -> m_type M = MClientRequest ->
  receive (S d) w me m = Ok (w', o, (me, MClientRequest) :: (s, t) :: rest) ->
  exists id Q, getPartyById P id = Some s /\ nth_error (w_parties w) s = Some Q /\ pa_type Q = TServer /\
    forall id' s' Q', getPartyById P id' = Some s' -> nth_error (w_parties w) s' = Some Q' -> pa_type Q' = TServer -> str_cmp id id' <> Gt.
Proof.
  intros l pos draws facts w d me m P c M w' o s t rest HE HP HM HR HT H.
  assert (AO : ordered (pa_parties P)).
  { apply (Forall_nth (fun P => ordered (pa_parties P)) (w_parties w) me P); [|exact HP]. apply (exec_all_ordered _ _ _ _ _ _ _ _ l _ w HE). constructor. }
  pose proof (request_server sha rand fuel p canzass berlekamp rbits d w me m P c M w' o _ s t rest HP HM HR HT H eq_refl) as HF.
  destruct (find_cloud_first w _ s AO HF) as [id [Q [I1 [N1 [T1 R]]]]]. exists id, Q.
  split; [apply (ordered_find _ AO); exact I1|]. split; [exact N1|]. split; [exact T1|].
  intros id' s' Q' G' N' T' L. rewrite str_cmp_antisym in L. destruct (str_cmp id' id) eqn:E; try discriminate.
  apply (ordered_find _ AO) in G'. destruct (R id' s' G' E) as [Q1 [N2 T2]]. congruence.
Qed.
(** A helper that knows no server ends the process with exit code 2. *)
Theorem C87_no_server : forall d w me m P c M x Q a cs secret key k MC,
  nth_error (w_parties w) me = Some P -> nth_error (w_msgs w) m = Some M -> pa_role P = RClient c ->
  m_type M = MClientRequest -> m_party M <> pa_id P -> getPartyById P (m_party M) = Some x -> nth_error (w_parties w) x = Some Q ->
  hasAuthenticatedId P (pa_id Q) = true -> pa_type Q = TClient -> nul_free (pa_id P) -> nul_free (pa_id Q) ->
  m_data M = Some a -> nth_error (w_heap w) a = Some (BBytes cs) -> client_request_bytes (pa_id Q) secret = Ok cs -> 0 <= secret ->
  draw_key rbits fuel (w_draws w) = Ok (key, k) -> 0 <= key ->
  nth_error (w_msgs w) (cl_toCloud c) = Some MC ->
  (forall id s, In (id, s) (pa_parties P) -> exists Q', nth_error (w_parties w) s = Some Q' /\ pa_type Q' = TClient) ->
  receive (S d) w me m = Exit 2.
Proof.
  intros d w me m P c M x Q a cs secret key k MC HP HM HR HT NE HG HQ HA HTQ F1 F2 ED HH HCB HS HK HK0 HMC HN.
  rewrite (client_request_bytes_ok (pa_id Q) secret F2 HS) in HCB. apply Ok_inj in HCB.
  destruct (client_request_reads (pa_id Q) secret F2 HS) as [R1 _]. rewrite HCB in R1.
  rewrite (receive_S _ _ _ _ _ _ _ d w me m P M HP HM), (step_known _ _ _ _ _ _ _ d w me m P M x Q NE HG HQ), HA, HR, HT, HTQ. cbn [authorised andb].
  unfold client_request. rewrite ED. cbn [bytes_at]. rewrite HH. cbn [bind]. cbv zeta in R1. rewrite R1. cbn [bind].
  rewrite (proj2 (the_party_ok w x Q) HQ). cbn [bind]. rewrite str_eqb_refl. cbn [negb]. rewrite HK. cbn [bind].
  rewrite (cloud_request_ok _ _ key F1 F2 HK0). cbn [bind alloc]. unfold the_msg. cbn [w_set_heap w_set_draws w_msgs]. rewrite HMC. cbn [bind].
  rewrite find_cloud_none; [reflexivity|]. intros id s I. destruct (HN id s I) as [Q' [N' T']]. exists Q'. split; [exact N'|exact T'].
Qed.

(** *** C88 *)
(** setRawData without data changes nothing; data outsourced by such a client
    (a null pointer) make every request about it fail: no delivery of a request
    to the server that stored them ends normally. *)
Theorem C88_ignored : forall w i raw size bits nt P c, nth_error (w_parties w) i = Some P -> pa_role P = RClient c ->
  raw = None \/ size = O -> setRawData sha rand fuel p hw w i raw size bits nt = Ok w.
Proof.
  intros w i raw size bits nt P c HP HR HN. unfold setRawData. rewrite (proj2 (the_party_ok w i P) HP). cbn [bind]. unfold as_client. rewrite HR. cbn [bind].
  destruct HN as [E|E]; rewrite E; [reflexivity|]. destruct raw; reflexivity.
Qed.
Theorem C88_null_data : forall d w me m P s M h Q a0 cs partner key a b MA MB w' o tr,
  nth_error (w_parties w) me = Some P -> nth_error (w_msgs w) m = Some M -> pa_role P = RServer s -> m_type M = MCloudRequest ->
  getPartyById P (m_party M) = Some h -> nth_error (w_parties w) h = Some Q ->
  nul_free (pa_id Q) -> nul_free partner -> 0 <= key < 2 ^ 128 ->
  m_data M = Some a0 -> nth_error (w_heap w) a0 = Some (BBytes cs) -> cloud_request (pa_id Q) partner key = Ok cs ->
  map_find (sv_stored s) (pa_id Q) = Some (Some a) -> map_find (sv_stored s) partner = Some (Some b) ->
  nth_error (w_msgs w) a = Some MA -> nth_error (w_msgs w) b = Some MB -> m_data MA = None \/ m_data MB = None ->
  (0 < co_length (pa_core P))%nat -> (0 < co_degree (pa_core P))%nat ->
  receive (S d) w me m = Ok (w', o, tr) -> exists r, o = Thrown r.
Proof.
  intros d w me m P s M h Q a0 cs partner key a b MA MB w' o tr HP HM HR HT HG HQ F1 F2 HK ED HA EC SA SB HMA HMB HN HL HD H.
  destruct o as [|r|]; [|eexists; reflexivity|].
  all: destruct (C51_server_decodes sha rand fuel p canzass berlekamp rbits d w me m P s M h Q a0 cs partner key w' _ tr HP HM HR HT HG HQ F1 F2 HK ED HA EC H ltac:(discriminate))
    as [a' [b' [MA' [MB' [co [t [to [w3 [w4 [tr' [SA' [SB' [HMA' [HMB' [HC _]]]]]]]]]]]]]]];
    assert (a' = a) by congruence; assert (b' = b) by congruence; subst a' b'; assert (MA' = MA) by congruence; assert (MB' = MB) by congruence; subst MA' MB';
    exfalso; destruct (computeTOrQ_reads sha rand fuel p canzass berlekamp hw rbits _ _ _ _ _ HC HL HD) as [x [y [X Y]]]; destruct HN as [E|E]; [rewrite E in X; discriminate|rewrite E in Y; discriminate].
Qed.
End W.
Print Assumptions C87_smallest_server.
Print Assumptions C87_no_server.
Print Assumptions C88_ignored.
Print Assumptions C88_null_data.
(** two servers, ids "c" (party 2) and "B" (party 3); client 0 knows both; the
    data are with "c", so the request, sent to "B", makes it read a null pointer;
    with "d" for the second one, the run ends well *)
Definition two_servers (id : list Z) : list op :=
  [ONewServer 61 3 2 5 id; OAuthenticate 0 3; OAuthenticate 3 0; OAuthenticate 3 1; OAuthenticate 1 3;
   ONewBytes (ex_client_request 300); ONewMessage (mkMsg [98] MClientRequest (Some 2%nat) 5)].
Example C87_nonvacuous :
  ex_deliver (ex_end (two_servers [66])) 0 8 = UB NullDeref /\
  ex_deliver (ex_end (two_servers [100])) 0 8 = Ok (Done, [(0%nat, MClientRequest); (2%nat, MCloudRequest); (1%nat, MOutput); (1%nat, MPolynomial)]) /\
  match exec_all ex_sha ex_rand 10 61 ex_nofactor ex_nofactor 4 ex_bits (empty_world 0 0 0) (ex_setup ++ two_servers [100]) with Ok _ => True | _ => False end.
Proof. split; [vm_compute; reflexivity|]. split; [vm_compute; reflexivity|]. vm_compute. exact I. Qed.
(** client 0 forgets the server's type *)
Example C87_no_server_nonvacuous :
  ex_deliver (ex_end [OSetType 2 TClient; ONewBytes (ex_client_request 300); ONewMessage (mkMsg [98] MClientRequest (Some 2%nat) 5)]) 0 7 = Exit 2.
Proof. vm_compute. reflexivity. Qed.
(** the data of client 0 outsourced as a null pointer *)
Example C88_nonvacuous :
  ex_deliver (ex_end [OSetRawData 0 None 3 3 1; OMsgData 5 None 0; ONewBytes (ex_cloud_request (2 ^ 127 + 99)); ONewMessage (mkMsg [97] MCloudRequest (Some 2%nat) 21)]) 2 7 = UB NullDeref.
Proof. vm_compute. reflexivity. Qed.
