(** Properties C105-C106: the end of the objects' lives. *)
From Verif Require Import Base Spec Lib NtlMiss NtlMissProofs StrIntModel HashBucketsModel HashBucketsSpec HashBucketsProofs.
From Verif Require Import PRFModel PRFSpec PRFProofs PolyModel PolySpec EopsiModel EopsiSpec EopsiProofs EopsiBlind EopsiRun EopsiFacts PropEopsi.
From Verif Require Import WorldModel WorldSpec WorldProofs WorldFrame WorldRun WorldMore WorldSim WorldLaws WorldDir PropWorld PropRun LifeModel LifeProofs PropMore.
From Coq Require Import Lia Znumtheory.

Section W.
Variable sha : list Z -> list Z.
Variable rand : nat -> Z.
Variable fuel : nat.
Variable p : Z.
Variables canzass berlekamp : nat -> list Z -> list (list Z * Z).
Variable hw : nat.
Variable rbits : nat -> Z.
#[local] Notation receive := (receive sha rand fuel p canzass berlekamp rbits).
#[local] Notation life_all := (life_all sha rand fuel p canzass berlekamp hw rbits).

(** *** C105 *)
(** Outsourcing copies nothing: once the client object is destroyed, and
    whatever the program does afterwards (constructing the client anew and
    registering it included), a request to a server whose stored message for one
    of the two clients still points to the destroyed client's blinded data makes
    the server read freed memory. *)
Theorem C105_outsourced_data_die : forall d w i w1 l w2 P0 c gone me m P s M h Q a0 cs partner key x y MA MB,
  is_sha sha -> 1 < p ->
  nth_error (w_parties w) i = Some P0 -> pa_role P0 = RClient c -> cl_blinded c = Some gone ->
  destroy_client w i = Ok w1 -> life_all w1 l = Ok w2 ->
  (* a well-formed request of a registered client [Q] about [partner] reaches server [me] *)
  nth_error (w_parties w2) me = Some P -> nth_error (w_msgs w2) m = Some M -> pa_role P = RServer s -> m_type M = MCloudRequest ->
  m_party M <> pa_id P -> getPartyById P (m_party M) = Some h -> nth_error (w_parties w2) h = Some Q -> hasAuthenticatedId P (pa_id Q) = true -> pa_type Q = TClient ->
  nul_free (pa_id Q) -> nul_free partner -> 0 <= key < 2 ^ 128 ->
  m_data M = Some a0 -> nth_error (w_heap w2) a0 = Some (BBytes cs) -> cloud_request (pa_id Q) partner key = Ok cs ->
  (* what the server has stored *)
  map_find (sv_stored s) (pa_id Q) = Some (Some x) -> map_find (sv_stored s) partner = Some (Some y) ->
  nth_error (w_msgs w2) x = Some MA -> nth_error (w_msgs w2) y = Some MB ->
  core_ok (pa_core P) -> (0 < co_length (pa_core P))%nat -> (0 < co_degree (pa_core P))%nat ->
  m_data MA = Some gone \/
  m_data MB = Some gone /\ (exists other mat v, m_data MA = Some other /\ nth_error (w_heap w2) other = Some (BMat mat) /\ entry mat 0 0 = Ok v) ->
  receive (S d) w2 me m = UB Dangling.
Proof.
  intros d w i w1 l w2 P0 c gone me m P s M h Q a0 cs partner key x y MA MB HSh Hp HP0 HR0 HBD HD HL HP HM HR HT NE HG HQ HA HTQ F1 F2 HK ED HAD EC SA SB HMA HMB K KL KD HX.
  assert (G1 : LifeProofs.gone gone w1).
  { apply destroy_inv in HD. destruct HD as [P1 [c1 [HP1 [HR1 HD]]]]. assert (P1 = P0) by congruence. subst P1. assert (c1 = c) by congruence. subst c1.
    rewrite HBD in HD. apply release_heap in HD. exact (proj2 (proj2 HD) gone eq_refl). }
  pose proof (life_gone sha rand fuel p canzass berlekamp hw rbits gone l w1 w2 HL G1) as G2. unfold LifeProofs.gone in G2.
  rewrite (cloud_request_ok _ _ key F1 F2 ltac:(lia)) in EC. apply Ok_inj in EC.
  destruct (cloud_request_reads (pa_id Q) partner key F1 F2 HK) as [R1 [R2 [kb [R3 R4]]]]. rewrite EC in R1, R2, R3.
  apply (server_bad_data sha rand fuel p canzass berlekamp hw rbits HSh Hp d w2 me m P s M h Q cs partner kb x y MA MB Dangling); try assumption.
  - rewrite ED. cbn. rewrite HAD. reflexivity.
  - destruct HX as [E|[E [other [mat [v [E1 [E2 E3]]]]]]].
    + left. rewrite E. cbn [entries_at]. rewrite G2. reflexivity.
    + right. rewrite E, E1. cbn [entries_at]. rewrite G2, E2. split; [exists v; exact E3|reflexivity].
Qed.

(** ... and in every state of the server, and if the other data are unreadable
    as well: such a request is never carried out. *)
Theorem C105_never_carried_out : forall d w i w1 l w2 P0 c gone me m P s M h Q a0 cs partner key x y MA MB w3 o tr,
  nth_error (w_parties w) i = Some P0 -> pa_role P0 = RClient c -> cl_blinded c = Some gone ->
  destroy_client w i = Ok w1 -> life_all w1 l = Ok w2 ->
  nth_error (w_parties w2) me = Some P -> nth_error (w_msgs w2) m = Some M -> pa_role P = RServer s -> m_type M = MCloudRequest ->
  getPartyById P (m_party M) = Some h -> nth_error (w_parties w2) h = Some Q ->
  nul_free (pa_id Q) -> nul_free partner -> 0 <= key < 2 ^ 128 ->
  m_data M = Some a0 -> nth_error (w_heap w2) a0 = Some (BBytes cs) -> cloud_request (pa_id Q) partner key = Ok cs ->
  map_find (sv_stored s) (pa_id Q) = Some (Some x) -> map_find (sv_stored s) partner = Some (Some y) ->
  nth_error (w_msgs w2) x = Some MA -> nth_error (w_msgs w2) y = Some MB ->
  (0 < co_length (pa_core P))%nat -> (0 < co_degree (pa_core P))%nat ->
  m_data MA = Some gone \/ m_data MB = Some gone ->
  receive (S d) w2 me m = Ok (w3, o, tr) -> exists r, o = Thrown r.
Proof.
  intros d w i w1 l w2 P0 c gone me m P s M h Q a0 cs partner key x y MA MB w3 o tr HP0 HR0 HBD HD HL HP HM HR HT HG HQ F1 F2 HK ED HAD EC SA SB HMA HMB KL KD HX H.
  assert (G1 : LifeProofs.gone gone w1).
  { apply destroy_inv in HD. destruct HD as [P1 [c1 [HP1 [HR1 HD]]]]. assert (P1 = P0) by congruence. subst P1. assert (c1 = c) by congruence. subst c1.
    rewrite HBD in HD. apply release_heap in HD. exact (proj2 (proj2 HD) gone eq_refl). }
  pose proof (life_gone sha rand fuel p canzass berlekamp hw rbits gone l w1 w2 HL G1) as G2. unfold LifeProofs.gone in G2.
  destruct o as [|r|]; [|eexists; reflexivity|].
  all: destruct (C51_server_decodes sha rand fuel p canzass berlekamp rbits d w2 me m P s M h Q a0 cs partner key w3 _ tr HP HM HR HT HG HQ F1 F2 HK ED HAD EC H ltac:(discriminate))
    as [a' [b' [MA' [MB' [co [t [to [w3' [w4 [tr' [SA' [SB' [HMA' [HMB' [HC _]]]]]]]]]]]]]]];
    assert (a' = x) by congruence; assert (b' = y) by congruence; subst a' b'; assert (MA' = MA) by congruence; assert (MB' = MB) by congruence; subst MA' MB';
    exfalso; destruct (computeTOrQ_reads sha rand fuel p canzass berlekamp hw rbits _ _ _ _ _ HC KL KD) as [vx [vy [X Y]]];
    destruct HX as [E|E]; [rewrite E in X; cbn [entries_at] in X; rewrite G2 in X; discriminate|rewrite E in Y; cbn [entries_at] in Y; rewrite G2 in Y; discriminate].
Qed.

(** What destroying a client does: its blinded data are released and nothing
    else changes; a client without data changes nothing; a second delete of a
    client with data is a double free. *)
Theorem C105_destructor : forall w i P c, nth_error (w_parties w) i = Some P -> pa_role P = RClient c ->
  (cl_blinded c = None -> destroy_client w i = Ok w) /\
  (forall a, cl_blinded c = Some a ->
     (nth_error (w_heap w) a = Some Freed \/ (length (w_heap w) <= a)%nat -> destroy_client w i = UB Dangling) /\
     (forall b, nth_error (w_heap w) a = Some b -> b <> Freed -> exists w1, destroy_client w i = Ok w1 /\
        w_parties w1 = w_parties w /\ w_msgs w1 = w_msgs w /\ length (w_heap w1) = length (w_heap w) /\
        nth_error (w_heap w1) a = Some Freed /\ (forall a', a' <> a -> nth_error (w_heap w1) a' = nth_error (w_heap w) a') /\
        forall l w2 P2 c2, life_all w1 l = Ok w2 -> nth_error (w_parties w2) i = Some P2 -> pa_role P2 = RClient c2 -> cl_blinded c2 = Some a ->
          destroy_client w2 i = UB Dangling)).
Proof.
  intros w i P c HP HR.
  assert (E : forall w P c, nth_error (w_parties w) i = Some P -> pa_role P = RClient c -> destroy_client w i = release w (cl_blinded c)).
  { intros w' P' c' HP' HR'. unfold destroy_client. rewrite (proj2 (the_party_ok w' i P') HP'). cbn [bind]. unfold as_client. rewrite HR'. reflexivity. }
  split; [intros HB; rewrite (E w P c HP HR), HB; reflexivity|]. intros a HB. split.
  - intros HF. rewrite (E w P c HP HR), HB. cbn [release]. destruct HF as [HF|HF]; [rewrite HF; reflexivity|]. apply nth_error_None in HF. rewrite HF. reflexivity.
  - intros b HH NF. exists (w_set_heap w (upd (w_heap w) a Freed)).
    assert (ED : destroy_client w i = Ok (w_set_heap w (upd (w_heap w) a Freed))).
    { rewrite (E w P c HP HR), HB. cbn [release]. rewrite HH. destruct b; try reflexivity. contradiction. }
    split; [exact ED|]. split; [reflexivity|]. split; [reflexivity|]. cbn [w_set_heap w_heap]. split; [apply upd_length|].
    split; [exact (nth_upd_same _ _ _ _ HH)|]. split; [intros a' NE; apply nth_upd_other; congruence|].
    intros l w2 P2 c2 HL HP2 HR2 HB2. rewrite (E w2 P2 c2 HP2 HR2), HB2.
    pose proof (life_gone sha rand fuel p canzass berlekamp hw rbits a l _ w2 HL (nth_upd_same _ _ _ _ HH)) as G. unfold LifeProofs.gone in G.
    cbn [release]. rewrite G. reflexivity.
Qed.

(** *** C88, the other half *)
(** With a server that can compute at all, a request about data outsourced as
    a null pointer makes it read through that pointer. *)
Theorem C88_null_read : forall d w me m P s M h Q a0 cs partner key x y MA MB,
  is_sha sha -> 1 < p ->
  nth_error (w_parties w) me = Some P -> nth_error (w_msgs w) m = Some M -> pa_role P = RServer s -> m_type M = MCloudRequest ->
  m_party M <> pa_id P -> getPartyById P (m_party M) = Some h -> nth_error (w_parties w) h = Some Q -> hasAuthenticatedId P (pa_id Q) = true -> pa_type Q = TClient ->
  nul_free (pa_id Q) -> nul_free partner -> 0 <= key < 2 ^ 128 ->
  m_data M = Some a0 -> nth_error (w_heap w) a0 = Some (BBytes cs) -> cloud_request (pa_id Q) partner key = Ok cs ->
  map_find (sv_stored s) (pa_id Q) = Some (Some x) -> map_find (sv_stored s) partner = Some (Some y) ->
  nth_error (w_msgs w) x = Some MA -> nth_error (w_msgs w) y = Some MB ->
  core_ok (pa_core P) -> (0 < co_length (pa_core P))%nat -> (0 < co_degree (pa_core P))%nat ->
  m_data MA = None \/
  m_data MB = None /\ (exists other mat v, m_data MA = Some other /\ nth_error (w_heap w) other = Some (BMat mat) /\ entry mat 0 0 = Ok v) ->
  receive (S d) w me m = UB NullDeref.
Proof.
  intros d w me m P s M h Q a0 cs partner key x y MA MB HSh Hp HP HM HR HT NE HG HQ HA HTQ F1 F2 HK ED HAD EC SA SB HMA HMB K KL KD HX.
  rewrite (cloud_request_ok _ _ key F1 F2 ltac:(lia)) in EC. apply Ok_inj in EC.
  destruct (cloud_request_reads (pa_id Q) partner key F1 F2 HK) as [R1 [R2 [kb [R3 R4]]]]. rewrite EC in R1, R2, R3.
  apply (server_bad_data sha rand fuel p canzass berlekamp hw rbits HSh Hp d w me m P s M h Q cs partner kb x y MA MB NullDeref); try assumption.
  - rewrite ED. cbn. rewrite HAD. reflexivity.
  - destruct HX as [E|[E [other [mat [v [E1 [E2 E3]]]]]]].
    + left. rewrite E. reflexivity.
    + right. rewrite E, E1. cbn [entries_at]. rewrite E2. split; [exists v; exact E3|reflexivity].
Qed.

(** *** C106 *)
(** The simulator's clean-up at the end of a successful run: every delete is of
    a live array, and afterwards every array of the protocol (the blinded data,
    the request, the cloud request, the two results) has been released. *)
Theorem C106_nothing_left : forall L h D al b rawA rawB idA idB idS sA sB nt pos draws facts key k,
  setting sha p L h D al b rawA rawB -> distinct_points sha p D -> factors_correctly p canzass -> factors_correctly p berlekamp ->
  idA <> idB -> idA <> idS -> idB <> idS -> nul_free idA -> nul_free idB -> rawA <> [] -> rawB <> [] ->
  2 ^ 8 <= sB < 2 ^ 24 -> draw_key rbits fuel draws = Ok (key, k) -> 0 <= key < 2 ^ 128 ->
  exists w request w',
    simulate sha rand fuel p canzass berlekamp hw rbits L h D al b idA idB idS sA sB rawA rawB nt pos draws facts = Ok w /\
    (* the message of the request, with the array main deletes at the end *)
    nth_error (w_msgs w) 7 = Some request /\ m_type request = MClientRequest /\
    cleanup w 0 1 2 (m_data request) = Ok w' /\
    length (w_heap w') = 6%nat /\ (forall a blk, nth_error (w_heap w') a = Some blk -> blk = Freed) /\
    (* each of the three explicit deletes was needed *)
    (exists l1 l2 l3, nth_error (w_heap w) 0 = Some l1 /\ nth_error (w_heap w) 1 = Some l2 /\ nth_error (w_heap w) 2 = Some l3 /\ l1 <> Freed /\ l2 <> Freed /\ l3 <> Freed).
Proof.
  intros L h D al b rawA rawB idA idB idS sA sB nt pos draws facts key k ST ND HC HB NAB NAS NBS FA FB HA HBe HSs HK HKR.
  destruct (simulate_session sha rand fuel p canzass berlekamp hw rbits L h D al b idA idB idS sA sB rawA rawB nt pos draws facts key k
    ST NAB NAS NBS FA FB HA HBe HSs HK HKR) as [posB X].
  destruct (C46_explained sha p L h D al b rawA rawB rand fuel hw sA sB key nt pos posB canzass berlekamp facts ST ND HC HB) as [r [vs [E _]]].
  destruct (X r vs E) as [w [W1 [_ [_ [RO [len W7]]]]]].
  destruct RO as [sA' [sB' [rA [rB [tA [tB [zA [zB [cA [cB [cS [vA [vB [vs' [bs [posn [P0 [P1 [P2 [_ [_ [_ [HH _]]]]]]]]]]]]]]]]]]]]]]].
  set (w1 := w_set_heap w (upd (w_heap w) 0 Freed)). set (w2 := w_set_heap w1 (upd (w_heap w1) 1 Freed)). set (w3 := w_set_heap w2 (upd (w_heap w2) 2 Freed)).
  exists w, (mkMsg idB MClientRequest (Some 2%nat) len), w3. split; [exact W1|]. split; [exact W7|]. split; [reflexivity|].
  assert (H3 : w_heap w3 = [Freed; Freed; Freed; Freed; Freed; Freed]).
  { unfold w3, w2, w1. cbn [w_set_heap w_heap]. rewrite HH. reflexivity. }
  split.
  { unfold cleanup, destroy_client, destroy_server.
    rewrite (proj2 (the_party_ok w 0 _) P0). cbn [bind as_client pa_role cl_blinded release]. rewrite HH at 1. cbn [nth_error bind]. fold w1.
    rewrite (proj2 (the_party_ok w1 1 _) P1). cbn [bind as_client pa_role cl_blinded release].
    replace (nth_error (w_heap w1) 1) with (Some (BMat (table2 L D vB))) by (unfold w1; cbn [w_set_heap w_heap]; rewrite HH; reflexivity). cbn [bind]. fold w2.
    rewrite (proj2 (the_party_ok w2 2 _) P2). cbn [bind pa_role m_data release].
    replace (nth_error (w_heap w2) 2) with (Some (BBytes bs)) by (unfold w2, w1; cbn [w_set_heap w_heap]; rewrite HH; reflexivity). reflexivity. }
  rewrite H3. split; [reflexivity|]. split.
  - intros a blk Hb. do 6 (destruct a as [|a]; [cbn in Hb; injection Hb as <-; reflexivity|]). destruct a; discriminate.
  - rewrite HH. cbn [nth_error]. eexists _, _, _. split; [reflexivity|]. split; [reflexivity|]. split; [reflexivity|]. repeat split; discriminate.
Qed.
End W.
Print Assumptions C105_outsourced_data_die.
Print Assumptions C105_never_carried_out.
Print Assumptions C105_destructor.
Print Assumptions C88_null_read.
Print Assumptions C106_nothing_left.

(** client 1 has outsourced, is destroyed, constructed anew under the same id
    and registered; then client 0 asks about it: the server reads freed memory.
    Without the delete the request is carried out. *)
Definition ex_life (l : list lop) : world :=
  match life_all ex_sha ex_rand 10 61 ex_nofactor ex_nofactor 4 ex_bits (ex_end []) l with Ok w => w | _ => empty_world 0 0 0 end.
Definition ex_again : list lop :=
  map LOp [ONewClient ex_hb 61 3 2 5 [98] 300; OAuthenticate 3 0; OAuthenticate 3 2; OAuthenticate 0 3; OAuthenticate 2 3;
           ONewBytes (ex_cloud_request (2 ^ 127 + 99)); ONewMessage (mkMsg [97] MCloudRequest (Some 2%nat) 21)].
Definition ex_again_alive : list lop :=
  map LOp [ONewBytes (ex_cloud_request (2 ^ 127 + 99)); ONewMessage (mkMsg [97] MCloudRequest (Some 2%nat) 21)].
Example C105_nonvacuous :
  ex_deliver (ex_life (LDestroyClient 1 :: ex_again)) 2 9 = UB Dangling /\
  ex_deliver (ex_life ex_again_alive) 2 7 = Ok (Done, [(2%nat, MCloudRequest); (1%nat, MOutput)]) /\
  (exists P s MA MB mat v, nth_error (w_parties (ex_life (LDestroyClient 1 :: ex_again))) 2 = Some P /\ pa_role P = RServer s /\
     map_find (sv_stored s) [97] = Some (Some 5%nat) /\ map_find (sv_stored s) [98] = Some (Some 6%nat) /\
     nth_error (w_msgs (ex_life (LDestroyClient 1 :: ex_again))) 5 = Some MA /\ nth_error (w_msgs (ex_life (LDestroyClient 1 :: ex_again))) 6 = Some MB /\
     m_data MA = Some 0%nat /\ m_data MB = Some 1%nat /\ nth_error (w_heap (ex_life (LDestroyClient 1 :: ex_again))) 0 = Some (BMat mat) /\ entry mat 0 0 = Ok v /\
     core_ok (pa_core P) /\ co_length (pa_core P) = 3%nat /\ co_degree (pa_core P) = 5%nat).
Proof.
  split; [vm_compute; reflexivity|]. split; [vm_compute; reflexivity|].
  assert (X : match nth_error (w_parties (ex_life (LDestroyClient 1 :: ex_again))) 2, nth_error (w_msgs (ex_life (LDestroyClient 1 :: ex_again))) 5, nth_error (w_msgs (ex_life (LDestroyClient 1 :: ex_again))) 6,
                    nth_error (w_heap (ex_life (LDestroyClient 1 :: ex_again))) 0 with
              | Some P, Some MA, Some MB, Some (BMat mat) =>
                  match pa_role P, entry mat 0 0 with
                  | RServer s, Ok _ => map_find (sv_stored s) [97] = Some (Some 5%nat) /\ map_find (sv_stored s) [98] = Some (Some 6%nat) /\ m_data MA = Some 0%nat /\ m_data MB = Some 1%nat /\
                      pa_core P = new_core 61 3 2 5 0
                  | _, _ => False
                  end
              | _, _, _, _ => False
              end) by (vm_compute; auto 10).
  destruct (nth_error (w_parties (ex_life (LDestroyClient 1 :: ex_again))) 2) as [P|]; [|contradiction].
  destruct (nth_error (w_msgs (ex_life (LDestroyClient 1 :: ex_again))) 5) as [MA|]; [|contradiction].
  destruct (nth_error (w_msgs (ex_life (LDestroyClient 1 :: ex_again))) 6) as [MB|]; [|contradiction].
  destruct (nth_error (w_heap (ex_life (LDestroyClient 1 :: ex_again))) 0) as [[|mat|]|]; try contradiction.
  destruct (pa_role P) as [|s] eqn:ER; [contradiction|]. destruct (entry mat 0 0) as [v| | | |] eqn:EE; try contradiction.
  destruct X as [X1 [X2 [X3 [X4 X5]]]]. exists P, s, MA, MB, mat, v. repeat (split; [first [assumption|reflexivity]|]). rewrite X5. split; [|split; reflexivity].
  apply (party_core 61 ltac:(lia) ltac:(cbn; lia)). apply new_party.
Qed.
Example C106_nonvacuous :
  exists w request w', simulate ex_sha ex_rand 10 61 ex_factor ex_factor 4 ex_rbits 3 2 5 ex_algo 3 [97] [98] [99; 1] 77 300 [0; 1; 4] [1; 3; 0] 1 0 0 0 = Ok w /\
    nth_error (w_msgs w) 7 = Some request /\ cleanup w 0 1 2 (m_data request) = Ok w'.
Proof.
  destruct (C106_nothing_left ex_sha ex_rand 10 61 ex_factor ex_factor 4 ex_rbits 3 2 5 ex_algo 3 [0; 1; 4] [1; 3; 0] [97] [98] [99; 1] 77 300 1 0 0 0 (2 ^ 127 + 99) 2)
    as [w [q [w' [S1 [S2 [_ [S3 _]]]]]]];
    [exact ex_setting|exact ex_distinct|exact ex_factor_ok|exact ex_factor_ok|discriminate|discriminate|discriminate|repeat constructor; lia|repeat constructor; lia|discriminate|discriminate|lia|vm_compute; reflexivity|lia|].
  exists w, q, w'. split; [exact S1|]. split; [exact S2|exact S3].
Qed.
