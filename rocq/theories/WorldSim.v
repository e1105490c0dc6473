(** The order of the two results, and the whole program of the simulator. *)
From Verif Require Import Base Lib NtlMiss StrIntModel HashBucketsModel PRFModel PolyModel EopsiModel WorldModel WorldSpec WorldProofs WorldFrame WorldRun WorldMore.
From Coq Require Import Lia.

Lemma upd_upd {A} (l : list A) i x y : upd (upd l i x) i y = upd l i y.
Proof. revert i. induction l as [|a l IH]; intros [|i]; cbn; try reflexivity. rewrite IH. reflexivity. Qed.
Lemma put_client_twice w i P c c' : put_client (put_client w i P c) i (pa_set_role P (RClient c)) c' = put_client w i P c'.
Proof. unfold put_client, put_party, w_set_parties. cbn. rewrite upd_upd. reflexivity. Qed.

Section R.
Variable sha : list Z -> list Z.
Variable rand : nat -> Z.
Variable fuel : nat.
Variable p : Z.
Variables canzass berlekamp : nat -> list Z -> list (list Z * Z).
Variable hw : nat.
Variable rbits : nat -> Z.
#[local] Notation receive := (receive sha rand fuel p canzass berlekamp rbits).
#[local] Notation step := (step sha rand fuel p canzass berlekamp rbits).
#[local] Notation try_intersect := (try_intersect sha rand fuel p canzass berlekamp).
#[local] Notation intersect := (intersect sha rand fuel p canzass berlekamp).
#[local] Notation exec := (exec sha rand fuel p canzass berlekamp hw rbits).
#[local] Notation exec_all := (exec_all sha rand fuel p canzass berlekamp hw rbits).
#[local] Notation simulate := (simulate sha rand fuel p canzass berlekamp hw rbits).
#[local] Notation session := (session sha rand fuel p canzass berlekamp hw).

(** [m] is a result for client [B] from a party it knows, with readable data *)
Record result_msg (w : world) (B : nat) (P : party) (m : nat) (t : mtype) (a : nat) : Prop := mkResult {
  rm_msg : exists M, nth_error (w_msgs w) m = Some M /\ m_type M = t /\ m_data M = Some a /\ m_party M <> pa_id P /\
    exists s Q, getPartyById P (m_party M) = Some s /\ s <> B /\ nth_error (w_parties w) s = Some Q /\ hasAuthenticatedId P (pa_id Q) = true /\
      pa_type Q = match t with MOutput => TServer | _ => TClient end;
  rm_data : exists mat x, nth_error (w_heap w) a = Some (BMat mat) /\ entry mat 0%nat 0%nat = Ok x
}.
Lemma deliver w B P c m t a d : nth_error (w_parties w) B = Some P -> pa_role P = RClient c -> result_msg w B P m t a -> t = MOutput \/ t = MPolynomial ->
  receive (S d) w B m = (do w2 <- try_intersect (put_client w B P (result_of c t (Some a))) B; Ok (w2, Done, [(B, t)])).
Proof.
  intros HP HR [[M [HM [ET [ED [NE [s [Q [HG [NS [HQ [HA HT]]]]]]]]]]] [mat [x [HH HX]]]] Ht.
  rewrite (deliver_result _ _ _ _ _ _ _ d w B m P c M s Q HP HM HR NE HG HQ HA).
  2:{ rewrite ET. destruct Ht as [-> | ->]; [left|right]; auto. }
  rewrite ET, ED. cbn [entries_at]. rewrite HH, HX. reflexivity.
Qed.
(** after one result, the other one is still a result *)
Lemma result_after w B P m t a c : nth_error (w_parties w) B = Some P -> result_msg w B P m t a ->
  result_msg (put_client w B P c) B (pa_set_role P (RClient c)) m t a.
Proof.
  intros HP [[M [HM [ET [ED [NE [s [Q [HG [NS [HQ [HA HT]]]]]]]]]]] HD]. split; [|exact HD].
  exists M. repeat (split; [assumption|]). exists s, Q. split; [exact HG|]. split; [exact NS|]. split; [|auto].
  unfold put_client. cbn. rewrite nth_upd_other by congruence. exact HQ.
Qed.
Lemma either_order w B P c b mt mq at_ aq d : nth_error (w_parties w) B = Some P -> pa_role P = RClient c -> cl_rawDataBits c = Some b -> cl_t c = None -> cl_q c = None ->
  result_msg w B P mt MOutput at_ -> result_msg w B P mq MPolynomial aq ->
  let wt := put_client w B P (cl_set_t c (Some at_)) in let wq := put_client w B P (cl_set_q c (Some aq)) in
  let wb := put_client w B P (cl_set_q (cl_set_t c (Some at_)) (Some aq)) in
  receive (S d) w B mt = Ok (wt, Done, [(B, MOutput)]) /\ receive (S d) w B mq = Ok (wq, Done, [(B, MPolynomial)]) /\
  receive (S d) wt B mq = (do w2 <- try_intersect wb B; Ok (w2, Done, [(B, MPolynomial)])) /\
  receive (S d) wq B mt = (do w2 <- try_intersect wb B; Ok (w2, Done, [(B, MOutput)])).
Proof.
  intros HP HR HB ET EQ Rt Rq wt wq wb.
  assert (PT : nth_error (w_parties wt) B = Some (pa_set_role P (RClient (cl_set_t c (Some at_))))) by (cbn; apply (nth_upd_same _ _ _ _ HP)).
  assert (PQ : nth_error (w_parties wq) B = Some (pa_set_role P (RClient (cl_set_q c (Some aq))))) by (cbn; apply (nth_upd_same _ _ _ _ HP)).
  split; [|split; [|split]].
  - rewrite (deliver w B P c mt MOutput at_ d HP HR Rt) by auto. cbn [result_of]. fold wt.
    rewrite (intersect_waits _ _ _ _ _ _ wt B _ _ b PT eq_refl HB); [reflexivity|left; exact EQ].
  - rewrite (deliver w B P c mq MPolynomial aq d HP HR Rq) by auto. cbn [result_of]. fold wq.
    rewrite (intersect_waits _ _ _ _ _ _ wq B _ _ b PQ eq_refl HB); [reflexivity|right; exact ET].
  - rewrite (deliver wt B _ (cl_set_t c (Some at_)) mq MPolynomial aq d PT eq_refl); [|apply (result_after _ _ _ _ _ _ _ HP Rq)|auto].
    unfold wt at 1. rewrite put_client_twice. reflexivity.
  - rewrite (deliver wq B _ (cl_set_q c (Some aq)) mt MOutput at_ d PQ eq_refl); [|apply (result_after _ _ _ _ _ _ _ HP Rt)|auto].
    unfold wq at 1. rewrite put_client_twice. reflexivity.
Qed.

(** *** the simulator *)
Lemma at_rand_new pos : at_rand (new_zpprf p 0) pos = new_zpprf p pos.
Proof. reflexivity. Qed.
Section S.
Variables (L h D : nat) (al : halgo Z) (bits : Z) (idA idB idS : list Z) (sA sB : Z) (rawA rawB : list Z) (nt pos draws facts : nat).
Hypothesis NAB : idA <> idB.
Hypothesis NAS : idA <> idS.
Hypothesis NBS : idB <> idS.
(** the three parties' directories after everybody authenticated everybody *)
Definition dirA : list (list Z * nat) := map_put (map_put [] idB 1%nat) idS 2%nat.
Definition dirB : list (list Z * nat) := map_put (map_put [] idA 0%nat) idS 2%nat.
Definition dirS : list (list Z * nat) := map_put (map_put [] idA 0%nat) idB 1%nat.
Definition core0 : core := new_core p L h D 0.
Definition party0 (id : list Z) (secret : Z) (d : list (list Z * nat)) (tab : hb Z) (m : nat) : party :=
  mkParty id TClient d core0 (RClient (mkClient [] 0 None None secret tab None None (new_zpprf p 0) m (S m) [])).
Definition cloud0 : party := mkParty idS TServer dirS core0 (RServer (mkServer [] 4%nat)).
Definition world0 (hA hB : hb Z) : world :=
  mkWorld [party0 idA sA dirA hA 0; party0 idB sB dirB hB 2; cloud0]
    [new_message; new_message; new_message; new_message; new_message] [] pos draws facts.
Lemma introductions hA hB :
  for_up 3 0 (fun i w => for_up 3 0 (fun j w => authenticate w i j) w)
    (mkWorld [party0 idA sA [] hA 0; party0 idB sB [] hB 2; mkParty idS TServer [] core0 (RServer (mkServer [] 4%nat))]
      [new_message; new_message; new_message; new_message; new_message] [] pos draws facts) = Ok (world0 hA hB).
Proof.
  pose proof (proj2 (str_eqb_neq _ _) NAB) as E1. pose proof (proj2 (str_eqb_neq _ _) NAS) as E2. pose proof (proj2 (str_eqb_neq _ _) NBS) as E3.
  pose proof E1 as E1'. pose proof E2 as E2'. pose proof E3 as E3'. rewrite str_eqb_sym in E1', E2', E3'.
  cbn [for_up]. unfold authenticate, the_party, put_party, w_set_parties.
  repeat (cbn [w_parties nth_error bind pa_id party0 w_msgs w_heap w_rand w_draws w_facts upd pa_set_parties pa_type pa_core pa_role pa_parties];
          rewrite ?str_eqb_refl, ?E1, ?E2, ?E3, ?E1', ?E2', ?E3'; cbn [bind]).
  reflexivity.
Qed.
Lemma setRawData_eq w me P c raw b n zp co tab bl : nth_error (w_parties w) me = Some P -> pa_role P = RClient c -> raw <> [] ->
  blind sha rand fuel p hw (pa_core P) (cl_secret c) raw (length raw) (Some b) (cl_table c) (at_rand (cl_zp c) (w_rand w)) n = Ok (co, tab, zp, bl) ->
  setRawData sha rand fuel p hw w me (Some raw) (length raw) b n =
    Ok (w_set_rand (put_party (w_set_heap w (w_heap w ++ [BMat bl])) me (pa_set_core (pa_set_role P
            (RClient (mkClient raw (length raw) (Some b) (Some (length (w_heap w))) (cl_secret c) tab (cl_q c) (cl_t c) zp
                        (cl_toCloud c) (cl_toClient c) (cl_setcap c)))) co)) (p_pos (zp_prf zp))).
Proof.
  intros HP HR NE HBl. unfold setRawData. rewrite (proj2 (the_party_ok w me P) HP). cbn [bind]. unfold as_client. rewrite HR. cbn [bind].
  rewrite HBl. destruct (length raw) eqn:E; [destruct raw; [contradiction|discriminate]|]. reflexivity.
Qed.
Definition client1 (raw : list Z) (secret : Z) (tab : hb Z) (zp : zpprf) (a m : nat) : client :=
  mkClient raw (length raw) (Some bits) (Some a) secret tab None None zp m (S m) [].
Definition cloud1 : server := mkServer (map_put (map_put [] idA (Some 5%nat)) idB (Some 6%nat)) 4%nat.
Definition world1 (cA cB : core) (tA tB : hb Z) (zA zB : zpprf) (mA mB : matrix) (d : list cell) : world :=
  mkWorld [mkParty idA TClient dirA cA (RClient (client1 rawA sA tA zA 0 0)); mkParty idB TClient dirB cB (RClient (client1 rawB sB tB zB 1 2));
           mkParty idS TServer dirS core0 (RServer cloud1)]
    [new_message; new_message; new_message; new_message; new_message;
     mkMsg idA MOutsourcing (Some 0%nat) (Z.of_nat (D * L)); mkMsg idB MOutsourcing (Some 1%nat) (Z.of_nat (D * L));
     mkMsg idB MClientRequest (Some 2%nat) (Z.of_nat (length d))]
    [BMat mA; BMat mB; BBytes d] (p_pos (zp_prf zB)) draws facts.
Lemma outsource_ok d w me m P s M x Q : nth_error (w_parties w) me = Some P -> nth_error (w_msgs w) m = Some M -> pa_role P = RServer s ->
  m_type M = MOutsourcing -> m_party M <> pa_id P -> getPartyById P (m_party M) = Some x -> nth_error (w_parties w) x = Some Q ->
  hasAuthenticatedId P (pa_id Q) = true -> pa_type Q = TClient ->
  receive (S d) w me m = Ok (put_party w me (pa_set_role P (RServer (mkServer (map_put (sv_stored s) (pa_id Q) (Some m)) (sv_toClient s)))), Done, [(me, MOutsourcing)]).
Proof.
  intros HP HM HR HT NE HG HQ HA HTQ.
  rewrite (receive_S _ _ _ _ _ _ _ d w me m P M HP HM), (step_known _ _ _ _ _ _ _ d w me m P M x Q NE HG HQ), HA, HR, HT, HTQ. reflexivity.
Qed.
Lemma dir_find : map_find dirA idB = Some 1%nat /\ map_find dirA idS = Some 2%nat /\ map_find dirB idA = Some 0%nat /\ map_find dirB idS = Some 2%nat /\
  map_find dirS idA = Some 0%nat /\ map_find dirS idB = Some 1%nat.
Proof.
  pose proof (proj2 (str_eqb_neq _ _) NAB) as E1. pose proof (proj2 (str_eqb_neq _ _) NAS) as E2. pose proof (proj2 (str_eqb_neq _ _) NBS) as E3.
  unfold dirA, dirB, dirS. rewrite !map_find_put, !str_eqb_refl, E1, E2, E3. auto 10.
Qed.
Hypothesis HA : rawA <> [].
Hypothesis HB : rawB <> [].
Lemma before_request hA cA cB tA tB zA zB mA mB d :
  new_hb L h (Some al) = Ok hA ->
  blind sha rand fuel p hw core0 sA rawA (length rawA) (Some bits) hA (new_zpprf p pos) nt = Ok (cA, tA, zA, mA) ->
  blind sha rand fuel p hw core0 sB rawB (length rawB) (Some bits) hA (new_zpprf p (p_pos (zp_prf zA))) nt = Ok (cB, tB, zB, mB) ->
  client_request_bytes idB sB = Ok d ->
  simulate L h D al bits idA idB idS sA sB rawA rawB nt pos draws facts =
    or_exit (send sha rand fuel p canzass berlekamp rbits 4 (world1 cA cB tA tB zA zB mA mB d) 0 (Some 7%nat)).
Proof.
  intros EA BA BB ED. unfold WorldModel.simulate. rewrite EA. cbn [bind].
  unfold new_client, empty_world, new_server, w_set_msgs, w_set_parties. cbn [w_parties w_msgs w_heap w_rand w_draws w_facts app length].
  fold core0. change (mkWorld _ _ _ _ _ _) with (mkWorld [party0 idA sA [] hA 0; party0 idB sB [] hA 2; mkParty idS TServer [] core0 (RServer (mkServer [] 4%nat))]
      [new_message; new_message; new_message; new_message; new_message] [] pos draws facts).
  rewrite introductions. cbn [bind]. unfold new_msg, world0, w_set_msgs. cbn [w_parties w_msgs w_heap w_rand w_draws w_facts app length].
  erewrite (fun w => setRawData_eq w 0 (party0 idA sA dirA hA 0) _ rawA bits nt zA cA tA mA); [|reflexivity|reflexivity|exact HA|exact BA]. cbn [bind].
  unfold put_party, w_set_rand, w_set_parties, w_set_heap. cbn [w_parties w_msgs w_heap w_rand w_draws w_facts app length upd pa_set_core pa_set_role pa_id pa_type pa_parties party0 pa_core pa_role cl_q cl_t cl_toCloud cl_toClient cl_setcap cl_secret].
  erewrite (fun w => setRawData_eq w 1 (party0 idB sB dirB hA 2) _ rawB bits nt zB cB tB mB); [|reflexivity|reflexivity|exact HB|exact BB]. cbn [bind].
  unfold put_party, w_set_rand, w_set_parties, w_set_heap. cbn [w_parties w_msgs w_heap w_rand w_draws w_facts app length upd pa_set_core pa_set_role pa_id pa_type pa_parties party0 pa_core pa_role cl_q cl_t cl_toCloud cl_toClient cl_setcap cl_secret].
  unfold pa_set_core, pa_set_role, party0. cbn [the_party the_msg w_parties w_msgs nth_error bind as_client pa_role cl_blinded pa_id pa_type pa_parties pa_core].
  unfold put_msg, w_set_msgs. cbn [w_parties w_msgs w_heap w_rand w_draws w_facts upd nth_error bind m_setPartyId m_setType m_setData new_message m_party m_type m_data m_len].
  cbn [the_party the_msg w_parties w_msgs nth_error bind m_party m_type m_data m_len upd w_heap w_rand w_draws w_facts].
  destruct dir_find as [_ [_ [_ [_ [F1 F2]]]]].
  unfold send, send_with.
  match goal with |- context [WorldModel.receive _ _ _ _ _ _ _ 4 ?w 2 5] => set (w5 := w) end.
  rewrite (outsource_ok 3 w5 2 5 cloud0 (mkServer [] 4%nat) (mkMsg idA MOutsourcing (Some 0%nat) (Z.of_nat (D * L))) 0
     (mkParty idA TClient dirA cA (RClient (client1 rawA sA tA zA 0 0)))); try reflexivity; [|exact NAS|exact F1|unfold hasAuthenticatedId, getPartyById; cbn [cloud0 pa_parties pa_id]; rewrite F1; reflexivity].
  cbn [or_exit bind]. 
  match goal with |- context [WorldModel.receive _ _ _ _ _ _ _ 4 ?w 2 6] => set (w6 := w) end.
  rewrite (outsource_ok 3 w6 2 6 (pa_set_role cloud0 (RServer (mkServer (map_put [] idA (Some 5%nat)) 4%nat))) (mkServer (map_put [] idA (Some 5%nat)) 4%nat) (mkMsg idB MOutsourcing (Some 1%nat) (Z.of_nat (D * L))) 1
     (mkParty idB TClient dirB cB (RClient (client1 rawB sB tB zB 1 2)))); try reflexivity; [|exact NBS|exact F2|unfold hasAuthenticatedId, getPartyById; cbn [cloud0 pa_set_role pa_parties pa_id]; rewrite F2; reflexivity].
  cbn [or_exit bind]. rewrite ED. cbn [bind alloc]. reflexivity.
Qed.
(** a table overflow in setRawData ends the program *)
Lemma setRawData_exit w me P c raw b n code : nth_error (w_parties w) me = Some P -> pa_role P = RClient c -> raw <> [] ->
  blind sha rand fuel p hw (pa_core P) (cl_secret c) raw (length raw) (Some b) (cl_table c) (at_rand (cl_zp c) (w_rand w)) n = Exit code ->
  setRawData sha rand fuel p hw w me (Some raw) (length raw) b n = Exit code.
Proof.
  intros HP HR NE HBl. unfold setRawData. rewrite (proj2 (the_party_ok w me P) HP). cbn [bind]. unfold as_client. rewrite HR. cbn [bind].
  rewrite HBl. destruct (length raw) eqn:E; [destruct raw; [contradiction|discriminate]|]. reflexivity.
Qed.
Lemma overflow_A hA code :
  new_hb L h (Some al) = Ok hA ->
  blind sha rand fuel p hw core0 sA rawA (length rawA) (Some bits) hA (new_zpprf p pos) nt = Exit code ->
  simulate L h D al bits idA idB idS sA sB rawA rawB nt pos draws facts = Exit code.
Proof.
  intros EA BA. unfold WorldModel.simulate. rewrite EA. cbn [bind].
  unfold new_client, empty_world, new_server, w_set_msgs, w_set_parties. cbn [w_parties w_msgs w_heap w_rand w_draws w_facts app length].
  fold core0. change (mkWorld _ _ _ _ _ _) with (mkWorld [party0 idA sA [] hA 0; party0 idB sB [] hA 2; mkParty idS TServer [] core0 (RServer (mkServer [] 4%nat))]
      [new_message; new_message; new_message; new_message; new_message] [] pos draws facts).
  rewrite introductions. cbn [bind]. unfold new_msg, world0, w_set_msgs. cbn [w_parties w_msgs w_heap w_rand w_draws w_facts app length].
  erewrite (fun w => setRawData_exit w 0 (party0 idA sA dirA hA 0) _ rawA bits nt code); [|reflexivity|reflexivity|exact HA|exact BA]. reflexivity.
Qed.
Lemma overflow_B hA cA tA zA mA code :
  new_hb L h (Some al) = Ok hA ->
  blind sha rand fuel p hw core0 sA rawA (length rawA) (Some bits) hA (new_zpprf p pos) nt = Ok (cA, tA, zA, mA) ->
  blind sha rand fuel p hw core0 sB rawB (length rawB) (Some bits) hA (new_zpprf p (p_pos (zp_prf zA))) nt = Exit code ->
  simulate L h D al bits idA idB idS sA sB rawA rawB nt pos draws facts = Exit code.
Proof.
  intros EA BA BB. unfold WorldModel.simulate. rewrite EA. cbn [bind].
  unfold new_client, empty_world, new_server, w_set_msgs, w_set_parties. cbn [w_parties w_msgs w_heap w_rand w_draws w_facts app length].
  fold core0. change (mkWorld _ _ _ _ _ _) with (mkWorld [party0 idA sA [] hA 0; party0 idB sB [] hA 2; mkParty idS TServer [] core0 (RServer (mkServer [] 4%nat))]
      [new_message; new_message; new_message; new_message; new_message] [] pos draws facts).
  rewrite introductions. cbn [bind]. unfold new_msg, world0, w_set_msgs. cbn [w_parties w_msgs w_heap w_rand w_draws w_facts app length].
  erewrite (fun w => setRawData_eq w 0 (party0 idA sA dirA hA 0) _ rawA bits nt zA cA tA mA); [|reflexivity|reflexivity|exact HA|exact BA]. cbn [bind].
  unfold put_party, w_set_rand, w_set_parties, w_set_heap. cbn [w_parties w_msgs w_heap w_rand w_draws w_facts app length upd pa_set_core pa_set_role pa_id pa_type pa_parties party0 pa_core pa_role cl_q cl_t cl_toCloud cl_toClient cl_setcap cl_secret].
  erewrite (fun w => setRawData_exit w 1 (party0 idB sB dirB hA 2) _ rawB bits nt code); [|reflexivity|reflexivity|exact HB|exact BB]. reflexivity.
Qed.
Hypothesis FA : nul_free idA.
Hypothesis FB : nul_free idB.
Lemma world1_ready cA cB tA tB zA zB mA mB d sb : cstr_at d 0 = Ok idB -> bytes_from d (length idB + 1) 3 = Ok sb ->
  ready (world1 cA cB tA tB zA zB mA mB d) 0 1 2 (mkParty idA TClient dirA cA (RClient (client1 rawA sA tA zA 0 0)))
    (mkParty idB TClient dirB cB (RClient (client1 rawB sB tB zB 1 2))) (mkParty idS TServer dirS core0 (RServer cloud1))
    (client1 rawA sA tA zA 0 0) (client1 rawB sB tB zB 1 2) cloud1 5 6 mA mB 7 sb bits.
Proof.
  intros HC HS. destruct dir_find as [F1 [F2 [F3 [F4 [F5 F6]]]]]. pose proof (proj2 (str_eqb_neq _ _) NAB) as E1.
  split; try reflexivity; try assumption; try (cbn; discriminate); try (eexists; reflexivity); try (eexists; eexists; split; [reflexivity|split; reflexivity]).
  - cbn [pa_parties]. unfold dirA. cbn [map_put]. destruct (str_cmp idS idB) eqn:E; [|reflexivity|reflexivity]. apply str_cmp_eq in E. congruence.
  - cbn [sv_stored cloud1 pa_id]. rewrite !map_find_put, E1, str_eqb_refl. reflexivity.
  - cbn [sv_stored cloud1 pa_id]. rewrite !map_find_put, str_eqb_refl. reflexivity.
  - eexists. eexists. eexists. split; [reflexivity|]. split; [reflexivity|]. split; [reflexivity|]. split; [reflexivity|]. split; [reflexivity|]. split; assumption.
Qed.
Lemma simulate_run hA cA cB tA tB zA zB mA mB key k cS t x cA1 zA1 q y cB1 vs : 
  new_hb L h (Some al) = Ok hA ->
  blind sha rand fuel p hw core0 sA rawA (length rawA) (Some bits) hA (new_zpprf p pos) nt = Ok (cA, tA, zA, mA) ->
  blind sha rand fuel p hw core0 sB rawB (length rawB) (Some bits) hA (new_zpprf p (p_pos (zp_prf zA))) nt = Ok (cB, tB, zB, mB) ->
  draw_key rbits fuel draws = Ok (key, k) -> 0 <= key < 2 ^ 128 -> 2 ^ 8 <= sB ->
  computeTOrQ sha rand fuel p core0 key (entry mA) (entry mB) = Ok (cS, t) -> entry t 0 0 = Ok x ->
  delegationOutput sha rand fuel p cA zA sA (sB mod 2 ^ 24) key = Ok (cA1, zA1, q) -> entry q 0 0 = Ok y ->
  intersect cB (Some bits) (Some (entry t)) (Some (entry q)) facts = Ok (Some (cB1, vs)) ->
  exists w', simulate L h D al bits idA idB idS sA sB rawA rawB nt pos draws facts = Ok w' /\ getIntersection w' 1 = Ok vs /\
    nth_error (w_parties w') 1 = Some (mkParty idB TClient dirB cB1 (RClient (mkClient rawB (length rawB) (Some bits) (Some 1%nat) sB tB (Some 5%nat) (Some 4%nat) zB 2 3 vs))) /\
    nth_error (w_parties w') 0 = Some (mkParty idA TClient dirA cA1 (RClient (mkClient rawA (length rawA) (Some bits) (Some 0%nat) sA tA (Some 5%nat) None zA1 0 1 []))) /\
    (exists bs, w_heap w' = [BMat mA; BMat mB; BBytes bs; Freed; Freed; Freed] /\ client_request_bytes idB sB = Ok bs /\
      nth_error (w_msgs w') 7 = Some (mkMsg idB MClientRequest (Some 2%nat) (Z.of_nat (length bs)))) /\ w_draws w' = k /\ w_facts w' = (facts + co_length cB)%nat /\
    nth_error (w_parties w') 2 = Some (mkParty idS TServer dirS cS (RServer cloud1)) /\ length (w_msgs w') = 8%nat /\
    nth_error (w_msgs w') 5 = Some (mkMsg idA MOutsourcing (Some 0%nat) (Z.of_nat (D * L))) /\
    nth_error (w_msgs w') 6 = Some (mkMsg idB MOutsourcing (Some 1%nat) (Z.of_nat (D * L))) /\ w_rand w' = p_pos (zp_prf zB) /\
    (exists len, nth_error (w_msgs w') 7 = Some (mkMsg idB MClientRequest (Some 2%nat) len)).
Proof.
  intros EA BA BB HK HKR HS HT Hx HQ Hy HI.
  pose proof (client_request_bytes_ok idB sB FB ltac:(lia)) as ED. set (d := map Some _) in ED.
  destruct (client_request_reads idB sB FB ltac:(lia)) as [RC [_ RS]]. cbv zeta in RC, RS. fold d in RC, RS. destruct (RS HS) as [sb [RS1 RS2]].
  rewrite (before_request hA cA cB tA tB zA zB mA mB d EA BA BB ED). unfold send, send_with.
  pose proof (world1_ready cA cB tA tB zA zB mA mB d sb RC RS1) as RD.
  destruct (run_ok sha rand fuel p canzass berlekamp rbits 1 _ _ _ _ _ _ _ _ _ _ _ _ _ _ _ _ _ key k cS t x cA1 zA1 q y cB1 vs RD eq_refl HK HKR HT Hx) as [w' [E [WA [WB [WS [_ [WM [WML [WH [WR [WD WF]]]]]]]]]]].
  - cbn [pa_core cl_zp cl_secret client1]. rewrite RS2. exact HQ.
  - exact Hy.
  - exact HI.
  - exists w'. cbn [Nat.add] in E. rewrite E. cbn [or_exit bind]. split; [reflexivity|].
    split; [|split; [exact WB|split; [exact WA|split; [exists d; split; [exact WH|split; [exact ED|rewrite WM by (cbn; lia); reflexivity]]|split; [exact WD|split; [exact WF|split; [exact WS|split; [exact WML|split; [rewrite WM by (cbn; lia); reflexivity|split; [rewrite WM by (cbn; lia); reflexivity|split; [exact WR|eexists; rewrite WM by (cbn; lia); reflexivity]]]]]]]]]]].
    unfold getIntersection. rewrite (proj2 (the_party_ok w' 1 _) WB). reflexivity.
Qed.
End S.
End R.
