(** Proofs about the message layer. *)
From Verif Require Import Base Lib NtlMiss PRFModel EopsiModel WorldModel WorldSpec.
From Coq Require Import Lia.

(** *** strings and maps *)
Lemma str_cmp_eq : forall a b, str_cmp a b = Eq <-> a = b.
Proof.
  induction a as [|x a IH]; intros [|y b]; cbn; try (split; [discriminate|discriminate]); [tauto|].
  destruct (x ?= y) eqn:E.
  - apply Z.compare_eq in E. subst. rewrite IH. split; [intros ->; reflexivity|intros X; injection X; auto].
  - split; [discriminate|]. intros X. injection X as -> _. rewrite Z.compare_refl in E. discriminate.
  - split; [discriminate|]. intros X. injection X as -> _. rewrite Z.compare_refl in E. discriminate.
Qed.
Lemma str_cmp_refl a : str_cmp a a = Eq.
Proof. apply str_cmp_eq. reflexivity. Qed.
Lemma str_eqb_eq a b : str_eqb a b = true <-> a = b.
Proof. unfold str_eqb. destruct (str_cmp a b) eqn:E; rewrite <- (str_cmp_eq a b), E; split; congruence. Qed.
Lemma str_eqb_refl a : str_eqb a a = true.
Proof. apply str_eqb_eq. reflexivity. Qed.
Lemma str_eqb_neq a b : str_eqb a b = false <-> a <> b.
Proof. rewrite <- (str_eqb_eq a b). destruct (str_eqb a b); split; congruence. Qed.
Lemma str_eqb_sym a b : str_eqb a b = str_eqb b a.
Proof. apply Bool.eq_true_iff_eq. rewrite !str_eqb_eq. split; congruence. Qed.

Lemma map_find_put {V} (m : list (str * V)) k v k' :
  map_find (map_put m k v) k' = if str_eqb k' k then Some v else map_find m k'.
Proof.
  induction m as [|[a x] m IH]; [reflexivity|]. cbn [map_put].
  destruct (str_cmp k a) eqn:E.
  - apply str_cmp_eq in E. subst a. cbn [map_find]. destruct (str_eqb k' k); reflexivity.
  - reflexivity.
  - cbn [map_find]. rewrite IH. destruct (str_eqb k' a) eqn:E1, (str_eqb k' k) eqn:E2; try reflexivity.
    apply str_eqb_eq in E1, E2. subst. rewrite str_cmp_refl in E. discriminate.
Qed.

Lemma the_party_ok w i P : the_party w i = Ok P <-> nth_error (w_parties w) i = Some P.
Proof. unfold the_party. destruct (nth_error (w_parties w) i); split; congruence. Qed.
Lemma the_msg_ok w i M : the_msg w i = Ok M <-> nth_error (w_msgs w) i = Some M.
Proof. unfold the_msg. destruct (nth_error (w_msgs w) i); split; congruence. Qed.

Lemma nth_upd {A} (l : list A) i j v :
  nth_error (upd l i v) j = if Nat.eqb i j then (if Nat.ltb i (length l) then Some v else None) else nth_error l j.
Proof.
  revert i j. induction l as [|a l IH]; intros i j.
  - cbn. destruct i, j; cbn; try reflexivity. destruct (Nat.eqb i j); reflexivity.
  - destruct i, j; cbn; try reflexivity. rewrite IH. reflexivity.
Qed.
Lemma nth_upd_same {A} (l : list A) i v a : nth_error l i = Some a -> nth_error (upd l i v) i = Some v.
Proof. intros H. rewrite nth_upd, Nat.eqb_refl. assert (i < length l)%nat by (apply nth_error_Some; congruence). destruct (Nat.ltb_spec i (length l)); [reflexivity|lia]. Qed.
Lemma nth_upd_other {A} (l : list A) i j v : i <> j -> nth_error (upd l i v) j = nth_error l j.
Proof. intros H. rewrite nth_upd. destruct (Nat.eqb_spec i j); [contradiction|reflexivity]. Qed.
Lemma nth_snoc {A} (l : list A) a : nth_error (l ++ [a]) (length l) = Some a.
Proof. rewrite nth_error_app2, Nat.sub_diag by lia. reflexivity. Qed.
Lemma nth_snoc_old {A} (l : list A) a i x : nth_error l i = Some x -> nth_error (l ++ [a]) i = Some x.
Proof. intros H. rewrite nth_error_app1; [exact H|]. apply nth_error_Some. congruence. Qed.

(** *** authorisation *)
Section R.
Variable sha : list Z -> list Z.
Variable rand : nat -> Z.
Variable fuel : nat.
Variable p : Z.
Variables canzass berlekamp : nat -> list Z -> list (list Z * Z).
Variable hw : nat.
Variable rbits : nat -> Z.
#[local] Notation receive := (receive sha rand fuel p canzass berlekamp rbits).
#[local] Notation client_receive := (client_receive sha rand fuel p canzass berlekamp rbits).
#[local] Notation server_receive := (server_receive sha rand fuel p).
#[local] Notation client_request := (client_request sha rand fuel p rbits).
#[local] Notation server_request := (server_request sha rand fuel p).
#[local] Notation exec := (exec sha rand fuel p canzass berlekamp hw rbits).
#[local] Notation exec_all := (exec_all sha rand fuel p canzass berlekamp hw rbits).

Definition step (d : nat) (w : world) (me m : nat) (P : party) (M : message) : delivery :=
  match pa_role P with
  | RClient c => client_receive (receive d) w me P c m M
  | RServer s => server_receive (receive d) w me P s m M
  end.
Lemma receive_S d w me m P M : nth_error (w_parties w) me = Some P -> nth_error (w_msgs w) m = Some M ->
  receive (S d) w me m = (do (w1, o, tr) <- step d w me m P M; Ok (w1, o, (me, m_type M) :: tr)).
Proof. intros HP HM. apply the_party_ok in HP. apply the_msg_ok in HM. cbn [WorldModel.receive]. rewrite HP. cbn [bind]. rewrite HM. reflexivity. Qed.
Lemma receive_inv d w me m w1 o tr : receive (S d) w me m = Ok (w1, o, tr) ->
  exists P M tr', nth_error (w_parties w) me = Some P /\ nth_error (w_msgs w) m = Some M /\ step d w me m P M = Ok (w1, o, tr') /\ tr = (me, m_type M) :: tr'.
Proof.
  cbn [WorldModel.receive]. intros H. apply bind_ok in H. destruct H as [P [HP H]]. apply bind_ok in H. destruct H as [M [HM H]].
  apply bind_ok in H. destruct H as [[[w2 o2] tr2] [H1 H2]]. apply Ok_inj in H2. injection H2 as <- <- <-.
  exists P, M, tr2. apply the_party_ok in HP. apply the_msg_ok in HM. unfold step. auto.
Qed.

(** authorisation as a table *)
Definition authorised (r : role) (t : mtype) (s : ptype) : bool :=
  match r, t, s with
  | RClient _, (MClientRequest | MPolynomial), TClient => true
  | RClient _, MOutput, TServer => true
  | RServer _, (MCloudRequest | MOutsourcing), _ => true
  | RServer _, MOutput, TServer => true
  | _, _, _ => false
  end.
Definition authorise (w : world) (P : party) (M : message) : res bool :=
  match pa_role P with RClient _ => client_authorised w P M | RServer _ => server_authorised w P M end.
Lemma authorise_known w P M s Q : getPartyById P (m_party M) = Some s -> nth_error (w_parties w) s = Some Q ->
  authorise w P M = Ok (hasAuthenticatedId P (pa_id Q) && authorised (pa_role P) (m_type M) (pa_type Q)).
Proof.
  intros HS HQ. apply the_party_ok in HQ. unfold authorise, client_authorised, server_authorised, hasAuthenticated.
  destruct (pa_role P); rewrite HS, HQ; cbn [bind]; destruct (hasAuthenticatedId P (pa_id Q)); cbn [negb andb]; try reflexivity;
    destruct (m_type M), (pa_type Q); reflexivity.
Qed.

(** what receive does to a message it takes or not *)
Lemma step_self d w me m P M : m_party M = pa_id P -> step d w me m P M = Ok (w, Thrown SelfMessage, []).
Proof. intros E. unfold step, WorldModel.client_receive, WorldModel.server_receive. rewrite E, str_eqb_refl. destruct (pa_role P); reflexivity. Qed.
Lemma step_known d w me m P M s Q : m_party M <> pa_id P -> getPartyById P (m_party M) = Some s -> nth_error (w_parties w) s = Some Q ->
  step d w me m P M =
    if hasAuthenticatedId P (pa_id Q) && authorised (pa_role P) (m_type M) (pa_type Q) then
      match pa_role P, m_type M with
      | RClient c, MClientRequest => client_request (receive d) w me P c s m M
      | RClient c, MOutput => client_output sha rand fuel p canzass berlekamp w me P c M
      | RClient c, MPolynomial => client_polynomial sha rand fuel p canzass berlekamp w me P c M
      | RServer sv, MCloudRequest => server_request (receive d) w me P sv s m M
      | RServer sv, MOutsourcing =>
          if ptype_eqb (pa_type Q) TServer then Ok (w, Thrown BetweenServers, []) else
          Ok (put_party w me (pa_set_role P (RServer (mkServer (map_put (sv_stored sv) (pa_id Q) (Some m)) (sv_toClient sv)))), Done, [])
      | RServer _, MOutput => Ok (w, Thrown BetweenServers, [])
      | _, _ => Ok (w, Thrown NotAuthorised, [])
      end
    else Ok (w, Thrown NotAuthorised, []).
Proof.
  intros NE HS HQ. pose proof (authorise_known w P M s Q HS HQ) as A. apply str_eqb_neq in NE.
  unfold step, WorldModel.client_receive, WorldModel.server_receive, authorise in *.
  pose proof (proj2 (the_party_ok w s Q) HQ) as TQ.
  destruct (pa_role P) as [c|sv] eqn:ER; rewrite NE, A; cbn [bind]; destruct (hasAuthenticatedId P (pa_id Q)); cbn [andb negb]; try reflexivity;
    destruct (m_type M) eqn:EM, (pa_type Q) eqn:ET; cbn [authorised negb]; try reflexivity; rewrite HS; try reflexivity.
  - rewrite TQ. cbn [bind]. rewrite ET. reflexivity.
  - rewrite TQ. cbn [bind]. rewrite ET. reflexivity.
Qed.
Lemma step_stranger d w me m P M : m_party M <> pa_id P -> getPartyById P (m_party M) = None ->
  step d w me m P M = match pa_role P with RClient _ => UB NullDeref | RServer _ => Ok (w, Thrown NotAuthorised, []) end.
Proof.
  intros NE HS. apply str_eqb_neq in NE. unfold step, WorldModel.client_receive, WorldModel.server_receive, client_authorised, server_authorised.
  rewrite NE, HS. destruct (pa_role P); reflexivity.
Qed.
(** what a successful or refused delivery tells *)
Lemma step_inv d w me m P M w1 o tr : step d w me m P M = Ok (w1, o, tr) ->
  (w1 = w /\ tr = [] /\ exists r, o = Thrown r) \/
  (m_party M <> pa_id P /\ exists s Q, getPartyById P (m_party M) = Some s /\ nth_error (w_parties w) s = Some Q /\
     hasAuthenticatedId P (pa_id Q) = true /\ accepts (pa_role P) (m_type M) (pa_type Q) /\
     match pa_role P, m_type M with
      | RClient c, MClientRequest => client_request (receive d) w me P c s m M = Ok (w1, o, tr)
      | RClient c, MOutput => client_output sha rand fuel p canzass berlekamp w me P c M = Ok (w1, o, tr)
      | RClient c, MPolynomial => client_polynomial sha rand fuel p canzass berlekamp w me P c M = Ok (w1, o, tr)
      | RServer sv, MCloudRequest => server_request (receive d) w me P sv s m M = Ok (w1, o, tr)
      | RServer sv, MOutsourcing => o = Done /\ tr = [] /\
          w1 = put_party w me (pa_set_role P (RServer (mkServer (map_put (sv_stored sv) (pa_id Q) (Some m)) (sv_toClient sv))))
      | _, _ => False
      end).
Proof.
  intros H. destruct (str_eqb (m_party M) (pa_id P)) eqn:ES.
  { apply str_eqb_eq in ES. rewrite (step_self d w me m P M ES) in H. apply Ok_inj in H. injection H as <- <- <-. left. eauto. }
  apply str_eqb_neq in ES. destruct (getPartyById P (m_party M)) as [s|] eqn:EG.
  2:{ rewrite (step_stranger d w me m P M ES EG) in H. destruct (pa_role P); [discriminate|]. apply Ok_inj in H. injection H as <- <- <-. left. eauto. }
  destruct (nth_error (w_parties w) s) as [Q|] eqn:EQ.
  2:{ exfalso. apply str_eqb_neq in ES. revert H. unfold step, WorldModel.client_receive, WorldModel.server_receive, client_authorised, server_authorised, hasAuthenticated, the_party.
      rewrite ES, EG, EQ. destruct (pa_role P); discriminate. }
  rewrite (step_known d w me m P M s Q ES EG EQ) in H.
  destruct (hasAuthenticatedId P (pa_id Q)) eqn:EA; cbn [andb] in H; [|apply Ok_inj in H; injection H as <- <- <-; left; eauto].
  destruct (authorised (pa_role P) (m_type M) (pa_type Q)) eqn:EZ; [|apply Ok_inj in H; injection H as <- <- <-; left; eauto].
  destruct (pa_role P) as [c|sv] eqn:ER, (m_type M) eqn:EM, (pa_type Q) eqn:ET; cbn [authorised] in EZ; try discriminate EZ; cbn [ptype_eqb] in H.
  - right. split; [exact ES|]. exists s, Q. rewrite ET. cbn [accepts]. auto 10.
  - right. split; [exact ES|]. exists s, Q. rewrite ET. cbn [accepts]. auto 10.
  - right. split; [exact ES|]. exists s, Q. rewrite ET. cbn [accepts]. auto 10.
  - apply Ok_inj in H. injection H as <- <- <-. right. split; [exact ES|]. exists s, Q. rewrite ET. cbn [accepts]. auto 10.
  - apply Ok_inj in H. injection H as <- <- <-. left. eauto.
  - right. split; [exact ES|]. exists s, Q. rewrite ET. cbn [accepts]. auto 10.
  - left. revert H. unfold WorldModel.server_request. rewrite (proj2 (the_party_ok w s Q) EQ). cbn [bind]. rewrite ET. cbn [ptype_eqb].
    intros H. apply Ok_inj in H. injection H as <- <- <-. eauto.
  - apply Ok_inj in H. injection H as <- <- <-. left. eauto.
Qed.

(** *** nesting *)
Lemma client_output_quiet w me P c M w1 o tr : client_output sha rand fuel p canzass berlekamp w me P c M = Ok (w1, o, tr) -> o = Done /\ tr = [].
Proof.
  unfold client_output. intros H. apply bind_ok in H. destruct H as [x [_ H]]. apply bind_ok in H. destruct H as [w2 [_ H]].
  apply Ok_inj in H. injection H as _ <- <-. auto.
Qed.
Lemma client_polynomial_quiet w me P c M w1 o tr : client_polynomial sha rand fuel p canzass berlekamp w me P c M = Ok (w1, o, tr) -> o = Done /\ tr = [].
Proof.
  unfold client_polynomial. intros H. apply bind_ok in H. destruct H as [x [_ H]]. apply bind_ok in H. destruct H as [w2 [_ H]].
  apply Ok_inj in H. injection H as _ <- <-. auto.
Qed.
(** results and outputs cause no further delivery *)
Definition quiet (t : mtype) : Prop := match t with MClientRequest | MCloudRequest => False | _ => True end.
Lemma receive_quiet d w me m M : nth_error (w_msgs w) m = Some M -> quiet (m_type M) ->
  forall w1 o tr, receive (S d) w me m = Ok (w1, o, tr) -> o <> TooDeep /\ length tr = 1%nat.
Proof.
  intros HM HQ w1 o tr H. apply receive_inv in H. destruct H as [P [M' [tr' [HP [HM' [H ->]]]]]]. assert (M' = M) by congruence. subst M'.
  apply step_inv in H. destruct H as [[_ [-> [r ->]]]|[_ [s [Q [_ [_ [_ [AC H]]]]]]]]; [split; [discriminate|reflexivity]|].
  destruct (pa_role P) as [c|sv], (m_type M) eqn:EM; cbn [quiet] in HQ; try contradiction.
  - apply client_output_quiet in H. destruct H as [-> ->]. split; [discriminate|reflexivity].
  - apply client_polynomial_quiet in H. destruct H as [-> ->]. split; [discriminate|reflexivity].
  - destruct H as [-> [-> _]]. split; [discriminate|reflexivity].
Qed.
Lemma put_msg_get w m M M0 : nth_error (w_msgs w) m = Some M0 -> nth_error (w_msgs (put_msg w m M)) m = Some M.
Proof. intros H. cbn. apply (nth_upd_same _ _ _ _ H). Qed.
Lemma receive_cloud d w me m M : nth_error (w_msgs w) m = Some M -> m_type M = MCloudRequest ->
  forall w1 o tr, receive (S (S d)) w me m = Ok (w1, o, tr) -> o <> TooDeep /\ (length tr <= 2)%nat.
Proof.
  intros HM HT w1 o tr H. apply receive_inv in H. destruct H as [P [M' [tr' [HP [HM' [H ->]]]]]]. assert (M' = M) by congruence. subst M'.
  apply step_inv in H. destruct H as [[_ [-> [r ->]]]|[_ [s [Q [_ [HQ [_ [AC H]]]]]]]]; [split; [discriminate|cbn; lia]|].
  rewrite HT in H, AC. destruct (pa_role P) as [c|sv]; [contradiction|].
  revert H. unfold WorldModel.server_request. rewrite (proj2 (the_party_ok w s Q) HQ). cbn [bind].
  destruct (ptype_eqb (pa_type Q) TServer); [intros H; apply Ok_inj in H; injection H as _ <- <-; split; [discriminate|cbn; lia]|].
  intros H. apply bind_ok in H. destruct H as [cs [_ H]]. apply bind_ok in H. destruct H as [cl [_ H]].
  destruct (negb (str_eqb cl (pa_id Q))); [apply Ok_inj in H; injection H as _ <- <-; split; [discriminate|cbn; lia]|].
  apply bind_ok in H. destruct H as [pt [_ H]]. apply bind_ok in H. destruct H as [kb [_ H]]. apply bind_ok in H. destruct H as [[w2 t] [_ H]].
  cbn [alloc] in H. apply bind_ok in H. destruct H as [MC [HMC H]]. apply the_msg_ok in HMC.
  destruct (getPartyById P pt) as [to|]; [|discriminate]. cbn [send_with] in H.
  apply bind_ok in H. destruct H as [[[w4 o4] tr4] [H4 H]].
  eapply receive_quiet in H4; [|apply (put_msg_get _ _ _ _ HMC)|exact I]. destruct H4 as [N4 L4].
  destruct o4; [|apply Ok_inj in H; injection H as _ <- <-; split; [discriminate|cbn; lia]|congruence].
  apply bind_ok in H. destruct H as [M4 [_ H]]. apply bind_ok in H. destruct H as [x [_ H]]. apply bind_ok in H. destruct H as [w5 [_ H]].
  apply Ok_inj in H. injection H as _ <- <-. split; [discriminate|cbn; lia].
Qed.
Lemma receive_bounded d w me m w1 o tr : receive (S (S (S d))) w me m = Ok (w1, o, tr) -> o <> TooDeep /\ (length tr <= 4)%nat.
Proof.
  intros H. pose proof H as H0. apply receive_inv in H. destruct H as [P [M [tr' [HP [HM [H ->]]]]]].
  assert (quiet (m_type M) \/ m_type M = MCloudRequest \/ m_type M = MClientRequest) as [K|[K|K]] by (destruct (m_type M); cbn; auto).
  { apply (receive_quiet _ _ _ _ M HM K) in H0. destruct H0 as [A B]. split; [exact A|lia]. }
  { apply (receive_cloud _ _ _ _ M HM K) in H0. destruct H0 as [A B]. split; [exact A|lia]. }
  clear H0. apply step_inv in H. destruct H as [[_ [-> [r ->]]]|[_ [s [Q [_ [HQ [_ [AC H]]]]]]]]; [split; [discriminate|cbn; lia]|].
  rewrite K in H, AC. destruct (pa_role P) as [c|sv]; [|contradiction].
  revert H. unfold WorldModel.client_request. intros H.
  apply bind_ok in H. destruct H as [cs [_ H]]. apply bind_ok in H. destruct H as [cl [_ H]]. apply bind_ok in H. destruct H as [Q' [_ H]].
  destruct (negb (str_eqb cl (pa_id Q'))); [apply Ok_inj in H; injection H as _ <- <-; split; [discriminate|cbn; lia]|].
  apply bind_ok in H. destruct H as [[key k] [_ H]]. apply bind_ok in H. destruct H as [dd [_ H]].
  cbn [alloc] in H. apply bind_ok in H. destruct H as [MC [HMC H]]. apply the_msg_ok in HMC.
  apply bind_ok in H. destruct H as [[cl'|] [_ H]]; [|discriminate].
  apply bind_ok in H. destruct H as [M2 [_ H]]. apply bind_ok in H. destruct H as [cs2 [_ H]]. apply bind_ok in H. destruct H as [sb [_ H]].
  cbn [send_with] in H. apply bind_ok in H. destruct H as [[[w3 o3] tr3] [H3 H]].
  eapply receive_cloud in H3; [|apply (put_msg_get _ _ _ _ HMC)|reflexivity]. destruct H3 as [N3 L3].
  destruct o3; [|discriminate|congruence].
  apply bind_ok in H. destruct H as [[[w4 o4] tr4] [H4 H]]. apply Ok_inj in H. injection H as _ <- <-.
  unfold client_reply in H4. apply bind_ok in H4. destruct H4 as [P3 [_ H4]]. apply bind_ok in H4. destruct H4 as [c3 [_ H4]].
  apply bind_ok in H4. destruct H4 as [[[co1 zp1] q] [_ H4]]. cbn [alloc] in H4. apply bind_ok in H4. destruct H4 as [M3 [HM3 H4]]. apply the_msg_ok in HM3.
  cbn [send_with] in H4. eapply receive_quiet in H4; [|apply (put_msg_get _ _ _ _ HM3)|exact I]. destruct H4 as [N4 L4].
  split; [exact N4|]. cbn [length]. rewrite app_length. lia.
Qed.
End R.
