(** More about deliveries: independence of the bound, a principle for
    invariants, clients that completed a run, the order of the results. *)
From Verif Require Import Base Lib NtlMiss StrIntModel HashBucketsModel PRFModel PolyModel EopsiModel WorldModel WorldSpec WorldProofs WorldFrame WorldRun.
From Coq Require Import Lia.

Lemma bind_ext {A B} (x : res A) (f g : A -> res B) : (forall a, x = Ok a -> f a = g a) -> bind x f = bind x g.
Proof. intros H. destruct x; cbn; auto. Qed.

Lemma bind_ext_l {A B} (x y : res A) (f : A -> res B) : x = y -> bind x f = bind y f.
Proof. intros ->. reflexivity. Qed.

Section R.
Variable sha : list Z -> list Z.
Variable rand : nat -> Z.
Variable fuel : nat.
Variable p : Z.
Variables canzass berlekamp : nat -> list Z -> list (list Z * Z).
Variable hw : nat.
Variable rbits : nat -> Z.
#[local] Notation receive := (receive sha rand fuel p canzass berlekamp rbits).
#[local] Notation step := (step sha rand fuel p canzass berlekamp rbits).
#[local] Notation try_intersect := (try_intersect sha rand fuel p canzass berlekamp).
#[local] Notation intersect := (intersect sha rand fuel p canzass berlekamp).
#[local] Notation client_output := (client_output sha rand fuel p canzass berlekamp).
#[local] Notation client_polynomial := (client_polynomial sha rand fuel p canzass berlekamp).
#[local] Notation exec := (exec sha rand fuel p canzass berlekamp hw rbits).
#[local] Notation exec_all := (exec_all sha rand fuel p canzass berlekamp hw rbits).

(** *** the bound on the nesting does not matter *)
Lemma receive_none d w me m : nth_error (w_parties w) me = None \/ nth_error (w_msgs w) m = None -> receive (S d) w me m = UB Dangling.
Proof.
  intros H. cbn [WorldModel.receive]. unfold the_party. destruct (nth_error (w_parties w) me); [|reflexivity]. cbn [bind].
  destruct H as [H|H]; [discriminate|]. unfold the_msg. rewrite H. reflexivity.
Qed.
Lemma quiet_depth d d' w me m M : nth_error (w_msgs w) m = Some M -> quiet (m_type M) -> receive (S d) w me m = receive (S d') w me m.
Proof.
  intros HM HQ. destruct (nth_error (w_parties w) me) as [P|] eqn:HP; [|rewrite !receive_none by auto; reflexivity].
  rewrite !(receive_S _ _ _ _ _ _ _ _ w me m P M HP HM). apply bind_ext_l. unfold WorldProofs.step, client_receive, server_receive.
  destruct (pa_role P).
  - destruct (str_eqb (m_party M) (pa_id P)); [reflexivity|]. apply bind_ext. intros ok _. destruct ok; cbn [negb]; [|reflexivity]. destruct (getPartyById P (m_party M)); [|reflexivity].
    destruct (m_type M); try contradiction; reflexivity.
  - destruct (str_eqb (m_party M) (pa_id P)); [reflexivity|]. apply bind_ext. intros ok _. destruct ok; cbn [negb]; [|reflexivity]. destruct (getPartyById P (m_party M)); [|reflexivity].
    destruct (m_type M); try contradiction; reflexivity.
Qed.
Lemma cloud_depth d d' w me m M : nth_error (w_msgs w) m = Some M -> m_type M = MCloudRequest -> receive (S (S d)) w me m = receive (S (S d')) w me m.
Proof.
  intros HM HQ. destruct (nth_error (w_parties w) me) as [P|] eqn:HP; [|rewrite !receive_none by auto; reflexivity].
  rewrite !(receive_S _ _ _ _ _ _ _ _ w me m P M HP HM). apply bind_ext_l. unfold WorldProofs.step, client_receive, server_receive. rewrite HQ.
  destruct (pa_role P) as [c|s].
  { destruct (str_eqb (m_party M) (pa_id P)); [reflexivity|]. apply bind_ext. intros ok _. destruct ok; cbn [negb]; [|reflexivity]. destruct (getPartyById P (m_party M)); reflexivity. }
  destruct (str_eqb (m_party M) (pa_id P)); [reflexivity|]. apply bind_ext. intros ok _. destruct ok; cbn [negb]; [|reflexivity].
  destruct (getPartyById P (m_party M)) as [x|]; [|reflexivity].
  unfold server_request. apply bind_ext. intros Q _. destruct (ptype_eqb (pa_type Q) TServer); [reflexivity|].
  apply bind_ext. intros cs _. apply bind_ext. intros cl _. destruct (negb (str_eqb cl (pa_id Q))); [reflexivity|].
  apply bind_ext. intros pt _. apply bind_ext. intros kb _. apply bind_ext. intros [w1 t] _. cbn [alloc]. apply bind_ext. intros MC HMC.
  apply the_msg_ok in HMC. destruct (getPartyById P pt); [|reflexivity]. cbn [send_with]. apply bind_ext_l. eapply quiet_depth; [apply (put_msg_get _ _ _ _ HMC)|exact I].
Qed.
Lemma receive_depth d w me m : receive (3 + d) w me m = receive 3 w me m.
Proof.
  change (receive (S (2 + d)) w me m = receive (S 2) w me m).
  destruct (nth_error (w_parties w) me) as [P|] eqn:HP; [|rewrite !receive_none by auto; reflexivity].
  destruct (nth_error (w_msgs w) m) as [M|] eqn:HM; [|rewrite !receive_none by auto; reflexivity].
  assert (quiet (m_type M) \/ m_type M = MCloudRequest \/ m_type M = MClientRequest) as [K|[K|K]] by (destruct (m_type M); cbn; auto).
  - eapply quiet_depth; eassumption.
  - apply (cloud_depth (1 + d) 1 w me m M HM K).
  - rewrite !(receive_S _ _ _ _ _ _ _ _ w me m P M HP HM). apply bind_ext_l. unfold WorldProofs.step, client_receive, server_receive. rewrite K.
    destruct (pa_role P) as [c|s].
    2:{ destruct (str_eqb (m_party M) (pa_id P)); [reflexivity|]. apply bind_ext. intros ok _. destruct ok; cbn [negb]; [|reflexivity]. destruct (getPartyById P (m_party M)); reflexivity. }
    destruct (str_eqb (m_party M) (pa_id P)); [reflexivity|]. apply bind_ext. intros ok _. destruct ok; cbn [negb]; [|reflexivity].
    destruct (getPartyById P (m_party M)) as [x|]; [|reflexivity].
    unfold client_request. apply bind_ext. intros cs _. apply bind_ext. intros cl _. apply bind_ext. intros Q _. destruct (negb (str_eqb cl (pa_id Q))); [reflexivity|].
    apply bind_ext. intros [key k] _. apply bind_ext. intros dd _. cbn [alloc]. apply bind_ext. intros MC HMC. apply the_msg_ok in HMC.
    apply bind_ext. intros [cl'|] _; [|reflexivity]. apply bind_ext. intros M2 _. apply bind_ext. intros cs2 _. apply bind_ext. intros sb _. cbn [send_with].
    etransitivity; [apply bind_ext_l; eapply (cloud_depth d 0); [apply (put_msg_get _ _ _ _ HMC)|reflexivity]|]. apply bind_ext. intros [[w3 o] tr] _. destruct o; [|reflexivity|reflexivity]. apply bind_ext_l.
    unfold client_reply. apply bind_ext. intros P3 _. apply bind_ext. intros c3 _. apply bind_ext. intros [[co zp] q] _. cbn [alloc]. apply bind_ext. intros M3 HM3.
    apply the_msg_ok in HM3. cbn [send_with]. eapply quiet_depth; [apply (put_msg_get _ _ _ _ HM3)|exact I].
Qed.

(** *** invariants of deliveries *)
Section Inv.
Variable I : world -> Prop.
Record closed : Prop := mkClosed {
  cl_draws : forall w k, I w -> I (w_set_draws w k);
  cl_heap : forall w b, I w -> I (w_set_heap w (w_heap w ++ [b]));
  cl_msg : forall w m M, I w -> I (put_msg w m M);
  cl_free : forall w a w1, I w -> release w a = Ok w1 -> I w1;
  cl_server : forall w i P s s' co, I w -> nth_error (w_parties w) i = Some P -> pa_role P = RServer s ->
    I (put_party w i (pa_set_core (pa_set_role P (RServer s')) co));
  cl_helper : forall w i P c zp co q, I w -> nth_error (w_parties w) i = Some P -> pa_role P = RClient c ->
    I (put_party (w_set_heap w (w_heap w ++ [BMat q])) i (pa_set_core (pa_set_role P (RClient (cl_set_q (cl_set_zp c zp) (Some (length (w_heap w)))))) co));
  cl_result : forall w i P c t a x w1, I w -> nth_error (w_parties w) i = Some P -> pa_role P = RClient c ->
    entries_at (w_heap w) a 0%nat 0%nat = Ok x -> try_intersect (put_client w i P (result_of c t a)) i = Ok w1 -> I w1
}.
Lemma step_invariant d w me m P M : closed -> I w -> nth_error (w_parties w) me = Some P ->
  (forall w me m, I w -> forall w1 o tr, receive d w me m = Ok (w1, o, tr) -> I w1) ->
  forall w1 o tr, step d w me m P M = Ok (w1, o, tr) -> I w1.
Proof.
  intros C IW HP IH w1 o tr H. apply step_inv in H. destruct H as [[-> _]|[_ [s [Q [_ [HQ [_ [AC H]]]]]]]]; [exact IW|].
  destruct (pa_role P) as [c|sv] eqn:ER, (m_type M); try contradiction.
  - (* client request *)
    revert H. unfold client_request. intros H.
    apply bind_ok in H. destruct H as [cs [_ H]]. apply bind_ok in H. destruct H as [cl [_ H]]. apply bind_ok in H. destruct H as [Q' [_ H]].
    destruct (negb (str_eqb cl (pa_id Q'))); [apply Ok_inj in H; injection H as <- _ _; exact IW|].
    apply bind_ok in H. destruct H as [[key k] [_ H]]. apply bind_ok in H. destruct H as [dd [_ H]].
    cbn [alloc] in H. apply bind_ok in H. destruct H as [MC [HMC H]]. 
    apply bind_ok in H. destruct H as [[cl'|] [_ H]]; [|discriminate].
    apply bind_ok in H. destruct H as [M2 [_ H]]. apply bind_ok in H. destruct H as [cs2 [_ H]]. apply bind_ok in H. destruct H as [sb [_ H]].
    cbn [send_with] in H. apply bind_ok in H. destruct H as [[[w3 o3] tr3] [H3 H]].
    assert (K3 : I w3). { eapply IH in H3; [exact H3|]. apply (cl_msg C), (cl_heap C), (cl_draws C), IW. }
    destruct o3; [|discriminate|apply Ok_inj in H; injection H as <- _ _; exact K3].
    apply bind_ok in H. destruct H as [[[w4 o4] tr4] [H4 H]]. apply Ok_inj in H. injection H as <- _ _.
    unfold client_reply in H4. apply bind_ok in H4. destruct H4 as [P3 [HP3 H4]]. apply bind_ok in H4. destruct H4 as [c3 [HC3 H4]].
    apply bind_ok in H4. destruct H4 as [[[co1 zp1] q] [_ H4]]. cbn [alloc] in H4. apply bind_ok in H4. destruct H4 as [M3 [HM3 H4]].
    cbn [send_with] in H4. apply the_party_ok in HP3. unfold as_client in HC3. destruct (pa_role P3) eqn:ER3; [|discriminate]. apply Ok_inj in HC3. subst c0.
    eapply IH in H4; [exact H4|]. apply (cl_msg C). apply (cl_helper C w3 me P3 c3 zp1 co1 q K3 HP3 ER3).
  - unfold WorldModel.client_output in H. apply bind_ok in H. destruct H as [x [HX H]]. apply bind_ok in H. destruct H as [w2 [H2 H]].
    apply Ok_inj in H. injection H as <- _ _. exact (cl_result C w me P c MOutput (m_data M) x w2 IW HP ER HX H2).
  - unfold WorldModel.client_polynomial in H. apply bind_ok in H. destruct H as [x [HX H]]. apply bind_ok in H. destruct H as [w2 [H2 H]].
    apply Ok_inj in H. injection H as <- _ _. exact (cl_result C w me P c MPolynomial (m_data M) x w2 IW HP ER HX H2).
  - (* outsourcing *)
    destruct H as [_ [_ ->]].
    set (r := RServer _). replace (pa_set_role P r) with (pa_set_core (pa_set_role P r) (pa_core P)) by (destruct P; reflexivity).
    apply (cl_server C w me P sv _ _ IW HP ER).
  - (* cloud request *)
    revert H. unfold server_request. rewrite (proj2 (the_party_ok w s Q) HQ). cbn [bind].
    destruct (ptype_eqb (pa_type Q) TServer); [intros H; apply Ok_inj in H; injection H as <- _ _; exact IW|].
    intros H. apply bind_ok in H. destruct H as [cs [_ H]]. apply bind_ok in H. destruct H as [cl [_ H]].
    destruct (negb (str_eqb cl (pa_id Q))); [apply Ok_inj in H; injection H as <- _ _; exact IW|].
    apply bind_ok in H. destruct H as [pt [_ H]]. apply bind_ok in H. destruct H as [kb [_ H]]. apply bind_ok in H. destruct H as [[w2 t] [HI H]].
    cbn [alloc] in H. apply bind_ok in H. destruct H as [MC [HMC H]].
    destruct (getPartyById P pt) as [to|]; [|discriminate]. cbn [send_with] in H.
    apply bind_ok in H. destruct H as [[[w4 o4] tr4] [H4 H]].
    assert (K2 : I w2).
    { unfold intersectionOutput in HI. rewrite (proj2 (the_party_ok w me P) HP) in HI. cbn [bind] in HI. rewrite ER in HI.
      destruct (stored_get (sv_stored sv) (pa_id Q)) as [m1 [a|]]; destruct (stored_get m1 pt) as [m2 [b|]]; try discriminate.
      apply bind_ok in HI. destruct HI as [MA [_ HI]]. apply bind_ok in HI. destruct HI as [MB [_ HI]]. apply bind_ok in HI. destruct HI as [[co t'] [_ HI]].
      apply Ok_inj in HI. injection HI as <- _. apply (cl_server C w me P sv _ _ IW HP ER). }
    eapply IH in H4; [|apply (cl_msg C), (cl_heap C), K2].
    destruct o4; try (apply Ok_inj in H; injection H as <- _ _; exact H4).
    apply bind_ok in H. destruct H as [M4 [_ H]]. apply bind_ok in H. destruct H as [x [_ H]]. apply bind_ok in H. destruct H as [w5 [H5 H]].
    apply Ok_inj in H. injection H as <- _ _. exact (cl_free C _ _ _ H4 H5).
Qed.
Lemma receive_invariant : closed -> forall d w me m w1 o tr, I w -> receive d w me m = Ok (w1, o, tr) -> I w1.
Proof.
  intros C. induction d as [|d IH]; intros w me m w1 o tr IW H.
  - cbn in H. apply Ok_inj in H. injection H as <- _ _. exact IW.
  - apply receive_inv in H. destruct H as [P [M [tr' [HP [HM [H _]]]]]].
    eapply step_invariant; [exact C|exact IW|exact HP| |exact H]. intros w0 me0 m0 IW0 w2 o2 tr2 H2. exact (IH w0 me0 m0 w2 o2 tr2 IW0 H2).
Qed.
End Inv.

(** *** clients that have completed a run as requesters *)
(** [t] points to a freed array and [q] is not null *)
Definition spent (B : nat) (w : world) : Prop :=
  exists P c a b, nth_error (w_parties w) B = Some P /\ pa_role P = RClient c /\ cl_t c = Some a /\ nth_error (w_heap w) a = Some Freed /\ cl_q c = Some b.
Lemma release_heap w a w1 : release w a = Ok w1 -> (forall i, nth_error (w_heap w) i = Some Freed -> nth_error (w_heap w1) i = Some Freed) /\ w_parties w1 = w_parties w /\
  (forall i, a = Some i -> nth_error (w_heap w1) i = Some Freed).
Proof.
  unfold release. destruct a as [a|]; [|intros H; apply Ok_inj in H; subst; split; [auto|split; [reflexivity|discriminate]]].
  destruct (nth_error (w_heap w) a) as [[| |]|] eqn:E; try discriminate; intros H; apply Ok_inj in H; subst w1; cbn.
  - split; [|split; [reflexivity|]]; [intros i Hi|intros i Hi; injection Hi as <-; exact (nth_upd_same _ _ _ _ E)].
    destruct (Nat.eq_dec a i) as [->|NE]; [exact (nth_upd_same _ _ _ _ E)|rewrite nth_upd_other; assumption].
  - split; [|split; [reflexivity|]]; [intros i Hi|intros i Hi; injection Hi as <-; exact (nth_upd_same _ _ _ _ E)].
    destruct (Nat.eq_dec a i) as [->|NE]; [exact (nth_upd_same _ _ _ _ E)|rewrite nth_upd_other; assumption].
Qed.
(** what a completed intersect leaves behind *)
Lemma try_intersect_inv w i w1 : try_intersect w i = Ok w1 ->
  exists P c, nth_error (w_parties w) i = Some P /\ pa_role P = RClient c /\
  (w1 = w /\ (cl_t c = None \/ cl_q c = None) \/
   exists a b co vs, cl_t c = Some a /\ cl_q c = Some b /\ nth_error (w_heap w) a <> Some Freed /\ nth_error (w_heap w) b <> Some Freed /\
     nth_error (w_heap w1) a = Some Freed /\ nth_error (w_heap w1) b = Some Freed /\
     (forall j, nth_error (w_heap w) j = Some Freed -> nth_error (w_heap w1) j = Some Freed) /\
     w_parties w1 = upd (w_parties w) i (pa_set_core (pa_set_role P (RClient (cl_set_setcap c vs))) co)).
Proof.
  unfold WorldModel.try_intersect. intros H. apply bind_ok in H. destruct H as [P [HP H]]. apply bind_ok in H. destruct H as [c [HC H]].
  apply bind_ok in H. destruct H as [r [HI H]]. apply the_party_ok in HP. unfold as_client in HC. destruct (pa_role P) as [c0|] eqn:ER; [|discriminate]. apply Ok_inj in HC. subst c0.
  exists P, c. split; [exact HP|]. split; [exact ER|]. unfold EopsiModel.intersect in HI. apply bind_ok in HI. destruct HI as [pad [_ HI]].
  destruct (cl_q c) as [b|] eqn:EQ; cbn [opt_entries] in HI; [|left; apply Ok_inj in HI; subst r; apply Ok_inj in H; auto].
  destruct (cl_t c) as [a|] eqn:ET; cbn [opt_entries] in HI; [|left; apply Ok_inj in HI; subst r; apply Ok_inj in H; auto].
  right. apply bind_ok in HI. destruct HI as [df [_ HI]]. apply bind_ok in HI. destruct HI as [[c1 us] [_ HI]]. apply bind_ok in HI. destruct HI as [[x vs] [_ HI]].
  apply Ok_inj in HI. subst r. apply bind_ok in H. destruct H as [w2 [H2 H]].
  exists a, b, c1, vs. split; [reflexivity|]. split; [reflexivity|].
  assert (NA : nth_error (w_heap w) a <> Some Freed). { intros X. cbn in H2. rewrite X in H2. discriminate. }
  assert (NB2 : nth_error (w_heap w2) b <> Some Freed). { intros X. cbn in H. rewrite X in H. discriminate. }
  apply release_heap in H2. destruct H2 as [F2 [P2 A2]]. apply release_heap in H. destruct H as [F1 [P1 A1]]. cbn in F2, P2.
  split; [exact NA|]. split; [intros X; apply NB2, F2, X|]. split; [apply F1, A2; reflexivity|]. split; [apply A1; reflexivity|]. split; [auto|]. rewrite P1, P2. reflexivity.
Qed.
Lemma spent_put B w i P0 P : spent B w -> nth_error (w_parties w) i = Some P0 ->
  (i = B -> forall c a b, pa_role P0 = RClient c -> cl_t c = Some a -> cl_q c = Some b -> exists c', pa_role P = RClient c' /\ cl_t c' = Some a /\ cl_q c' <> None) ->
  spent B (put_party w i P).
Proof.
  intros [Q [c [a [b [HQ [ER [ET [HF EQ]]]]]]]] HP H. destruct (Nat.eq_dec i B) as [->|NE].
  - assert (Q = P0) by congruence. subst Q. destruct (H eq_refl c a b ER ET EQ) as [c' [ER' [ET' EQ']]]. destruct (cl_q c') as [b'|] eqn:E'; [|congruence].
    exists P, c', a, b'. cbn. rewrite (nth_upd_same _ _ _ _ HP). auto.
  - exists Q, c, a, b. cbn. rewrite nth_upd_other by congruence. auto.
Qed.
Lemma spent_heap B w w' : spent B w -> w_parties w' = w_parties w -> (forall i, nth_error (w_heap w) i = Some Freed -> nth_error (w_heap w') i = Some Freed) -> spent B w'.
Proof. intros [Q [c [a [b [HQ [ER [ET [HF EQ]]]]]]]] EP HH. exists Q, c, a, b. rewrite EP. auto 10. Qed.
Lemma spent_closed B : closed (spent B).
Proof.
  split.
  - intros w k S. apply (spent_heap B w); auto.
  - intros w b S. apply (spent_heap B w); auto. intros i H. apply nth_snoc_old. exact H.
  - intros w m M S. apply (spent_heap B w); auto.
  - intros w a w1 S H. apply release_heap in H. apply (spent_heap B w); [exact S|apply H|apply H].
  - intros w i P s s' co S HP ER. apply (spent_put B w i P); [exact S|exact HP|]. intros _ c a b E. congruence.
  - intros w i P c zp co q S HP ER. apply (spent_put B _ i P); [|exact HP|].
    + apply (spent_heap B w); auto. intros j H. apply nth_snoc_old. exact H.
    + intros _ c0 a b E0 ET EQ. assert (c0 = c) by congruence. subst c0. eexists. split; [reflexivity|]. cbn. split; [exact ET|discriminate].
  - intros w i P c t a x w1 S HP ER HX H. apply try_intersect_inv in H. destruct H as [P1 [c1 [HP1 [ER1 H]]]].
    cbn in HP1. rewrite (nth_upd_same _ _ _ _ HP) in HP1. injection HP1 as <-. cbn in ER1. injection ER1 as <-.
    destruct (Nat.eq_dec i B) as [->|NE].
    + destruct S as [Q [c0 [a0 [b0 [HQ [E0 [ET [HF EQ]]]]]]]]. assert (Q = P) by congruence. subst Q. assert (c0 = c) by congruence. subst c0.
      assert (NA : a <> None) by (intros ->; cbn in HX; discriminate).
      destruct H as [[_ [H|H]]|H].
      * exfalso. destruct t; cbn in H; congruence.
      * exfalso. destruct t; cbn in H; congruence.
      * destruct H as [a1 [b1 [co [vs [H1 [H2 [_ [_ [H3 [H4 [_ H5]]]]]]]]]]].
        eexists. exists (cl_set_setcap (result_of c t a) vs), a1, b1. rewrite H5. cbn [put_client put_party w_set_parties w_parties].
        split; [apply (nth_upd_same _ _ _ (pa_set_role P (RClient (result_of c t a)))); cbn; apply (nth_upd_same _ _ _ _ HP)|]. split; [reflexivity|]. split; [exact H1|]. split; [exact H3|exact H2].
    + destruct S as [Q [c0 [a0 [b0 [HQ [E0 [ET [HF EQ]]]]]]]]. exists Q, c0, a0, b0. destruct H as [[-> _]|H].
      * cbn. rewrite nth_upd_other by congruence. auto.
      * destruct H as [a1 [b1 [co [vs [_ [_ [_ [_ [_ [_ [H4 H5]]]]]]]]]]]. rewrite H5. cbn. rewrite !nth_upd_other by congruence. auto 10.
Qed.
Lemma exec_spent B w o w1 out : exec w o = Ok (w1, out) -> spent B w -> spent B w1.
Proof.
  intros H S. destruct o; cbn [WorldModel.exec] in H.
  1,2: apply Ok_inj in H; injection H as <- _; destruct S as [Q [c [a [b [HQ [ER [ET [HF EQ]]]]]]]]; exists Q, c, a, b; cbn; rewrite (nth_snoc_old _ _ _ _ HQ); auto 10.
  1: apply Ok_inj in H; injection H as <- _; apply (spent_heap B w); auto.
  1: apply Ok_inj in H; injection H as <- _; apply (cl_heap _ (spent_closed B)), S.
  1,2,3,4: unfold on_party in H; apply bind_ok in H; destruct H as [P [HP H]]; apply the_party_ok in HP; cbn [bind] in H; apply Ok_inj in H; injection H as <- _;
    apply (spent_put B w i P); [exact S|exact HP|]; intros _ c a b ER ET EQ; exists c; cbn; rewrite EQ; split; [exact ER|split; [exact ET|discriminate]].
  - unfold on_party in H. apply bind_ok in H. destruct H as [P [HP H]]. apply the_party_ok in HP. apply bind_ok in H. destruct H as [P1 [HP1 H]].
    apply bind_ok in HP1. destruct HP1 as [c1 [HC HP1]]. unfold as_client in HC. destruct (pa_role P) as [c0|] eqn:ER; [|discriminate]. apply Ok_inj in HC. subst c0.
    apply Ok_inj in HP1. subst P1. apply Ok_inj in H. injection H as <- _.
    apply (spent_put B w i P); [exact S|exact HP|]. intros _ c a b E ET EQ. rewrite ER in E. injection E as ->. eexists. split; [reflexivity|]. cbn. rewrite EQ. split; [exact ET|discriminate].
  - apply bind_ok in H. destruct H as [w2 [H2 H]]. apply Ok_inj in H. injection H as <- _. unfold authenticate in H2.
    apply bind_ok in H2. destruct H2 as [P [HP H2]]. apply the_party_ok in HP. apply bind_ok in H2. destruct H2 as [Q [HQ H2]]. apply Ok_inj in H2. subst w2.
    destruct (str_eqb (pa_id Q) (pa_id P)); [exact S|]. apply (spent_put B w i P); [exact S|exact HP|]. intros _ c a b ER ET EQ. exists c. cbn. rewrite EQ. split; [exact ER|split; [exact ET|discriminate]].
  - apply bind_ok in H. destruct H as [w2 [H2 H]]. apply Ok_inj in H. injection H as <- _. unfold setRawData in H2.
    apply bind_ok in H2. destruct H2 as [P [HP H2]]. apply the_party_ok in HP. apply bind_ok in H2. destruct H2 as [c1 [HC H2]].
    unfold as_client in HC. destruct (pa_role P) as [c0|] eqn:ER; [|discriminate]. apply Ok_inj in HC. subst c0.
    destruct raw as [raw|]; [|apply Ok_inj in H2; subst; exact S]. destruct size; [apply Ok_inj in H2; subst; exact S|].
    apply bind_ok in H2. destruct H2 as [[[[co h1] zp1] bl] [_ H2]]. cbn [alloc] in H2. apply Ok_inj in H2. subst w2.
    apply (spent_heap B (put_party (w_set_heap w (w_heap w ++ [BMat bl])) i (pa_set_core (pa_set_role P
            (RClient (mkClient raw (Datatypes.S size) (Some bits) (Some (length (w_heap w))) (cl_secret c1) h1 (cl_q c1) (cl_t c1) zp1
                        (cl_toCloud c1) (cl_toClient c1) (cl_setcap c1)))) co))); auto.
    apply (spent_put B _ i P); [|exact HP|].
    + apply (cl_heap _ (spent_closed B)), S.
    + intros _ c a b E ET EQ. assert (c = c1) by congruence. subst c. eexists. split; [reflexivity|]. cbn. rewrite EQ. split; [exact ET|discriminate].
  - unfold on_msg in H. apply bind_ok in H. destruct H as [M [_ H]]. apply Ok_inj in H. injection H as <- _. apply (cl_msg _ (spent_closed B)), S.
  - unfold on_msg in H. apply bind_ok in H. destruct H as [M [_ H]]. apply Ok_inj in H. injection H as <- _. apply (cl_msg _ (spent_closed B)), S.
  - unfold on_msg in H. apply bind_ok in H. destruct H as [M [_ H]]. apply Ok_inj in H. injection H as <- _. apply (cl_msg _ (spent_closed B)), S.
  - apply bind_ok in H. destruct H as [[[w2 o2] tr] [H2 H]]. apply Ok_inj in H. injection H as <- _. unfold send, send_with in H2.
    destruct m as [m|]; [|apply Ok_inj in H2; injection H2 as <- _ _; exact S]. exact (receive_invariant _ (spent_closed B) _ _ _ _ _ _ _ S H2).
Qed.
Lemma history_spent B l : forall w w', exec_all w l = Ok w' -> spent B w -> spent B w'.
Proof.
  induction l as [|o l IH]; intros w w' H S; cbn [WorldModel.exec_all] in H.
  - apply Ok_inj in H. subst. exact S.
  - apply bind_ok in H. destruct H as [[w1 out] [H1 H]]. exact (IH w1 w' H (exec_spent B w o w1 out H1 S)).
Qed.

(** reading the freed arrays *)
Lemma intersect_reads_t c b t q k x : (0 < co_length c)%nat -> (0 < co_degree c)%nat -> t 0%nat 0%nat = UB x -> intersect c (Some b) (Some t) (Some q) k = UB x.
Proof.
  intros HL HD HT. unfold EopsiModel.intersect. cbn [padSize bind]. destruct (co_length c) as [|L]; [lia|]. destruct (co_degree c) as [|D]; [lia|].
  cbn [seq mapM]. rewrite HT. reflexivity.
Qed.
Lemma intersect_reads_q c b t q k v x : (0 < co_length c)%nat -> (0 < co_degree c)%nat -> t 0%nat 0%nat = Ok v -> q 0%nat 0%nat = UB x -> intersect c (Some b) (Some t) (Some q) k = UB x.
Proof.
  intros HL HD HT HQ. unfold EopsiModel.intersect. cbn [padSize bind]. destruct (co_length c) as [|L]; [lia|]. destruct (co_degree c) as [|D]; [lia|].
  cbn [seq mapM]. rewrite HT. cbn [bind]. rewrite HQ. reflexivity.
Qed.
End R.
