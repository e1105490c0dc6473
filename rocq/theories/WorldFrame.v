(** What a delivery leaves alone, and histories of calls. *)
From Verif Require Import Base Lib NtlMiss PRFModel HashBucketsModel EopsiModel WorldModel WorldSpec WorldProofs.
From Coq Require Import Lia.

(** the parts of a party no delivery changes, except for outsourcing messages *)
Definition kept_party (P P' : party) : Prop :=
  pa_id P' = pa_id P /\ pa_type P' = pa_type P /\ pa_parties P' = pa_parties P /\
  match pa_role P, pa_role P' with
  | RClient c, RClient c' => cl_rawData c' = cl_rawData c /\ cl_rawDataSize c' = cl_rawDataSize c /\ cl_rawDataBits c' = cl_rawDataBits c /\
      cl_blinded c' = cl_blinded c /\ cl_secret c' = cl_secret c /\ cl_table c' = cl_table c /\ cl_toCloud c' = cl_toCloud c /\ cl_toClient c' = cl_toClient c
  | RServer s, RServer s' => sv_stored s' = sv_stored s /\ sv_toClient s' = sv_toClient s
  | _, _ => False
  end.
Lemma kept_party_refl P : kept_party P P.
Proof. repeat split. destruct (pa_role P); auto 10. Qed.
Lemma kept_party_trans P Q R : kept_party P Q -> kept_party Q R -> kept_party P R.
Proof.
  intros [A1 [A2 [A3 A4]]] [B1 [B2 [B3 B4]]]. unfold kept_party. rewrite B1, B2, B3. repeat (split; [assumption|]).
  destruct (pa_role P), (pa_role Q), (pa_role R); try contradiction; intuition congruence.
Qed.
Definition kept (w w' : world) : Prop := Forall2 kept_party (w_parties w) (w_parties w').
Lemma kept_refl w : kept w w.
Proof. unfold kept. induction (w_parties w); constructor; [apply kept_party_refl|assumption]. Qed.
Lemma kept_trans w1 w2 w3 : kept w1 w2 -> kept w2 w3 -> kept w1 w3.
Proof.
  unfold kept. generalize (w_parties w1) (w_parties w2) (w_parties w3). intros l1 l2 l3 H. revert l3. induction H; intros l3 H3; inversion H3; subst; constructor; eauto using kept_party_trans.
Qed.
Lemma kept_put w w' i P P' : kept w w' -> nth_error (w_parties w') i = Some P -> kept_party P P' -> kept w (put_party w' i P').
Proof.
  intros K HN KP. eapply kept_trans; [exact K|]. unfold kept. cbn. revert i HN. induction (w_parties w') as [|a l IH]; intros i HN; [destruct i; discriminate|].
  destruct i; cbn in HN |- *.
  - injection HN as ->. constructor; [exact KP|]. clear. induction l; constructor; [apply kept_party_refl|assumption].
  - constructor; [apply kept_party_refl|]. apply IH. exact HN.
Qed.
Lemma kept_same w w1 w2 : kept w w1 -> w_parties w2 = w_parties w1 -> kept w w2.
Proof. unfold kept. intros K ->. exact K. Qed.
Lemma kept_at w w' i P : kept w w' -> nth_error (w_parties w) i = Some P -> exists P', nth_error (w_parties w') i = Some P' /\ kept_party P P'.
Proof.
  unfold kept. intros K. revert i. induction K; intros i HN; [destruct i; discriminate|].
  destruct i; cbn in HN |- *; [injection HN as <-; eauto|eauto].
Qed.

Section R.
Variable sha : list Z -> list Z.
Variable rand : nat -> Z.
Variable fuel : nat.
Variable p : Z.
Variables canzass berlekamp : nat -> list Z -> list (list Z * Z).
Variable hw : nat.
Variable rbits : nat -> Z.
#[local] Notation receive := (receive sha rand fuel p canzass berlekamp rbits).
#[local] Notation exec := (exec sha rand fuel p canzass berlekamp hw rbits).
#[local] Notation exec_all := (exec_all sha rand fuel p canzass berlekamp hw rbits).
#[local] Notation step := (step sha rand fuel p canzass berlekamp rbits).
#[local] Notation try_intersect := (try_intersect sha rand fuel p canzass berlekamp).

Lemma release_parties w a w1 : release w a = Ok w1 -> w_parties w1 = w_parties w /\ w_msgs w1 = w_msgs w.
Proof.
  destruct a as [a|]; cbn; [|intros H; apply Ok_inj in H; subst; auto]. destruct (nth_error (w_heap w) a) as [[]|]; try discriminate; intros H; apply Ok_inj in H; subst; auto.
Qed.
Lemma intersect_kept w i w1 : try_intersect w i = Ok w1 -> kept w w1 /\ w_msgs w1 = w_msgs w.
Proof.
  unfold WorldModel.try_intersect. intros H. apply bind_ok in H. destruct H as [P [HP H]]. apply bind_ok in H. destruct H as [c [HC H]].
  apply bind_ok in H. destruct H as [r [_ H]]. apply the_party_ok in HP. unfold as_client in HC. destruct (pa_role P) as [c0|] eqn:ER; [|discriminate]. apply Ok_inj in HC. subst c0.
  destruct r as [[co vs]|]; [|apply Ok_inj in H; subst; split; [apply kept_refl|reflexivity]].
  apply bind_ok in H. destruct H as [w2 [H2 H]]. apply release_parties in H2, H. destruct H2 as [A B]. destruct H as [A' B'].
  split; [|rewrite B', B; reflexivity]. eapply kept_same; [|rewrite A', A; reflexivity]. cbn [w_set_facts w_parties]. apply (kept_put w w i P); [apply kept_refl|exact HP|].
  unfold kept_party. cbn. rewrite ER. auto 15.
Qed.

Lemma step_kept d w me m P M : nth_error (w_parties w) me = Some P -> m_type M <> MOutsourcing ->
  (forall w me m M, nth_error (w_msgs w) m = Some M -> m_type M <> MOutsourcing -> forall w1 o tr, receive d w me m = Ok (w1, o, tr) -> kept w w1) ->
  forall w1 o tr, step d w me m P M = Ok (w1, o, tr) -> kept w w1.
Proof.
  intros HP HT IH w1 o tr H. apply step_inv in H. destruct H as [[-> _]|[_ [s [Q [_ [HQ [_ [AC H]]]]]]]]; [apply kept_refl|].
  destruct (pa_role P) as [c|sv] eqn:ER, (m_type M); try contradiction.
  - (* client request *)
    revert H. unfold client_request. intros H.
    apply bind_ok in H. destruct H as [cs [_ H]]. apply bind_ok in H. destruct H as [cl [_ H]]. apply bind_ok in H. destruct H as [Q' [_ H]].
    destruct (negb (str_eqb cl (pa_id Q'))); [apply Ok_inj in H; injection H as <- _ _; apply kept_refl|].
    apply bind_ok in H. destruct H as [[key k] [_ H]]. apply bind_ok in H. destruct H as [dd [_ H]].
    cbn [alloc] in H. apply bind_ok in H. destruct H as [MC [HMC H]]. apply the_msg_ok in HMC.
    apply bind_ok in H. destruct H as [[cl'|] [_ H]]; [|discriminate].
    apply bind_ok in H. destruct H as [M2 [_ H]]. apply bind_ok in H. destruct H as [cs2 [_ H]]. apply bind_ok in H. destruct H as [sb [_ H]].
    cbn [send_with] in H. apply bind_ok in H. destruct H as [[[w3 o3] tr3] [H3 H]].
    assert (K3 : kept w w3).
    { eapply IH in H3; [exact H3|apply (put_msg_get _ _ _ _ HMC)|discriminate]. }
    destruct o3; [|discriminate|apply Ok_inj in H; injection H as <- _ _; exact K3].
    apply bind_ok in H. destruct H as [[[w4 o4] tr4] [H4 H]]. apply Ok_inj in H. injection H as <- _ _.
    unfold client_reply in H4. apply bind_ok in H4. destruct H4 as [P3 [HP3 H4]]. apply bind_ok in H4. destruct H4 as [c3 [HC3 H4]].
    apply bind_ok in H4. destruct H4 as [[[co1 zp1] q] [_ H4]]. cbn [alloc] in H4. apply bind_ok in H4. destruct H4 as [M3 [HM3 H4]]. apply the_msg_ok in HM3.
    cbn [send_with] in H4. eapply kept_trans; [exact K3|]. apply the_party_ok in HP3. unfold as_client in HC3. destruct (pa_role P3) eqn:ER3; [|discriminate]. apply Ok_inj in HC3. subst c0.
    eapply IH in H4; [|apply (put_msg_get _ _ _ _ HM3)|discriminate]. eapply kept_trans; [|exact H4].
    eapply kept_same; [|reflexivity]. apply (kept_put w3 (w_set_heap w3 (w_heap w3 ++ [BMat q])) me P3); [eapply kept_same; [apply kept_refl|reflexivity]|exact HP3|].
    unfold kept_party. cbn. rewrite ER3. auto 15.
  - (* output *)
    unfold client_output in H. apply bind_ok in H. destruct H as [x [_ H]]. apply bind_ok in H. destruct H as [w2 [H2 H]].
    apply Ok_inj in H. injection H as <- _ _. apply intersect_kept in H2. eapply kept_trans; [|apply H2].
    apply (kept_put w w me P); [apply kept_refl|exact HP|]. unfold kept_party. cbn. rewrite ER. auto 15.
  - unfold client_polynomial in H. apply bind_ok in H. destruct H as [x [_ H]]. apply bind_ok in H. destruct H as [w2 [H2 H]].
    apply Ok_inj in H. injection H as <- _ _. apply intersect_kept in H2. eapply kept_trans; [|apply H2].
    apply (kept_put w w me P); [apply kept_refl|exact HP|]. unfold kept_party. cbn. rewrite ER. auto 15.
  - (* cloud request *)
    revert H. unfold server_request. rewrite (proj2 (the_party_ok w s Q) HQ). cbn [bind].
    destruct (ptype_eqb (pa_type Q) TServer); [intros H; apply Ok_inj in H; injection H as <- _ _; apply kept_refl|].
    intros H. apply bind_ok in H. destruct H as [cs [_ H]]. apply bind_ok in H. destruct H as [cl [_ H]].
    destruct (negb (str_eqb cl (pa_id Q))); [apply Ok_inj in H; injection H as <- _ _; apply kept_refl|].
    apply bind_ok in H. destruct H as [pt [_ H]]. apply bind_ok in H. destruct H as [kb [_ H]]. apply bind_ok in H. destruct H as [[w2 t] [HI H]].
    cbn [alloc] in H. apply bind_ok in H. destruct H as [MC [HMC H]]. apply the_msg_ok in HMC.
    destruct (getPartyById P pt) as [to|]; [|discriminate]. cbn [send_with] in H.
    apply bind_ok in H. destruct H as [[[w4 o4] tr4] [H4 H]].
    assert (K2 : kept w w2).
    { unfold intersectionOutput in HI. rewrite (proj2 (the_party_ok w me P) HP) in HI. cbn [bind] in HI. rewrite ER in HI.
      unfold stored_get in HI. destruct (map_find (sv_stored sv) (pa_id Q)) as [[a|]|] eqn:EA; [| |].
      - destruct (map_find (sv_stored sv) pt) as [[b|]|] eqn:EB; [|discriminate|discriminate].
        apply bind_ok in HI. destruct HI as [MA [_ HI]]. apply bind_ok in HI. destruct HI as [MB [_ HI]]. apply bind_ok in HI. destruct HI as [[co t'] [_ HI]].
        apply Ok_inj in HI. injection HI as <- _. apply (kept_put w w me P); [apply kept_refl|exact HP|]. unfold kept_party. cbn. rewrite ER. auto 15.
      - destruct (map_find (sv_stored sv) pt); discriminate.
      - destruct (map_find (map_put (sv_stored sv) (pa_id Q) None) pt); discriminate. }
    eapply IH in H4; [|apply (put_msg_get _ _ _ _ HMC)|discriminate].
    assert (K4 : kept w w4) by (eapply kept_trans; [exact K2|exact H4]).
    destruct o4; try (apply Ok_inj in H; injection H as <- _ _; exact K4).
    apply bind_ok in H. destruct H as [M4 [_ H]]. apply bind_ok in H. destruct H as [x [_ H]]. apply bind_ok in H. destruct H as [w5 [H5 H]].
    apply Ok_inj in H. injection H as <- _ _. apply release_parties in H5. eapply kept_same; [exact K4|apply H5].
Qed.
Lemma receive_kept : forall d w me m M, nth_error (w_msgs w) m = Some M -> m_type M <> MOutsourcing ->
  forall w1 o tr, receive d w me m = Ok (w1, o, tr) -> kept w w1.
Proof.
  induction d as [|d IH]; intros w me m M HM HT w1 o tr H.
  - cbn in H. apply Ok_inj in H. injection H as <- _ _. apply kept_refl.
  - apply receive_inv in H. destruct H as [P [M' [tr' [HP [HM' [H _]]]]]]. assert (M' = M) by congruence. subst M'.
    exact (step_kept d w me m P M HP HT IH w1 o tr' H).
Qed.
(** an outsourcing message changes at most the receiver's store *)
Lemma receive_outsourcing d w me m M w1 o tr : nth_error (w_msgs w) m = Some M -> m_type M = MOutsourcing -> receive (S d) w me m = Ok (w1, o, tr) ->
  (w1 = w /\ exists r, o = Thrown r) \/
  (o = Done /\ exists P sv s Q, nth_error (w_parties w) me = Some P /\ pa_role P = RServer sv /\ getPartyById P (m_party M) = Some s /\ nth_error (w_parties w) s = Some Q /\
     w1 = put_party w me (pa_set_role P (RServer (mkServer (map_put (sv_stored sv) (pa_id Q) (Some m)) (sv_toClient sv))))).
Proof.
  intros HM HT H. apply receive_inv in H. destruct H as [P [M' [tr' [HP [HM' [H _]]]]]]. assert (M' = M) by congruence. subst M'.
  apply step_inv in H. destruct H as [[-> [_ [r ->]]]|[_ [s [Q [HG [HQ [_ [AC H]]]]]]]]; [left; eauto|].
  rewrite HT in H, AC. destruct (pa_role P) as [c|sv] eqn:ER; [contradiction|]. destruct H as [-> [_ ->]]. right. split; [reflexivity|]. exists P, sv, s, Q. auto 10.
Qed.

(** *** one call of a program: directories and stores *)
Definition party_at (w : world) (i : nat) : option party := nth_error (w_parties w) i.
Lemma put_at w i j P Q : nth_error (w_parties w) i = Some Q -> party_at (put_party w i P) j = if Nat.eqb i j then Some P else party_at w j.
Proof.
  intros H. unfold party_at. cbn. rewrite nth_upd. assert (i < length (w_parties w))%nat by (apply nth_error_Some; congruence).
  destruct (Nat.ltb_spec i (length (w_parties w))); [reflexivity|lia].
Qed.

Definition stored_of (P : party) (id : list Z) : option (option nat) :=
  match pa_role P with RClient _ => None | RServer s => map_find (sv_stored s) id end.

(** what one call does to the directory, the store and the id of party [me] *)
Lemma exec_effect w o w1 out me P : exec w o = Ok (w1, out) -> nth_error (w_parties w) me = Some P ->
  exists P1, nth_error (w_parties w1) me = Some P1 /\
    (forall id, getPartyById P1 id = match latest (registers w me o) id with Some j => Some j | None => getPartyById P id end) /\
    (forall id, stored_of P1 id = match latest (outsources sha rand fuel p canzass berlekamp hw rbits w me o) id with
        Some m => Some (Some m) | None => stored_of P id end) /\
    (match pa_role P, pa_role P1 with RClient _, RClient _ | RServer _, RServer _ => True | _, _ => False end) /\
    ((forall id, o <> OSetId me id) -> pa_id P1 = pa_id P).
Proof.
  intros H HP.
  assert (ROLE : forall Q, kept_party P Q -> match pa_role P, pa_role Q with RClient _, RClient _ | RServer _, RServer _ => True | _, _ => False end).
  { intros Q [_ [_ [_ K]]]. destruct (pa_role P), (pa_role Q); auto. }
  (* calls that change neither: P1 with the same role and directory *)
  assert (SIMPLE : forall P1, nth_error (w_parties w1) me = Some P1 -> pa_parties P1 = pa_parties P -> (forall id, stored_of P1 id = stored_of P id) ->
     (match pa_role P, pa_role P1 with RClient _, RClient _ | RServer _, RServer _ => True | _, _ => False end) ->
     ((forall id, o <> OSetId me id) -> pa_id P1 = pa_id P) ->
     registers w me o = [] -> outsources sha rand fuel p canzass berlekamp hw rbits w me o = [] ->
     exists P1, nth_error (w_parties w1) me = Some P1 /\
    (forall id, getPartyById P1 id = match latest (registers w me o) id with Some j => Some j | None => getPartyById P id end) /\
    (forall id, stored_of P1 id = match latest (outsources sha rand fuel p canzass berlekamp hw rbits w me o) id with
        Some m => Some (Some m) | None => stored_of P id end) /\
    (match pa_role P, pa_role P1 with RClient _, RClient _ | RServer _, RServer _ => True | _, _ => False end) /\
    ((forall id, o <> OSetId me id) -> pa_id P1 = pa_id P)).
  { intros P1 H1 HD HS HR HI E1 E2. exists P1. split; [exact H1|]. rewrite E1, E2. unfold latest, getPartyById. cbn. rewrite HD. auto. }
  assert (SELF : match pa_role P, pa_role P with RClient _, RClient _ | RServer _, RServer _ => True | _, _ => False end) by (destruct (pa_role P); exact I).
  assert (ON : forall i f, on_party w i f = Ok (w1, out) -> (forall Q Q1, f Q = Ok Q1 -> pa_parties Q1 = pa_parties Q /\ (forall id, stored_of Q1 id = stored_of Q id) /\
       match pa_role Q, pa_role Q1 with RClient _, RClient _ | RServer _, RServer _ => True | _, _ => False end /\ (pa_id Q1 = pa_id Q \/ exists id, o = OSetId i id)) ->
     registers w me o = [] -> outsources sha rand fuel p canzass berlekamp hw rbits w me o = [] ->
     exists P1, nth_error (w_parties w1) me = Some P1 /\
    (forall id, getPartyById P1 id = match latest (registers w me o) id with Some j => Some j | None => getPartyById P id end) /\
    (forall id, stored_of P1 id = match latest (outsources sha rand fuel p canzass berlekamp hw rbits w me o) id with
        Some m => Some (Some m) | None => stored_of P id end) /\
    (match pa_role P, pa_role P1 with RClient _, RClient _ | RServer _, RServer _ => True | _, _ => False end) /\
    ((forall id, o <> OSetId me id) -> pa_id P1 = pa_id P)).
  { intros i f HO HF E1 E2. unfold on_party in HO. apply bind_ok in HO. destruct HO as [Q [HQ HO]]. apply bind_ok in HO. destruct HO as [Q1 [HQ1 HO]].
    apply Ok_inj in HO. injection HO as <- _. apply the_party_ok in HQ. destruct (HF Q Q1 HQ1) as [F1 [F2 [F3 F4]]].
    pose proof (put_at w i me Q1 Q HQ) as A. unfold party_at in A. destruct (Nat.eqb_spec i me) as [->|NE].
    - assert (Q = P) by congruence. subst Q. apply (SIMPLE Q1); auto. intros N. destruct F4 as [F4|[id F4]]; [exact F4|exfalso; exact (N id F4)].
    - apply (SIMPLE P); auto. rewrite A. exact HP. }
  destruct o; cbn [WorldModel.exec] in H.
  - apply Ok_inj in H. injection H as <- <-. apply (SIMPLE P); auto. cbn. apply nth_snoc_old. exact HP.
  - apply Ok_inj in H. injection H as <- <-. apply (SIMPLE P); auto. cbn. apply nth_snoc_old. exact HP.
  - apply Ok_inj in H. injection H as <- <-. apply (SIMPLE P); auto.
  - apply Ok_inj in H. injection H as <- <-. apply (SIMPLE P); auto.
  - apply (ON i _ H); auto. intros Q Q1 E. apply Ok_inj in E. subst Q1. cbn. repeat split; eauto. destruct (pa_role Q); exact I.
  - apply (ON i _ H); auto. intros Q Q1 E. apply Ok_inj in E. subst Q1. cbn. repeat split; eauto. destruct (pa_role Q); exact I.
  - apply (ON i _ H); auto. intros Q Q1 E. apply Ok_inj in E. subst Q1. cbn. repeat split; eauto. destruct (pa_role Q); exact I.
  - apply (ON i _ H); auto. intros Q Q1 E. apply Ok_inj in E. subst Q1. cbn. repeat split; eauto. destruct (pa_role Q); exact I.
  - apply (ON i _ H); auto. intros Q Q1 E. unfold as_client in E. destruct (pa_role Q) as [c|] eqn:ER; [|discriminate]. cbn [bind] in E. apply Ok_inj in E. subst Q1. cbn.
    repeat split; eauto. intros id. unfold stored_of. cbn. rewrite ER. reflexivity.
  - (* authenticate *)
    apply bind_ok in H. destruct H as [w2 [H2 H]]. apply Ok_inj in H. injection H as -> _. unfold authenticate in H2.
    apply bind_ok in H2. destruct H2 as [A [HA H2]]. apply bind_ok in H2. destruct H2 as [B [HB H2]]. apply Ok_inj in H2. apply the_party_ok in HA, HB.
    unfold registers. destruct (Nat.eqb_spec i me) as [->|NE].
    + assert (A = P) by congruence. subst A. rewrite HP, HB. destruct (str_eqb (pa_id B) (pa_id P)) eqn:EI.
      * subst w1. exists P. cbn. auto 10.
      * subst w1. pose proof (put_at w me me (pa_set_parties P (map_put (pa_parties P) (pa_id B) j)) P HP) as A. unfold party_at in A. rewrite Nat.eqb_refl in A.
        exists (pa_set_parties P (map_put (pa_parties P) (pa_id B) j)). split; [exact A|]. split.
        { intros id. unfold getPartyById, latest. cbn [pa_set_parties pa_parties rev app find fst]. rewrite map_find_put, (str_eqb_sym id).
          destruct (str_eqb (pa_id B) id); reflexivity. }
        cbn. auto 10.
    + exists P. split; [|cbn; auto 10]. subst w1. destruct (str_eqb (pa_id B) (pa_id A)); [exact HP|].
      pose proof (put_at w i me (pa_set_parties A (map_put (pa_parties A) (pa_id B) j)) A HA) as X. unfold party_at in X. rewrite X.
      destruct (Nat.eqb_spec i me); [contradiction|exact HP].
  - (* setRawData *)
    apply bind_ok in H. destruct H as [w2 [H2 H]]. apply Ok_inj in H. injection H as -> _. unfold setRawData in H2.
    apply bind_ok in H2. destruct H2 as [A [HA H2]]. apply bind_ok in H2. destruct H2 as [c [HC H2]]. apply the_party_ok in HA.
    destruct raw as [raw|]; [|apply Ok_inj in H2; subst; apply (SIMPLE P); auto].
    destruct size as [|size]; [apply Ok_inj in H2; subst; apply (SIMPLE P); auto|].
    apply bind_ok in H2. destruct H2 as [[[[co h1] zp1] bl] [_ H2]]. cbn [alloc] in H2. apply Ok_inj in H2.
    unfold as_client in HC. destruct (pa_role A) as [c0|] eqn:ER; [|discriminate]. apply Ok_inj in HC. subst c0.
    set (A1 := pa_set_core _ co) in H2. subst w1. cbn [w_set_rand w_parties]. change (w_parties (put_party (w_set_heap w (w_heap w ++ [BMat bl])) i A1)) with (w_parties (put_party w i A1)).
    pose proof (put_at w i me A1 A HA) as X. unfold party_at in X. destruct (Nat.eqb_spec i me) as [->|NE].
    + assert (A = P) by congruence. subst A. apply (SIMPLE A1); auto; try reflexivity.
      * intros id. unfold stored_of, A1. cbn. rewrite ER. reflexivity.
      * unfold A1. cbn. rewrite ER. exact I.
    + apply (SIMPLE P); auto. cbn [w_set_rand w_parties]. change (w_parties (put_party (w_set_heap w (w_heap w ++ [BMat bl])) i A1)) with (w_parties (put_party w i A1)). rewrite X. exact HP.
  - unfold on_msg in H. apply bind_ok in H. destruct H as [M [_ H]]. apply Ok_inj in H. injection H as <- <-. apply (SIMPLE P); auto.
  - unfold on_msg in H. apply bind_ok in H. destruct H as [M [_ H]]. apply Ok_inj in H. injection H as <- <-. apply (SIMPLE P); auto.
  - unfold on_msg in H. apply bind_ok in H. destruct H as [M [_ H]]. apply Ok_inj in H. injection H as <- <-. apply (SIMPLE P); auto.
  - (* send *)
    destruct m as [m|].
    2:{ cbn in H. apply Ok_inj in H. injection H as <- <-. apply (SIMPLE P); auto. }
    pose proof H as HE. cbn [WorldModel.send send_with] in H. apply bind_ok in H. destruct H as [[[w2 o2] tr] [H H2]]. apply Ok_inj in H2. injection H2 as -> ->.
    destruct (nth_error (w_msgs w) m) as [M|] eqn:EM.
    2:{ exfalso. apply receive_inv in H. destruct H as [? [? [? [_ [HM _]]]]]. congruence. }
    assert (ET : m_type M = MOutsourcing \/ m_type M <> MOutsourcing) by (destruct (m_type M); auto; right; discriminate).
    destruct ET as [ET|ET].
    + apply (receive_outsourcing _ _ _ _ M) in H; [|exact EM|exact ET].
      assert (EO : outsources sha rand fuel p canzass berlekamp hw rbits w me (OSend to (Some m)) =
        if Nat.eqb to me then match getPartyById P (m_party M), out with Some s, Done => match nth_error (w_parties w) s with Some Q => [(pa_id Q, m)] | None => [] end | _, _ => [] end else []).
      { unfold outsources. destruct (Nat.eqb_spec to me) as [->|]; [|reflexivity]. rewrite HP, EM. change (WorldModel.exec sha rand fuel p canzass berlekamp hw rbits w (OSend me (Some m))) with (do (w1, out, _) <- send sha rand fuel p canzass berlekamp rbits 4 w me (Some m); Ok (w1, out)).
        cbn [WorldModel.exec] in HE. rewrite HE, ET. destruct out; [reflexivity| |]; destruct (getPartyById P (m_party M)); reflexivity. }
      destruct H as [[-> [r ->]]|[-> [A [sv [s [Q [HA [ER [HG [HQ ->]]]]]]]]]].
      * apply (SIMPLE P); auto. rewrite EO. destruct (Nat.eqb to me); [|reflexivity]. destruct (getPartyById P (m_party M)); reflexivity.
      * set (A1 := pa_set_role A _). pose proof (put_at w to me A1 A HA) as X. unfold party_at in X. destruct (Nat.eqb_spec to me) as [->|NE].
        -- assert (A = P) by congruence. subst A. exists A1. split; [exact X|]. rewrite EO, HG, HQ. split; [intros id; reflexivity|]. split.
           { intros id. unfold stored_of, A1, latest. cbn [pa_set_role pa_role sv_stored rev app find fst]. rewrite ER, map_find_put, (str_eqb_sym id).
             destruct (str_eqb (pa_id Q) id); reflexivity. }
           split; [unfold A1; cbn; rewrite ER; exact I|reflexivity].
        -- apply (SIMPLE P); auto. etransitivity; [exact X|exact HP].
    + pose proof (receive_kept _ _ _ _ M EM ET _ _ _ H) as K. destruct (kept_at _ _ me P K HP) as [P1 [HP1 KP]].
      apply (SIMPLE P1); [exact HP1|apply KP| |apply ROLE; exact KP|intros _; apply KP|reflexivity|].
      * intros id. destruct KP as [_ [_ [_ KP]]]. unfold stored_of. destruct (pa_role P), (pa_role P1); try contradiction; [reflexivity|]. destruct KP as [-> _]. reflexivity.
      * unfold outsources. destruct (Nat.eqb to me); [|reflexivity]. rewrite HP, EM. destruct (WorldModel.exec _ _ _ _ _ _ _ _ _ _) as [[? []]| | | |]; try reflexivity. destruct (m_type M); try reflexivity. contradiction.
Qed.

Lemma latest_app l1 l2 id : latest (l1 ++ l2) id = match latest l2 id with Some v => Some v | None => latest l1 id end.
Proof.
  unfold latest. rewrite rev_app_distr. induction (rev l2) as [|[k v] l IH]; [cbn; reflexivity|]. cbn. destruct (str_eqb k id); [reflexivity|exact IH].
Qed.

Lemma history_effect l : forall w w' me P, exec_all w l = Ok w' -> nth_error (w_parties w) me = Some P ->
  exists P', nth_error (w_parties w') me = Some P' /\
    (forall id, getPartyById P' id =
       match latest (log_of sha rand fuel p canzass berlekamp hw rbits (fun w o => registers w me o) w l) id with Some j => Some j | None => getPartyById P id end) /\
    (forall id, stored_of P' id =
       match latest (log_of sha rand fuel p canzass berlekamp hw rbits (fun w o => outsources sha rand fuel p canzass berlekamp hw rbits w me o) w l) id with
       | Some m => Some (Some m) | None => stored_of P id end) /\
    (match pa_role P, pa_role P' with RClient _, RClient _ | RServer _, RServer _ => True | _, _ => False end) /\
    ((forall id, ~ In (OSetId me id) l) -> pa_id P' = pa_id P).
Proof.
  induction l as [|o l IH]; intros w w' me P H HP.
  - cbn in H. apply Ok_inj in H. subst w'. exists P. cbn. repeat split; auto. destruct (pa_role P); exact I.
  - cbn [WorldModel.exec_all] in H. apply bind_ok in H. destruct H as [[w1 out] [H1 H]].
    destruct (exec_effect w o w1 out me P H1 HP) as [P1 [HP1 [D1 [S1 [R1 I1]]]]].
    destruct (IH w1 w' me P1 H HP1) as [P2 [HP2 [D2 [S2 [R2 I2]]]]]. exists P2. split; [exact HP2|]. cbn [log_of]. rewrite H1.
    split; [intros id; rewrite D2, latest_app, D1; destruct (latest (log_of _ _ _ _ _ _ _ _ _ _ _) id); reflexivity|].
    split; [intros id; rewrite S2, latest_app, S1; destruct (latest (log_of _ _ _ _ _ _ _ _ _ _ _) id); reflexivity|].
    split; [destruct (pa_role P), (pa_role P1), (pa_role P2); auto|].
    intros N. rewrite I2, I1; [reflexivity| |]; intros id X; apply (N id); [left; exact X|right; exact X].
Qed.
End R.
