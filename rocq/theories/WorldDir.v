(** The order of the directories, the choice of the server, null data. *)
From Verif Require Import Base Lib NtlMiss PRFModel HashBucketsModel EopsiModel WorldModel WorldSpec WorldProofs WorldFrame.
From Coq Require Import Lia Sorted.

Definition key_lt {V} (a b : list Z * V) : Prop := str_cmp (fst a) (fst b) = Lt.
Definition ordered {V} (m : list (list Z * V)) : Prop := StronglySorted key_lt m.

Lemma str_cmp_antisym : forall a b, str_cmp b a = CompOpp (str_cmp a b).
Proof.
  induction a as [|x a IH]; intros [|y b]; cbn; try reflexivity. rewrite Z.compare_antisym.
  destruct (x ?= y); cbn; [apply IH|reflexivity|reflexivity].
Qed.
Lemma str_cmp_trans : forall a b c, str_cmp a b = Lt -> str_cmp b c = Lt -> str_cmp a c = Lt.
Proof.
  induction a as [|x a IH]; intros [|y b] [|z c]; cbn; try discriminate; try reflexivity.
  destruct (Z.compare_spec x y) as [E1|L1|L1]; try discriminate; destruct (Z.compare_spec y z) as [E2|L2|L2]; try discriminate; intros H1 H2.
  - rewrite (proj2 (Z.compare_eq_iff x z)) by lia. eapply IH; eassumption.
  - rewrite (proj2 (Z.compare_lt_iff x z)) by lia. reflexivity.
  - rewrite (proj2 (Z.compare_lt_iff x z)) by lia. reflexivity.
  - rewrite (proj2 (Z.compare_lt_iff x z)) by lia. reflexivity.
Qed.
Lemma Forall_put {V} (Q : list Z -> Prop) (m : list (list Z * V)) k v : Q k -> Forall (fun x => Q (fst x)) m -> Forall (fun x => Q (fst x)) (map_put m k v).
Proof.
  intros HQ. induction m as [|[a x] m IH]; intros F; cbn [map_put]; [repeat constructor; exact HQ|]. inversion F as [|y l F1 F2]; subst.
  destruct (str_cmp k a); constructor; auto.
Qed.
Lemma ordered_put {V} (m : list (list Z * V)) k v : ordered m -> ordered (map_put m k v).
Proof.
  induction m as [|[a x] m IH]; intros O'; cbn [map_put]; [repeat constructor|]. inversion O' as [|y l S F]; subst.
  destruct (str_cmp k a) eqn:E.
  - constructor; [exact S|]. eapply Forall_impl; [|exact F]. intros [b z]. exact (fun H => H).
  - constructor; [exact O'|]. constructor; [exact E|]. eapply Forall_impl; [|exact F]. intros [b z] H. exact (str_cmp_trans _ _ _ E H).
  - constructor; [apply IH; exact S|]. apply (Forall_put (fun b => str_cmp a b = Lt)); [rewrite str_cmp_antisym, E; reflexivity|]. exact F.
Qed.
Lemma ordered_find {V} (m : list (list Z * V)) : ordered m -> forall k v, map_find m k = Some v <-> In (k, v) m.
Proof.
  induction m as [|[a x] m IH]; intros O' k v; [split; [discriminate|intros []]|]. inversion O' as [|y l S F]; subst. cbn [map_find In].
  destruct (str_eqb k a) eqn:E.
  - apply str_eqb_eq in E. subst a. split; [intros X; injection X as <-; auto|]. intros [X|X]; [injection X as <-; reflexivity|].
    rewrite Forall_forall in F. pose proof (F _ X) as L. unfold key_lt in L. cbn in L. rewrite str_cmp_refl in L. discriminate.
  - rewrite (IH S k v). apply str_eqb_neq in E. split; [auto|]. intros [X|X]; [congruence|exact X].
Qed.

(** *** the first server of a directory *)
Lemma find_cloud_first w m s : ordered m -> find_cloud w m = Ok (Some s) ->
  exists id Q, In (id, s) m /\ nth_error (w_parties w) s = Some Q /\ pa_type Q = TServer /\
    forall id' s', In (id', s') m -> str_cmp id' id = Lt -> exists Q', nth_error (w_parties w) s' = Some Q' /\ pa_type Q' = TClient.
Proof.
  induction m as [|[a i] m IH]; intros O' H; [discriminate|]. inversion O' as [|y l S F]; subst. cbn [find_cloud] in H.
  apply bind_ok in H. destruct H as [Q [HQ H]]. apply the_party_ok in HQ. destruct (pa_type Q) eqn:ET; cbn [ptype_eqb] in H.
  - destruct (IH S H) as [id [Q1 [I1 [N1 [T1 R]]]]]. exists id, Q1. split; [right; exact I1|]. split; [exact N1|]. split; [exact T1|].
    intros id' s' [X|X] L; [injection X as <- <-; exists Q; auto|exact (R id' s' X L)].
  - apply Ok_inj in H. injection H as <-. exists a, Q. split; [left; reflexivity|]. split; [exact HQ|]. split; [exact ET|].
    intros id' s' [X|X] L; [injection X as <- <-; rewrite str_cmp_refl in L; discriminate|].
    rewrite Forall_forall in F. pose proof (F _ X) as L'. unfold key_lt in L'. cbn in L'. rewrite str_cmp_antisym, L' in L. discriminate.
Qed.
Lemma find_cloud_none w m : (forall id s, In (id, s) m -> exists Q, nth_error (w_parties w) s = Some Q /\ pa_type Q = TClient) -> find_cloud w m = Ok None.
Proof.
  induction m as [|[a i] m IH]; intros H; [reflexivity|]. cbn [find_cloud]. destruct (H a i (or_introl eq_refl)) as [Q [HQ HT]].
  rewrite (proj2 (the_party_ok w i Q) HQ). cbn [bind]. rewrite HT. cbn [ptype_eqb]. apply IH. intros id s X. apply (H id s). right. exact X.
Qed.

Section R.
Variable sha : list Z -> list Z.
Variable rand : nat -> Z.
Variable fuel : nat.
Variable p : Z.
Variables canzass berlekamp : nat -> list Z -> list (list Z * Z).
Variable hw : nat.
Variable rbits : nat -> Z.
#[local] Notation receive := (receive sha rand fuel p canzass berlekamp rbits).
#[local] Notation exec := (exec sha rand fuel p canzass berlekamp hw rbits).
#[local] Notation exec_all := (exec_all sha rand fuel p canzass berlekamp hw rbits).

(** *** directories along a program *)
Definition all_ordered (w : world) : Prop := Forall (fun P => ordered (pa_parties P)) (w_parties w).
Lemma Forall_upd {A} (Q : A -> Prop) l i a : Forall Q l -> Q a -> Forall Q (upd l i a).
Proof. intros F H. revert i. induction F as [|x l Hx F IH]; intros i; destruct i; cbn [upd]; constructor; auto. Qed.
Lemma Forall_nth {A} (Q : A -> Prop) l i a : Forall Q l -> nth_error l i = Some a -> Q a.
Proof. intros F H. rewrite Forall_forall in F. apply F. eapply nth_error_In. exact H. Qed.
Lemma kept_ordered w w' : kept w w' -> all_ordered w -> all_ordered w'.
Proof.
  unfold kept, all_ordered. intros K. induction K as [|P P' l l' KP K IH]; intros F; [constructor|]. inversion F; subst. constructor; [|auto].
  destruct KP as [_ [_ [-> _]]]. assumption.
Qed.
Lemma exec_ordered w o w1 out : exec w o = Ok (w1, out) -> all_ordered w -> all_ordered w1.
Proof.
  intros H F. unfold all_ordered in *.
  assert (PUT : forall i Q Q1, nth_error (w_parties w) i = Some Q -> pa_parties Q1 = pa_parties Q -> Forall (fun P => ordered (pa_parties P)) (upd (w_parties w) i Q1)).
  { intros i Q Q1 HQ E. apply Forall_upd; [exact F|]. rewrite E. exact (Forall_nth _ _ _ _ F HQ). }
  assert (ON : forall i f, on_party w i f = Ok (w1, out) -> (forall Q Q1, f Q = Ok Q1 -> pa_parties Q1 = pa_parties Q) -> Forall (fun P => ordered (pa_parties P)) (w_parties w1)).
  { intros i f HO HF. unfold on_party in HO. apply bind_ok in HO. destruct HO as [Q [HQ HO]]. apply bind_ok in HO. destruct HO as [Q1 [HQ1 HO]].
    apply Ok_inj in HO. injection HO as <- _. apply the_party_ok in HQ. cbn. apply (PUT i Q Q1 HQ (HF Q Q1 HQ1)). }
  destruct o; cbn [WorldModel.exec] in H.
  - apply Ok_inj in H. injection H as <- <-. cbn. apply Forall_app. split; [exact F|]. repeat constructor.
  - apply Ok_inj in H. injection H as <- <-. cbn. apply Forall_app. split; [exact F|]. repeat constructor.
  - apply Ok_inj in H. injection H as <- <-. exact F.
  - apply Ok_inj in H. injection H as <- <-. exact F.
  - apply (ON i _ H). intros Q Q1 E. apply Ok_inj in E. subst. reflexivity.
  - apply (ON i _ H). intros Q Q1 E. apply Ok_inj in E. subst. reflexivity.
  - apply (ON i _ H). intros Q Q1 E. apply Ok_inj in E. subst. reflexivity.
  - apply (ON i _ H). intros Q Q1 E. apply Ok_inj in E. subst. reflexivity.
  - apply (ON i _ H). intros Q Q1 E. apply bind_ok in E. destruct E as [c [_ E]]. apply Ok_inj in E. subst. reflexivity.
  - apply bind_ok in H. destruct H as [w2 [H2 H]]. apply Ok_inj in H. injection H as -> _. unfold authenticate in H2.
    apply bind_ok in H2. destruct H2 as [A [HA H2]]. apply bind_ok in H2. destruct H2 as [B [HB H2]]. apply Ok_inj in H2. apply the_party_ok in HA.
    subst w1. destruct (str_eqb (pa_id B) (pa_id A)); [exact F|]. cbn. apply Forall_upd; [exact F|]. cbn. apply ordered_put. exact (Forall_nth _ _ _ _ F HA).
  - apply bind_ok in H. destruct H as [w2 [H2 H]]. apply Ok_inj in H. injection H as -> _. unfold setRawData in H2.
    apply bind_ok in H2. destruct H2 as [A [HA H2]]. apply bind_ok in H2. destruct H2 as [c [HC H2]]. apply the_party_ok in HA.
    destruct raw as [raw|]; [|apply Ok_inj in H2; subst; exact F]. destruct size as [|size]; [apply Ok_inj in H2; subst; exact F|].
    apply bind_ok in H2. destruct H2 as [[[[co h1] zp1] bl] [_ H2]]. cbn [alloc] in H2. apply Ok_inj in H2. subst w1.
    cbn [w_set_rand w_parties put_party w_set_parties w_set_heap]. apply (PUT i A _ HA). reflexivity.
  - unfold on_msg in H. apply bind_ok in H. destruct H as [M [_ H]]. apply Ok_inj in H. injection H as <- <-. exact F.
  - unfold on_msg in H. apply bind_ok in H. destruct H as [M [_ H]]. apply Ok_inj in H. injection H as <- <-. exact F.
  - unfold on_msg in H. apply bind_ok in H. destruct H as [M [_ H]]. apply Ok_inj in H. injection H as <- <-. exact F.
  - destruct m as [m|]; [|cbn in H; apply Ok_inj in H; injection H as <- <-; exact F].
    cbn [WorldModel.send send_with] in H. apply bind_ok in H. destruct H as [[[w2 o2] tr] [H H2]]. apply Ok_inj in H2. injection H2 as -> ->.
    destruct (nth_error (w_msgs w) m) as [M|] eqn:EM.
    2:{ exfalso. apply receive_inv in H. destruct H as [? [? [? [_ [HM _]]]]]. congruence. }
    assert (ET : m_type M = MOutsourcing \/ m_type M <> MOutsourcing) by (destruct (m_type M); auto; right; discriminate).
    destruct ET as [ET|ET].
    + apply (receive_outsourcing _ _ _ _ _ _ _ _ _ _ _ M) in H; [|exact EM|exact ET]. destruct H as [[-> _]|[_ [A [sv [s [Q [HA [ER [HG [HQ ->]]]]]]]]]]; [exact F|].
      cbn. apply (PUT to A _ HA). reflexivity.
    + apply (kept_ordered w w1); [|exact F]. exact (receive_kept _ _ _ _ _ _ _ _ _ _ _ M EM ET _ _ _ H).
Qed.
Lemma exec_all_ordered l : forall w w', exec_all w l = Ok w' -> all_ordered w -> all_ordered w'.
Proof.
  induction l as [|o l IH]; intros w w' H F; cbn [WorldModel.exec_all] in H; [apply Ok_inj in H; subst; exact F|].
  apply bind_ok in H. destruct H as [[w1 out] [H1 H]]. eapply IH; [exact H|]. exact (exec_ordered _ _ _ _ H1 F).
Qed.

(** *** who is asked *)
Lemma request_server d w me m P c M w' o tr s t rest : nth_error (w_parties w) me = Some P -> nth_error (w_msgs w) m = Some M -> pa_role P = RClient c ->
  m_type M = MClientRequest -> receive (S d) w me m = Ok (w', o, tr) -> tr = (me, MClientRequest) :: (s, t) :: rest ->
  find_cloud w (pa_parties P) = Ok (Some s).
Proof.
  intros HP HM HR HT H HTR. rewrite (receive_S _ _ _ _ _ _ _ d w me m P M HP HM) in H. apply bind_ok in H. destruct H as [[[w1 o1] tr1] [H1 H2]].
  apply Ok_inj in H2. injection H2 as _ _ HX. rewrite HTR in HX. injection HX as _ HX. subst tr1.
  apply step_inv in H1. destruct H1 as [[_ [E _]]|[_ [x [Q [_ [_ [_ [_ H1]]]]]]]]; [discriminate|]. rewrite HR, HT in H1.
  unfold client_request in H1. apply bind_ok in H1. destruct H1 as [cs [_ H1]]. apply bind_ok in H1. destruct H1 as [cl [_ H1]]. apply bind_ok in H1. destruct H1 as [Q' [_ H1]].
  destruct (negb _); [apply Ok_inj in H1; discriminate|]. apply bind_ok in H1. destruct H1 as [[key k] [_ H1]]. apply bind_ok in H1. destruct H1 as [dd [_ H1]]. cbn [alloc] in H1.
  apply bind_ok in H1. destruct H1 as [MC [_ H1]]. apply bind_ok in H1. destruct H1 as [[cloud|] [HF H1]]; [|discriminate].
  assert (FE : forall m0, find_cloud w m0 = Ok (Some cloud) -> find_cloud w m0 = Ok (Some s) \/ cloud <> s) by (intros m0 X; destruct (Nat.eq_dec cloud s) as [->|N]; auto).
  assert (SAME : forall w2 m0, w_parties w2 = w_parties w -> find_cloud w2 m0 = find_cloud w m0).
  { intros w2 m0 E. induction m0 as [|[a i] m0 IH]; [reflexivity|]. cbn [find_cloud]. unfold the_party. rewrite E, IH. reflexivity. }
  rewrite SAME in HF by reflexivity. destruct (FE _ HF) as [X|NE]; [exact X|exfalso].
  apply bind_ok in H1. destruct H1 as [M2 [_ H1]]. apply bind_ok in H1. destruct H1 as [cs2 [_ H1]]. apply bind_ok in H1. destruct H1 as [sb [_ H1]].
  apply bind_ok in H1. destruct H1 as [[[w3 o3] tr3] [HS H1]]. cbn [send_with] in HS.
  assert (T3 : d = O /\ tr3 = [] \/ exists t3 r3, tr3 = (cloud, t3) :: r3).
  { destruct d as [|d]; [left; cbn in HS; apply Ok_inj in HS; injection HS as _ _ <-; auto|]. right. apply receive_inv in HS. destruct HS as [P3 [M3 [r3 [_ [_ [_ ->]]]]]]. eauto. }
  destruct T3 as [[-> ->]|[t3 [r3 ->]]].
  - cbn in HS. apply Ok_inj in HS. injection HS as _ <-. apply Ok_inj in H1. discriminate.
  - destruct o3; [|discriminate|].
    + apply bind_ok in H1. destruct H1 as [[[w4 o4] tr4] [_ H1]]. apply Ok_inj in H1. injection H1 as _ _ E _ _. exact (NE E).
    + apply Ok_inj in H1. injection H1 as _ _ E _ _. exact (NE E).
Qed.

(** *** null data *)
Lemma computeTOrQ_reads c key A B r : computeTOrQ sha rand fuel p c key A B = Ok r -> (0 < co_length c)%nat -> (0 < co_degree c)%nat ->
  exists a b, A O O = Ok a /\ B O O = Ok b.
Proof.
  intros H HL HD. unfold computeTOrQ in H. apply bind_ok in H. destruct H as [[c1 us] [HG H]]. apply bind_ok in H. destruct H as [[[[[st oa] ob] ai] tq] [H _]].
  assert (ED : co_degree c1 = co_degree c).
  { unfold getUnknowns in HG. apply bind_ok in HG. destruct HG as [c2 [HG HG2]]. apply Ok_inj in HG2. injection HG2 as -> _. destruct (_ && _)%bool; [|apply Ok_inj in HG; subst; reflexivity].
    unfold generateUnknowns in HG. apply bind_ok in HG. destruct HG as [[s u] [_ HG]]. apply Ok_inj in HG. subst. reflexivity. }
  destruct (co_length c) as [|L]; [lia|]. cbn [for_up] in H. apply bind_ok in H. destruct H as [s1 [H _]]. unfold tq_row in H.
  apply bind_ok in H. destruct H as [[s2 o2] [_ H]]. apply bind_ok in H. destruct H as [[s3 o3] [_ H]]. apply bind_ok in H. destruct H as [[[s4 a4] r4] [H _]].
  rewrite ED in H. destruct (co_degree c) as [|D]; [lia|]. cbn [for_up] in H. apply bind_ok in H. destruct H as [s5 [H _]]. unfold tq_cell in H.
  apply bind_ok in H. destruct H as [[s6 g] [_ H]]. apply bind_ok in H. destruct H as [a [HA H]]. apply bind_ok in H. destruct H as [u [_ H]]. apply bind_ok in H. destruct H as [b [HB _]].
  exists a, b. auto.
Qed.
End R.
