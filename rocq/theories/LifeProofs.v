(** Proofs about LifeModel.v: freed arrays stay freed, the server reads the
    stored arrays. *)
From Verif Require Import Base Lib NtlMiss StrIntModel HashBucketsModel PRFModel PRFSpec PRFProofs PolyModel PolySpec PolyProofs EopsiModel EopsiSpec EopsiProofs EopsiBlind EopsiRun EopsiFacts.
From Verif Require Import WorldModel WorldSpec WorldProofs WorldFrame WorldRun WorldMore WorldSim WorldLaws WorldDir LifeModel.
From Coq Require Import Lia.

Section R.
Variable sha : list Z -> list Z.
Variable rand : nat -> Z.
Variable fuel : nat.
Variable p : Z.
Variables canzass berlekamp : nat -> list Z -> list (list Z * Z).
Variable hw : nat.
Variable rbits : nat -> Z.
#[local] Notation receive := (receive sha rand fuel p canzass berlekamp rbits).
#[local] Notation exec := (exec sha rand fuel p canzass berlekamp hw rbits).
#[local] Notation exec_life := (exec_life sha rand fuel p canzass berlekamp hw rbits).
#[local] Notation life_all := (life_all sha rand fuel p canzass berlekamp hw rbits).
#[local] Notation computeTOrQ := (computeTOrQ sha rand fuel p).

(** *** freed arrays stay freed *)
Definition gone (a : nat) (w : world) : Prop := nth_error (w_heap w) a = Some Freed.
Lemma gone_closed a : closed sha rand fuel p canzass berlekamp (gone a).
Proof.
  unfold gone. split.
  - intros w k H. exact H.
  - intros w b H. apply nth_snoc_old. exact H.
  - intros w m M H. exact H.
  - intros w b w1 H E. apply release_heap in E. exact (proj1 E _ H).
  - intros w i P s s' co H _ _. exact H.
  - intros w i P c zp co q H _ _. cbn. apply nth_snoc_old. exact H.
  - intros w i P c t b x w1 H HP ER HX E. apply try_intersect_inv in E. destruct E as [P1 [c1 [_ [_ E]]]].
    destruct E as [[-> _]|[a1 [b1 [co [vs [_ [_ [_ [_ [_ [_ [K _]]]]]]]]]]]]; [exact H|apply K; exact H].
Qed.
Lemma exec_gone a w o w1 out : exec w o = Ok (w1, out) -> gone a w -> gone a w1.
Proof.
  unfold gone. intros H G. destruct o; cbn [WorldModel.exec] in H.
  1,2,3: apply Ok_inj in H; injection H as <- _; exact G.
  1: apply Ok_inj in H; injection H as <- _; apply nth_snoc_old; exact G.
  1,2,3,4: unfold on_party in H; apply bind_ok in H; destruct H as [P [_ H]]; cbn [bind] in H; apply Ok_inj in H; injection H as <- _; exact G.
  - unfold on_party in H. apply bind_ok in H. destruct H as [P [_ H]]. apply bind_ok in H. destruct H as [P1 [_ H]]. apply Ok_inj in H. injection H as <- _. exact G.
  - apply bind_ok in H. destruct H as [w2 [H2 H]]. apply Ok_inj in H. injection H as <- _. unfold authenticate in H2.
    apply bind_ok in H2. destruct H2 as [P [_ H2]]. apply bind_ok in H2. destruct H2 as [Q [_ H2]]. apply Ok_inj in H2. subst w2.
    destruct (str_eqb (pa_id Q) (pa_id P)); exact G.
  - apply bind_ok in H. destruct H as [w2 [H2 H]]. apply Ok_inj in H. injection H as <- _. unfold setRawData in H2.
    apply bind_ok in H2. destruct H2 as [P [_ H2]]. apply bind_ok in H2. destruct H2 as [c1 [_ H2]].
    destruct raw as [raw|]; [|apply Ok_inj in H2; subst; exact G]. destruct size; [apply Ok_inj in H2; subst; exact G|].
    apply bind_ok in H2. destruct H2 as [[[[co h1] zp1] bl] [_ H2]]. cbn [alloc] in H2. apply Ok_inj in H2. subst w2. cbn. apply nth_snoc_old. exact G.
  - unfold on_msg in H. apply bind_ok in H. destruct H as [M [_ H]]. apply Ok_inj in H. injection H as <- _. exact G.
  - unfold on_msg in H. apply bind_ok in H. destruct H as [M [_ H]]. apply Ok_inj in H. injection H as <- _. exact G.
  - unfold on_msg in H. apply bind_ok in H. destruct H as [M [_ H]]. apply Ok_inj in H. injection H as <- _. exact G.
  - apply bind_ok in H. destruct H as [[[w2 o2] tr] [H2 H]]. apply Ok_inj in H. injection H as <- _. unfold send, send_with in H2.
    destruct m as [m|]; [|apply Ok_inj in H2; injection H2 as <- _ _; exact G].
    exact (receive_invariant sha rand fuel p canzass berlekamp rbits (gone a) (gone_closed a) _ _ _ _ _ _ _ G H2).
Qed.
Lemma destroy_inv w i w1 : destroy_client w i = Ok w1 -> exists P c, nth_error (w_parties w) i = Some P /\ pa_role P = RClient c /\ release w (cl_blinded c) = Ok w1.
Proof.
  unfold destroy_client. intros H. apply bind_ok in H. destruct H as [P [HP H]]. apply bind_ok in H. destruct H as [c [HC H]].
  apply the_party_ok in HP. unfold as_client in HC. destruct (pa_role P) eqn:E; [|discriminate]. apply Ok_inj in HC. subst. eauto.
Qed.
Lemma destroy_server_inv w i w1 : destroy_server w i = Ok w1 -> w1 = w.
Proof.
  unfold destroy_server. intros H. apply bind_ok in H. destruct H as [P [_ H]]. destruct (pa_role P); [discriminate|]. apply Ok_inj in H. auto.
Qed.
Lemma life_gone a l : forall w w', life_all w l = Ok w' -> gone a w -> gone a w'.
Proof.
  induction l as [|o l IH]; intros w w' H G; cbn [LifeModel.life_all] in H.
  - apply Ok_inj in H. subst. exact G.
  - apply bind_ok in H. destruct H as [w1 [H1 H]]. apply (IH w1 w' H). destruct o as [o|i|i]; cbn [LifeModel.exec_life] in H1.
    + apply bind_ok in H1. destruct H1 as [[w2 out] [H1 H2]]. apply Ok_inj in H2. subst w2. exact (exec_gone a w o w1 out H1 G).
    + apply destroy_inv in H1. destruct H1 as [P [c [_ [_ H1]]]]. apply release_heap in H1. exact (proj1 H1 _ G).
    + apply destroy_server_inv in H1. subst. exact G.
Qed.

(** *** the first cells that computeTOrQ reads *)
Hypothesis HS : is_sha sha.
Hypothesis Hp : 1 < p.
Lemma for_up_first_ub {A} n i (f : nat -> A -> res A) s x : (0 < n)%nat -> f i s = UB x -> for_up n i f s = UB x.
Proof. destruct n as [|n]; [lia|]. intros _ H. cbn [for_up]. rewrite H. reflexivity. Qed.
Lemma computeTOrQ_bad c key A B x : core_ok c -> (0 < co_length c)%nat -> (0 < co_degree c)%nat ->
  A O O = UB x \/ (exists v, A O O = Ok v) /\ B O O = UB x -> computeTOrQ c key A B = UB x.
Proof.
  intros K HL HD HAB. unfold EopsiModel.computeTOrQ.
  destruct (getUnknowns_ok sha HS rand fuel p c (co_degree c) K) as [c1 [E1 [U1 [[S1 [S2 [S3 [S4 S5]]]] [W1 [B1 B2]]]]]]. rewrite E1. cbn [bind].
  assert (NU : exists u, nth_error (points_of sha p c (co_degree c)) 0 = Some u).
  { unfold points_of. destruct (Nat.eqb_spec (length (co_unknowns c)) 0) as [E|E].
    - destruct (co_degree c) as [|D]; [lia|]. destruct (points sha p (num_bits (co_fieldsize c)) (S D)) as [|u us] eqn:EP; [|exists u; reflexivity].
      exfalso. pose proof (points_length p sha (num_bits (co_fieldsize c)) (S D)) as PL. rewrite EP in PL. discriminate.
    - destruct (co_unknowns c) as [|u us]; [contradiction E; reflexivity|exists u; reflexivity]. }
  destruct NU as [u NU].
  rewrite (for_up_first_ub _ 0 _ _ x HL); [reflexivity|]. unfold tq_row.
  destruct (genOmega_ok sha HS rand fuel p Hp (co_fbits c1) (co_prf c1) [] (co_height c1) key (w64 (w64 (Z.of_nat (co_length c) * Z.of_nat (co_degree c)) + Z.of_nat (co_height c1) * Z.of_nat 0)) W1 B2 ltac:(constructor) ltac:(cbn; lia)) as [st1 [G1 V1]].
  rewrite G1. cbn [bind].
  match goal with |- context [genOmega sha rand fuel p _ st1 [] _ key ?i] =>
    destruct (genOmega_ok sha HS rand fuel p Hp (co_fbits c1) st1 [] (co_height c1) key i V1 B2 ltac:(constructor) ltac:(cbn; lia)) as [st2 [G2 V2]] end.
  rewrite G2. cbn [bind]. rewrite (for_up_first_ub _ 0 _ _ x); [reflexivity|lia|]. unfold tq_cell.
  destruct (generate_pos sha HS rand fuel st2 key 0 (co_fbits c1) V2 B2) as [st3 [G3 _]]. rewrite G3. cbn [bind].
  destruct HAB as [HA|[[v HA] HB]]; rewrite HA; [reflexivity|]. cbn [bind]. rewrite (proj2 (aget_ok _ _ _) NU). cbn [bind]. rewrite HB. reflexivity.
Qed.

(** a server asked about data it cannot read *)
Lemma server_bad_data d w me m P s M h Q cs partner kb a b MA MB x :
  nth_error (w_parties w) me = Some P -> nth_error (w_msgs w) m = Some M -> pa_role P = RServer s -> m_type M = MCloudRequest ->
  m_party M <> pa_id P -> getPartyById P (m_party M) = Some h -> nth_error (w_parties w) h = Some Q -> hasAuthenticatedId P (pa_id Q) = true -> pa_type Q = TClient ->
  bytes_at (w_heap w) (m_data M) = Ok cs -> cstr_at cs 0 = Ok (pa_id Q) -> cstr_at cs (length (pa_id Q) + 1) = Ok partner ->
  bytes_from cs (length (pa_id Q) + 1 + length partner + 1) tmpKeyByteSize = Ok kb ->
  map_find (sv_stored s) (pa_id Q) = Some (Some a) -> map_find (sv_stored s) partner = Some (Some b) ->
  nth_error (w_msgs w) a = Some MA -> nth_error (w_msgs w) b = Some MB ->
  core_ok (pa_core P) -> (0 < co_length (pa_core P))%nat -> (0 < co_degree (pa_core P))%nat ->
  entries_at (w_heap w) (m_data MA) O O = UB x \/ (exists v, entries_at (w_heap w) (m_data MA) O O = Ok v) /\ entries_at (w_heap w) (m_data MB) O O = UB x ->
  receive (S d) w me m = UB x.
Proof.
  intros HP HM HR HT NE HG HQ HA HTQ HB HC1 HC2 HK SA SB HMA HMB K HL HD HX.
  rewrite (receive_S _ _ _ _ _ _ _ d w me m P M HP HM), (step_known _ _ _ _ _ _ _ d w me m P M h Q NE HG HQ), HA, HR, HT, HTQ. cbn [authorised andb].
  unfold server_request. rewrite (proj2 (the_party_ok w h Q) HQ). cbn [bind]. rewrite HTQ. cbn [ptype_eqb].
  rewrite HB. cbn [bind]. rewrite HC1. cbn [bind]. rewrite str_eqb_refl. cbn [negb]. rewrite HC2. cbn [bind]. rewrite HK. cbn [bind].
  unfold intersectionOutput. rewrite (proj2 (the_party_ok w me P) HP). cbn [bind]. rewrite HR. unfold stored_get. rewrite SA, SB.
  rewrite (proj2 (the_msg_ok w a MA) HMA). cbn [bind]. rewrite (proj2 (the_msg_ok w b MB) HMB). cbn [bind].
  rewrite (computeTOrQ_bad _ _ _ _ x K HL HD HX). reflexivity.
Qed.
End R.
