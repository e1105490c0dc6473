(** Property C108: the parties trust the payload of a message they accept. *)
From Verif Require Import Base Spec Lib NtlMiss StrIntModel HashBucketsModel.
From Verif Require Import PRFModel EopsiModel EopsiSpec.
From Verif Require Import WorldModel WorldSpec WorldProofs WorldRun WorldMore WorldLaws WorldDir PropEopsi PropWorld.
From Coq Require Import Lia.

(** party [me] takes message [m]: its kind, from a registered sender [h], Q, is
    one of those the party accepts *)
Definition takes (w : world) (me m : nat) (P : party) (M : message) (h : nat) (Q : party) : Prop :=
  nth_error (w_parties w) me = Some P /\ nth_error (w_msgs w) m = Some M /\ m_party M <> pa_id P /\
  getPartyById P (m_party M) = Some h /\ nth_error (w_parties w) h = Some Q /\ hasAuthenticatedId P (pa_id Q) = true /\
  accepts (pa_role P) (m_type M) (pa_type Q).

Section W.
Variable sha : list Z -> list Z.
Variable rand : nat -> Z.
Variable fuel : nat.
Variable p : Z.
Variables canzass berlekamp : nat -> list Z -> list (list Z * Z).
Variable hw : nat.
Variable rbits : nat -> Z.
#[local] Notation receive := (receive sha rand fuel p canzass berlekamp rbits).

Lemma bytes_bad w a why : (a = None /\ why = NullDeref) \/ (exists x, a = Some x /\ nth_error (w_heap w) x = Some Freed /\ why = Dangling) ->
  bytes_at (w_heap w) a = UB why /\ entries_at (w_heap w) a 0%nat 0%nat = UB why.
Proof. intros [[-> ->]|[x [-> [H ->]]]]; [split; reflexivity|]. cbn [bytes_at entries_at]. rewrite H. split; reflexivity. Qed.

(** A request or a result whose data pointer is null, or points to an array
    that was deleted, is read through that pointer.  (Outsourced data are only
    stored: C88, C105.) *)
Theorem C108_bad_pointer : forall d w me m P M h Q, takes w me m P M h Q -> m_type M <> MOutsourcing ->
  (m_data M = None -> receive (S d) w me m = UB NullDeref) /\
  (forall a, m_data M = Some a -> nth_error (w_heap w) a = Some Freed -> receive (S d) w me m = UB Dangling).
Proof.
  intros d w me m P M h Q [HP [HM [NE [HG [HQ [HA AC]]]]]] NT.
  assert (G : forall why, bytes_at (w_heap w) (m_data M) = UB why /\ entries_at (w_heap w) (m_data M) 0%nat 0%nat = UB why ->
    receive (S d) w me m = UB why).
  { intros why [B1 B2].
    rewrite (receive_S _ _ _ _ _ _ _ d w me m P M HP HM), (step_known _ _ _ _ _ _ _ d w me m P M h Q NE HG HQ), HA.
    destruct (pa_role P) as [c|s] eqn:ER, (m_type M) eqn:EM, (pa_type Q) eqn:ET; cbn [accepts] in AC; try contradiction; try (exfalso; apply NT; reflexivity); cbn [authorised andb];
    first
      [ unfold client_request; rewrite B1; reflexivity
      | unfold client_polynomial; cbn zeta; match goal with |- context[w_heap (put_client w me P ?c')] => change (w_heap (put_client w me P c')) with (w_heap w) end; rewrite B2; reflexivity
      | unfold client_output; cbn zeta; match goal with |- context[w_heap (put_client w me P ?c')] => change (w_heap (put_client w me P c')) with (w_heap w) end; rewrite B2; reflexivity
      | unfold server_request; rewrite (proj2 (the_party_ok w h Q) HQ); cbn [bind]; rewrite ET; cbn [ptype_eqb]; rewrite B1; reflexivity ]. }
  split; [intros E|intros a E F]; apply G; apply bytes_bad; [left; auto|right; exists a; auto].
Qed.

Lemma cstr_none bs : Forall (fun b => b <> 0) bs -> cstr (map Some bs) = UB OutOfBounds.
Proof.
  induction 1 as [|b bs N F IH]; [reflexivity|]. cbn [map cstr]. destruct (Z.eqb_spec b 0); [contradiction|]. rewrite IH. reflexivity.
Qed.
Lemma nul_free_nonzero s : nul_free s -> Forall (fun b => b <> 0) s.
Proof. apply Forall_impl. intros b H. lia. Qed.

(** A request without a terminating NUL is read past its end, whatever length
    the message claims. *)
Theorem C108_no_terminator : forall d w me m P M h Q a bs, takes w me m P M h Q ->
  m_type M = MClientRequest \/ m_type M = MCloudRequest ->
  m_data M = Some a -> nth_error (w_heap w) a = Some (BBytes (map Some bs)) -> nul_free bs ->
  receive (S d) w me m = UB OutOfBounds.
Proof.
  intros d w me m P M h Q a bs [HP [HM [NE [HG [HQ [HA AC]]]]]] HT ED HH F.
  assert (B : bytes_at (w_heap w) (m_data M) = Ok (map Some bs)) by (rewrite ED; cbn [bytes_at]; rewrite HH; reflexivity).
  assert (C : cstr_at (map Some bs) 0 = UB OutOfBounds) by (exact (cstr_none bs (nul_free_nonzero bs F))).
  rewrite (receive_S _ _ _ _ _ _ _ d w me m P M HP HM), (step_known _ _ _ _ _ _ _ d w me m P M h Q NE HG HQ), HA.
  destruct HT as [HT|HT]; rewrite HT in *; destruct (pa_role P) as [c|s] eqn:ER, (pa_type Q) eqn:ET; cbn [accepts] in AC; try contradiction; cbn [authorised andb].
  - unfold client_request. rewrite B. cbn [bind]. rewrite C. reflexivity.
  - unfold server_request. rewrite (proj2 (the_party_ok w h Q) HQ). cbn [bind]. rewrite ET. cbn [ptype_eqb]. rewrite B. cbn [bind]. rewrite C. reflexivity.
Qed.

(** A cloud request that names the right sender and then ends before the second
    NUL, or has fewer than 16 bytes after it. *)
Theorem C108_short_cloud_request : forall d w me m P M h Q a rest, takes w me m P M h Q -> m_type M = MCloudRequest ->
  nul_free (pa_id Q) ->
  m_data M = Some a -> nth_error (w_heap w) a = Some (BBytes (map Some (pa_id Q ++ 0 :: rest))) ->
  nul_free rest \/ (exists partner kb, rest = partner ++ 0 :: kb /\ nul_free partner /\ (length kb < 16)%nat) ->
  receive (S d) w me m = UB OutOfBounds.
Proof.
  intros d w me m P M h Q a rest [HP [HM [NE [HG [HQ [HA AC]]]]]] HT FQ ED HH HR.
  set (bs := pa_id Q ++ 0 :: rest) in *.
  assert (B : bytes_at (w_heap w) (m_data M) = Ok (map Some bs)) by (rewrite ED; cbn [bytes_at]; rewrite HH; reflexivity).
  assert (C : cstr_at (map Some bs) 0 = Ok (pa_id Q)) by (exact (cstr_at_some [] (pa_id Q) rest FQ)).
  assert (SK : skipn (length (pa_id Q) + 1) (map Some bs) = map Some rest).
  { unfold bs. change (0 :: rest) with ([0] ++ rest). rewrite app_assoc, map_app.
    replace (length (pa_id Q) + 1)%nat with (length (map (@Some Z) (pa_id Q ++ [0]))) by (rewrite map_length, app_length; reflexivity).
    rewrite skipn_app, Nat.sub_diag, skipn_all. reflexivity. }
  rewrite (receive_S _ _ _ _ _ _ _ d w me m P M HP HM), (step_known _ _ _ _ _ _ _ d w me m P M h Q NE HG HQ), HA. rewrite HT in *.
  destruct (pa_role P) as [c|s] eqn:ER, (pa_type Q) eqn:ET; cbn [accepts] in AC; try contradiction; cbn [authorised andb].
  unfold server_request. rewrite (proj2 (the_party_ok w h Q) HQ). cbn [bind]. rewrite ET. cbn [ptype_eqb]. rewrite B. cbn [bind]. rewrite C. cbn [bind].
  rewrite str_eqb_refl. cbn [negb]. unfold cstr_at at 1. rewrite SK.
  destruct HR as [F|[partner [kb [-> [F L]]]]].
  - rewrite (cstr_none rest (nul_free_nonzero rest F)). reflexivity.
  - change (cstr (map Some (partner ++ 0 :: kb))) with (cstr_at (map Some ([] ++ partner ++ 0 :: kb)) (length (@nil Z))).
    rewrite (cstr_at_some [] partner kb F). cbn [bind]. rewrite bytes_from_past; [reflexivity|unfold tmpKeyByteSize; lia|].
    unfold bs. rewrite app_length. cbn [length]. rewrite app_length. cbn [length]. unfold tmpKeyByteSize. cbn. lia.
Qed.

(** A client request that names the right sender and has fewer than three bytes
    after the NUL: the helper, once it has found a server to ask. *)
Theorem C108_short_client_request : forall d w me m P c M h Q a rest key k MC cl, takes w me m P M h Q -> m_type M = MClientRequest ->
  pa_role P = RClient c -> nul_free (pa_id P) -> nul_free (pa_id Q) ->
  m_data M = Some a -> nth_error (w_heap w) a = Some (BBytes (map Some (pa_id Q ++ 0 :: rest))) -> (length rest < 3)%nat ->
  draw_key rbits fuel (w_draws w) = Ok (key, k) -> 0 <= key ->
  nth_error (w_msgs w) (cl_toCloud c) = Some MC -> find_cloud w (pa_parties P) = Ok (Some cl) -> m <> cl_toCloud c ->
  receive (S d) w me m = UB OutOfBounds.
Proof.
  intros d w me m P c M h Q a rest key k MC cl [HP [HM [NE [HG [HQ [HA AC]]]]]] HT ER F1 F2 ED HH L HK HK0 HMC HCL NM.
  apply (help_unreadable sha rand fuel p canzass berlekamp rbits d w me m P c M h Q (map Some (pa_id Q ++ 0 :: rest)) key k MC cl OutOfBounds); try assumption.
  - rewrite ER, HT in AC. destruct (pa_type Q); [reflexivity|contradiction].
  - rewrite ED. cbn [bytes_at]. rewrite HH. reflexivity.
  - exact (cstr_at_some [] (pa_id Q) rest F2).
  - apply bytes_from_past; [lia|]. rewrite app_length. cbn [length]. lia.
Qed.

(** The first result that reaches a client without data (its size is set only
    by a setRawData call with data): it computes the padding from a member that
    was never initialised. *)
Theorem C88_result_without_data : forall d w me m P c M h Q a mat v, takes w me m P M h Q -> pa_role P = RClient c ->
  m_type M = MOutput \/ m_type M = MPolynomial -> cl_rawDataBits c = None ->
  m_data M = Some a -> nth_error (w_heap w) a = Some (BMat mat) -> entry mat 0 0 = Ok v ->
  receive (S d) w me m = UB Uninit.
Proof.
  intros d w me m P c M h Q a mat v [HP [HM [NE [HG [HQ [HA AC]]]]]] ER HT HB ED HH HE.
  assert (B : entries_at (w_heap w) (m_data M) 0%nat 0%nat = Ok v) by (rewrite ED; cbn [entries_at]; rewrite HH; exact HE).
  assert (LT : (me < length (w_parties w))%nat) by (apply nth_error_Some; congruence).
  assert (T : forall c', cl_rawDataBits c' = None -> try_intersect sha rand fuel p canzass berlekamp (put_client w me P c') me = UB Uninit).
  { intros c' HB'. unfold try_intersect, put_client. 
    rewrite (proj2 (the_party_ok _ me (pa_set_role P (RClient c')))) by (cbn [put_party w_set_parties w_parties]; apply upd_nth_same; exact LT).
    cbn [bind as_client pa_set_role pa_role]. rewrite HB'. reflexivity. }
  rewrite (receive_S _ _ _ _ _ _ _ d w me m P M HP HM), (step_known _ _ _ _ _ _ _ d w me m P M h Q NE HG HQ), HA.
  rewrite ER in AC |- *.
  destruct HT as [HT|HT]; rewrite HT in AC |- *; destruct (pa_type Q) eqn:ET; cbn [accepts] in AC; try contradiction; cbn [authorised andb];
  [unfold client_output|unfold client_polynomial]; cbn zeta;
  match goal with |- context[w_heap (put_client w me P ?c')] => change (w_heap (put_client w me P c')) with (w_heap w) end; rewrite B; cbn [bind]; rewrite T by exact HB; reflexivity.
Qed.
End W.
Print Assumptions C108_bad_pointer.
Print Assumptions C108_no_terminator.
Print Assumptions C108_short_cloud_request.
Print Assumptions C108_short_client_request.
Print Assumptions C88_result_without_data.

(** Client 0 ("a") asks server 2 about client 1 ("b"), client 1 asks client 0:
    with null data, without terminator, without enough bytes. *)
Example C108_nonvacuous :
  (let w := ex_end [ONewMessage (mkMsg [97] MCloudRequest None 21)] in
   (exists P M Q, takes w 2 7 P M 0 Q) /\ ex_deliver w 2 7 = UB NullDeref) /\
  ex_deliver (ex_end [ONewBytes (map Some [97]); ONewMessage (mkMsg [97] MCloudRequest (Some 2%nat) 21)]) 2 7 = UB OutOfBounds /\
  ex_deliver (ex_end [ONewBytes (map Some [97; 0; 98; 0; 1; 2; 3]); ONewMessage (mkMsg [97] MCloudRequest (Some 2%nat) 21)]) 2 7 = UB OutOfBounds /\
  ex_deliver (ex_end [ONewBytes (map Some [98; 0; 44; 1]); ONewMessage (mkMsg [98] MClientRequest (Some 2%nat) 21)]) 0 7 = UB OutOfBounds /\
  ex_deliver (ex_end [ONewMessage (mkMsg [99] MOutput None 1)]) 0 7 = UB NullDeref.
Proof.
  split; [|split; [|split; [|split]]]; try (vm_compute; reflexivity). split; [|vm_compute; reflexivity].
  set (w := ex_end _).
  assert (X : match nth_error (w_parties w) 2, nth_error (w_msgs w) 7, nth_error (w_parties w) 0 with
    | Some P, Some M, Some Q => m_party M = [97] /\ pa_id P = [99] /\ getPartyById P [97] = Some 0%nat /\ pa_id Q = [97] /\ pa_type Q = TClient /\ m_type M = MCloudRequest /\
        match pa_role P with RServer _ => True | _ => False end
    | _, _, _ => False end) by (vm_compute; auto 10).
  destruct (nth_error (w_parties w) 2) as [P|] eqn:E1; [|contradiction]. destruct (nth_error (w_msgs w) 7) as [M|] eqn:E2; [|contradiction].
  destruct (nth_error (w_parties w) 0) as [Q|] eqn:E3; [|contradiction]. destruct X as [X1 [X2 [X3 [X4 [X5 [X6 X7]]]]]].
  exists P, M, Q. unfold takes. rewrite E1, E2, E3, X1, X2, X4, X5, X6. unfold hasAuthenticatedId. rewrite X3.
  repeat (split; [first [reflexivity|discriminate]|]). destruct (pa_role P); [contradiction|exact I].
Qed.

(** a new client 3 ("d") without data is sent the matrix client 0 outsourced *)
Example C88_result_nonvacuous :
  let w := ex_end [ONewClient ex_hb 61 3 2 5 [100] 5; OAuthenticate 3 2; ONewMessage (mkMsg [99] MOutput (Some 0%nat) 1)] in
  (match nth_error (w_parties w) 3 with Some P => match pa_role P with RClient c => cl_rawDataBits c = None | RServer _ => False end | None => False end) /\
  (match nth_error (w_heap w) 0 with Some (BMat mat) => exists v, entry mat 0 0 = Ok v | _ => False end) /\
  ex_deliver w 3 9 = UB Uninit.
Proof. split; [vm_compute; reflexivity|]. split; [|vm_compute; reflexivity]. vm_compute. eexists. reflexivity. Qed.
