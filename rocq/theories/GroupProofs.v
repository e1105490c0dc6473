(** Proofs for GroupSpec: any number of clients, any sequence of requests. *)
From Verif Require Import Base Spec Lib NtlMiss NtlMissProofs StrIntModel HashBucketsModel HashBucketsSpec HashBucketsProofs.
From Verif Require Import PRFModel PRFSpec PRFProofs PolyModel PolySpec EopsiModel EopsiSpec EopsiProofs EopsiBlind EopsiRun EopsiFacts PropEopsi.
From Verif Require Import WorldModel WorldSpec WorldProofs WorldFrame WorldRun WorldMore WorldSim WorldLaws PropRun GroupSpec.
From Coq Require Import Lia Znumtheory.

Lemma in_map_put {V} (m : list (str * V)) k v x : In x (map_put m k v) -> x = (k, v) \/ In x m \/ (exists k', x = (k', v)).
Proof.
  induction m as [|[a y] m IH]; intros H; [destruct H as [H|[]]; auto|]. cbn [map_put] in H.
  destruct (str_cmp k a).
  - destruct H as [H|H]; [right; right; exists a; congruence|right; left; right; exact H].
  - destruct H as [H|H]; [left; congruence|right; left; exact H].
  - destruct H as [H|H]; [right; left; left; exact H|]. destruct (IH H) as [E|[E|E]]; [left; exact E|right; left; right; exact E|right; right; exact E].
Qed.
Lemma map_find_in {V} (m : list (str * V)) k v : map_find m k = Some v -> exists k', In (k', v) m.
Proof.
  induction m as [|[a y] m IH]; intros H; [discriminate|]. cbn [map_find] in H. destruct (str_eqb k a).
  - exists a. left. congruence.
  - destruct (IH H) as [k' I]. exists k'. right. exact I.
Qed.
Lemma tq_value_same sha p fb c c' key us a b : same_core c c' -> tq_value sha p fb c key us a b = tq_value sha p fb c' key us a b.
Proof.
  intros [S1 [S2 [S3 [S4 S5]]]]. unfold tq_value, omegaA, omegaB. rewrite S3, S4, S5. reflexivity.
Qed.
Lemma for_up_step {S} (I : nat -> S -> Prop) n (body : nat -> S -> res S) s :
  I O s -> (forall i s, (i < n)%nat -> I i s -> exists s1, body i s = Ok s1 /\ I (Datatypes.S i) s1) ->
  exists s1, for_up n 0 body s = Ok s1 /\ I n s1.
Proof. intros H0 HS. destruct (for_up_inv I n 0 body s H0) as [s1 [E H]]; [intros i s' Hi; apply HS; lia|]. exists s1. split; [exact E|exact H]. Qed.

Section G.
Variable sha : list Z -> list Z.
Variable rand : nat -> Z.
Variable fuel : nat.
Variable p : Z.
Variables canzass berlekamp : nat -> list Z -> list (list Z * Z).
Variable hw : nat.
Variable rbits : nat -> Z.
Variables (L h D : nat) (al : halgo Z) (bits : Z) (idS : str) (nt : nat).
Hypothesis HSh : is_sha sha.
Hypothesis Hp : 2 < p.
Hypothesis HLong : num_bits p < 2 ^ 63.
Hypothesis HAl : algo_valid al.
Hypothesis HL : (0 < L)%nat.
Hypothesis HD : (0 < D)%nat.
Variable ms : list member.
#[local] Notation N := (length ms).
Hypothesis ND : NoDup (idS :: map mb_id ms).
Hypothesis HFree : Forall (fun M => nul_free (mb_id M)) ms.
Hypothesis HRaw : Forall (fun M => mb_raw M <> []) ms.
Hypothesis HFits : Forall (fun M => fits al L h (map (field_value p bits) (mb_raw M))) ms.

Definition idn (i : nat) : str := nth i (idS :: map mb_id ms) [].
Lemma idn_member k M : nth_error ms k = Some M -> idn (S k) = mb_id M.
Proof. intros H. unfold idn. cbn [nth]. apply nth_error_nth. rewrite nth_error_map, H. reflexivity. Qed.
Lemma idn_inj i j : (i <= N)%nat -> (j <= N)%nat -> idn i = idn j -> i = j.
Proof.
  intros Hi Hj E. apply (proj1 (NoDup_nth (idS :: map mb_id ms) []) ND); cbn [length]; rewrite ?map_length; try lia. exact E.
Qed.
Lemma idn_eqb i j : (i <= N)%nat -> (j <= N)%nat -> i <> j -> str_eqb (idn i) (idn j) = false.
Proof. intros Hi Hj NE. apply str_eqb_neq. intros E. apply NE. apply idn_inj; assumption. Qed.
Definition dirk (i k : nat) : list (str * nat) := fold_left (fun d j => if str_eqb (idn j) (idn i) then d else map_put d (idn j) j) (seq 0 k) [].
Definition dir (i : nat) : list (str * nat) := dirk i (S N).
Lemma dirk_S i k : dirk i (S k) = if str_eqb (idn k) (idn i) then dirk i k else map_put (dirk i k) (idn k) k.
Proof. unfold dirk. rewrite seq_S, fold_left_app. reflexivity. Qed.
Lemma dirk_find i k j : (i <= N)%nat -> (k <= S N)%nat -> (j < k)%nat -> i <> j -> map_find (dirk i k) (idn j) = Some j.
Proof.
  intros Hi. induction k as [|k IH]; intros Hk Hj NE; [lia|]. rewrite dirk_S.
  destruct (Nat.eq_dec j k) as [->|NJ].
  - rewrite (idn_eqb k i) by lia. rewrite map_find_put, str_eqb_refl. reflexivity.
  - destruct (str_eqb (idn k) (idn i)); [apply IH; lia|]. rewrite map_find_put, (idn_eqb j k) by lia. apply IH; lia.
Qed.
Lemma dir_finds i j : (i <= N)%nat -> (j <= N)%nat -> i <> j -> map_find (dir i) (idn j) = Some j.
Proof. intros. apply dirk_find; lia. Qed.
Lemma dirk_range i k x j : In (x, j) (dirk i k) -> (j < k)%nat.
Proof.
  revert x j. induction k as [|k IH]; intros x j H; [destruct H|]. rewrite dirk_S in H.
  destruct (str_eqb (idn k) (idn i)); [apply IH in H; lia|].
  apply in_map_put in H. destruct H as [H|[H|[k' H]]]; [injection H; lia|apply IH in H; lia|injection H; lia].
Qed.

(** *** the constructors *)
Definition core0 : core := new_core p L h D 0.
Definition fresh_client (h0 : hb Z) (M : member) (d : list (str * nat)) (m : nat) : party :=
  mkParty (mb_id M) TClient d core0 (RClient (mkClient [] 0 None None (mb_secret M) h0 None None (new_zpprf p 0) m (S m) [])).
Fixpoint clients_from (h0 : hb Z) (l : list member) (m : nat) : list party :=
  match l with [] => [] | M :: r => fresh_client h0 M [] m :: clients_from h0 r (S (S m)) end.
Lemma clients_nth h0 l : forall m k M, nth_error l k = Some M -> nth_error (clients_from h0 l m) k = Some (fresh_client h0 M [] (m + 2 * k)).
Proof.
  induction l as [|M' l IH]; intros m [|k] M H; cbn in H; try discriminate; cbn [clients_from nth_error].
  - rewrite Nat.mul_0_r, Nat.add_0_r. congruence.
  - rewrite (IH _ _ _ H). do 2 f_equal. lia.
Qed.
Lemma clients_length h0 l m : length (clients_from h0 l m) = length l.
Proof. revert m; induction l as [|M l IH]; intros m; cbn; auto. Qed.
Lemma add_clients_eq h0 : new_hb L h (Some al) = Ok h0 -> forall l w,
  add_clients p L h D al l w = Ok (w_set_msgs (w_set_parties w (w_parties w ++ clients_from h0 l (length (w_msgs w)))) (w_msgs w ++ repeat new_message (2 * length l))).
Proof.
  intros E0. induction l as [|M l IH]; intros w; cbn [add_clients clients_from length].
  - cbn [repeat Nat.mul]. rewrite !app_nil_r. destruct w; reflexivity.
  - unfold add_client. rewrite E0. cbn [bind new_client fst]. rewrite IH. cbn [w_parties w_msgs w_set_msgs w_set_parties].
    unfold w_set_msgs, w_set_parties. cbn [w_parties w_msgs w_heap w_rand w_draws w_facts].
    rewrite <- !app_assoc, app_length. cbn [length app]. do 2 f_equal.
    + rewrite Nat.add_comm. reflexivity.
    + f_equal. replace (2 * S (length l))%nat with (S (S (2 * length l))) by lia. reflexivity.
Qed.

(** *** everybody authenticates everybody *)
Lemma auth_row w i P : nth_error (w_parties w) i = Some P -> pa_parties P = [] -> (i <= N)%nat ->
  (forall j, (j <= N)%nat -> exists Q, nth_error (w_parties w) j = Some Q /\ pa_id Q = idn j) ->
  for_up (S N) 0 (fun j w => authenticate w i j) w = Ok (put_party w i (pa_set_parties P (dir i))).
Proof.
  intros HP HE Hi HQ.
  assert (EI : pa_id P = idn i). { destruct (HQ i Hi) as [Q [E1 E2]]. congruence. }
  destruct (for_up_step (fun j w' => w' = put_party w i (pa_set_parties P (dirk i j))) (S N) (fun j w => authenticate w i j) w) as [w' [E R]].
  - unfold put_party, w_set_parties. destruct w as [ps m1 m2 m3 m4 m5]. cbn [w_parties w_msgs w_heap w_rand w_draws w_facts] in *. f_equal.
    assert (EP : pa_set_parties P (dirk i 0) = P) by (destruct P; cbn in *; subst; reflexivity). rewrite EP. clear -HP.
    revert i HP. induction ps as [|a ps IH]; intros [|i] H; cbn in *; try discriminate; f_equal; [congruence|apply IH; exact H].
  - intros j w' Hj ->. unfold authenticate.
    assert (E1 : the_party (put_party w i (pa_set_parties P (dirk i j))) i = Ok (pa_set_parties P (dirk i j))).
    { apply the_party_ok. apply (nth_upd_same _ _ _ _ HP). }
    rewrite E1. cbn [bind].
    assert (E2 : exists Q, the_party (put_party w i (pa_set_parties P (dirk i j))) j = Ok Q /\ pa_id Q = idn j).
    { destruct (Nat.eq_dec i j) as [<-|NE]; [exists (pa_set_parties P (dirk i i)); split; [exact E1|exact EI]|].
      destruct (HQ j ltac:(lia)) as [Q [Q1 Q2]]. exists Q. split; [|exact Q2]. apply the_party_ok. cbn. rewrite nth_upd_other by congruence. exact Q1. }
    destruct E2 as [Q [E2 EQ]]. rewrite E2. cbn [bind]. eexists. split; [reflexivity|]. rewrite EQ. cbn [pa_set_parties pa_id pa_parties]. rewrite EI, dirk_S.
    destruct (str_eqb (idn j) (idn i)); [reflexivity|]. unfold put_party, w_set_parties. cbn [w_parties w_msgs w_heap w_rand w_draws w_facts]. rewrite upd_upd. reflexivity.
  - rewrite E, R. reflexivity.
Qed.
Lemma auth_all w : length (w_parties w) = S N ->
  (forall j P, nth_error (w_parties w) j = Some P -> pa_id P = idn j /\ pa_parties P = []) ->
  exists ps, for_up (S N) 0 (fun i w => for_up (S N) 0 (fun j w => authenticate w i j) w) w = Ok (w_set_parties w ps) /\ length ps = S N /\
    forall j P, nth_error (w_parties w) j = Some P -> nth_error ps j = Some (pa_set_parties P (dir j)).
Proof.
  intros LP HP.
  destruct (for_up_step (fun i w' => exists ps, w' = w_set_parties w ps /\ length ps = S N /\
     forall j P, nth_error (w_parties w) j = Some P -> nth_error ps j = Some (if Nat.ltb j i then pa_set_parties P (dir j) else P))
     (S N) (fun i w => for_up (S N) 0 (fun j w => authenticate w i j) w) w) as [w' [E [ps [R1 [R2 R3]]]]].
  - exists (w_parties w). split; [destruct w; reflexivity|]. split; [exact LP|]. intros j P H. exact H.
  - intros i w' Hi [ps [-> [L2 H]]].
    destruct (nth_error (w_parties w) i) as [P|] eqn:EP; [|apply nth_error_None in EP; lia].
    assert (EPi : nth_error ps i = Some P). { rewrite (H i P EP), Nat.ltb_irrefl. reflexivity. }
    destruct (HP i P EP) as [I1 I2].
    rewrite (auth_row (w_set_parties w ps) i P EPi I2 ltac:(lia)).
    + eexists. split; [reflexivity|]. exists (upd ps i (pa_set_parties P (dir i))). split; [reflexivity|]. split; [rewrite upd_length; exact L2|].
      intros j Q HQ. destruct (Nat.eq_dec i j) as [<-|NE].
      * rewrite (nth_upd_same _ _ _ _ EPi). assert (Q = P) by congruence. subst Q. destruct (Nat.ltb_spec i (S i)); [reflexivity|lia].
      * rewrite nth_upd_other by exact NE. rewrite (H j Q HQ). f_equal.
        destruct (Nat.ltb_spec j i), (Nat.ltb_spec j (S i)); try reflexivity; lia.
    + intros j Hj. cbn [w_parties w_set_parties]. destruct (nth_error (w_parties w) j) as [Q|] eqn:EQ; [|apply nth_error_None in EQ; lia].
      rewrite (H j Q EQ). eexists. split; [reflexivity|]. destruct (HP j Q EQ) as [I3 _]. destruct (Nat.ltb j i); exact I3.
  - exists ps. rewrite E, R1. split; [reflexivity|]. split; [exact R2|]. intros j P H. rewrite (R3 j P H).
    assert (j < S N)%nat by (rewrite <- LP; apply nth_error_Some; congruence). destruct (Nat.ltb_spec j (S N)); [reflexivity|lia].
Qed.

Lemma nth_error_app_old {A} (l l' : list A) i x : nth_error l i = Some x -> nth_error (l ++ l') i = Some x.
Proof. intros H. rewrite nth_error_app1; [exact H|]. apply nth_error_Some. congruence. Qed.

(** *** the state of the group *)
Definition us : list Z := points sha p (num_bits p) D.
Definition member_ok (h0 : hb Z) (w : world) (used : nat -> bool) (k : nat) (M : member) : Prop :=
  exists pos c t z R core' z' q tt cap,
   blind sha rand fuel p hw core0 (mb_secret M) (mb_raw M) (length (mb_raw M)) (Some bits) h0 (new_zpprf p pos) nt =
     Ok (c, t, z, table2 L D (blind_cell p sha (mb_secret M) D us R)) /\
   nth_error (w_parties w) (S k) = Some (mkParty (mb_id M) TClient (dir (S k)) core'
     (RClient (mkClient (mb_raw M) (length (mb_raw M)) (Some bits) (Some k) (mb_secret M) t q tt z' (2 * k + 1) (2 * k + 2) cap))) /\
   co_unknowns core' = us /\ same_core core0 core' /\ party_ok p core' /\ zp_inv p z' /\ (used k = false -> core' = c /\ q = None /\ cap = []) /\
   nth_error (w_heap w) k = Some (BMat (table2 L D (blind_cell p sha (mb_secret M) D us R))) /\
   (exists M', nth_error (w_msgs w) (2 * N + 1 + k) = Some M' /\ m_data M' = Some k) /\
   (used k = true -> exists qa, q = Some qa /\ nth_error (w_heap w) qa = Some Freed).
Definition server_ok (w : world) (upto : nat) : Prop :=
  exists cS st, nth_error (w_parties w) 0 = Some (mkParty idS TServer (dir 0) cS (RServer (mkServer st 0))) /\
   party_ok p cS /\ same_core core0 cS /\ (co_unknowns cS = [] \/ co_unknowns cS = us) /\
   forall k M, (k < upto)%nat -> nth_error ms k = Some M -> map_find st (mb_id M) = Some (Some (2 * N + 1 + k)%nat).

(** *** outsourcing *)
Definition outsourcing (h0 : hb Z) (n : nat) (w : world) : Prop :=
  (forall k M, (k < n)%nat -> nth_error ms k = Some M -> member_ok h0 w (fun _ => false) k M) /\
  (forall k M, (n <= k)%nat -> nth_error ms k = Some M -> nth_error (w_parties w) (S k) = Some (fresh_client h0 M (dir (S k)) (2 * k + 1))) /\
  server_ok w n /\ length (w_heap w) = n /\ length (w_msgs w) = (2 * N + 1 + n)%nat /\ length (w_parties w) = S N.
Lemma HLong' : num_bits p + 7 < 2 ^ 64. Proof. change (2 ^ 63) with 9223372036854775808 in HLong. lia. Qed.
Lemma member_lt k M : nth_error ms k = Some M -> (k < N)%nat.
Proof. intros H. apply nth_error_Some. congruence. Qed.
Ltac wcbn := repeat (first [progress (cbn [w_set_msgs w_set_parties w_set_heap w_set_rand put_party w_parties w_msgs w_heap w_rand w_draws w_facts]) |
  match goal with
  | |- context [w_parties ?x] => is_var x; unfold x | |- context [w_msgs ?x] => is_var x; unfold x | |- context [w_heap ?x] => is_var x; unfold x end]).
Lemma outsource_step h0 n w M : new_hb L h (Some al) = Ok h0 -> outsourcing h0 n w -> nth_error ms n = Some M ->
  exists w', outsource sha rand fuel p canzass berlekamp hw rbits L D bits nt (S n) M w = Ok w' /\ outsourcing h0 (S n) w' /\
    w_draws w' = w_draws w /\ w_facts w' = w_facts w.
Proof.
  intros E0 [HM [HF [[cS [st [S1 [S2 [S3 [S4 S5]]]]]] [LH [LM LP]]]]] HN.
  pose proof (member_lt n M HN) as Ln.
  pose proof (HF n M (le_n n) HN) as PN.
  assert (RN : mb_raw M <> []) by (rewrite Forall_forall in HRaw; apply HRaw; eapply nth_error_In; exact HN).
  assert (FN : fits al L h (map (field_value p bits) (mb_raw M))) by (rewrite Forall_forall in HFits; apply HFits; eapply nth_error_In; exact HN).
  destruct (blind_new p Hp HLong sha HSh rand fuel hw L h D al bits (mb_raw M) (mb_secret M) nt (w_rand w) HAl HL) as [h0' [E0' [BA' _]]].
  assert (h0' = h0) by congruence. subst h0'. clear E0'.
  destruct (BA' FN) as [c [t [z [R [BA [_ [UA [SA [PA IA]]]]]]]]]. clear BA'. fold us in BA, UA. fold core0 in BA, SA.
  unfold outsource.
  rewrite (setRawData_eq sha rand fuel p hw w (S n) (fresh_client h0 M (dir (S n)) (2 * n + 1)) _ (mb_raw M) bits nt z c t _ PN eq_refl RN BA).
  cbn [bind].
  set (cl1 := mkClient _ _ _ _ _ _ _ _ _ _ _ _). set (w1 := w_set_rand _ _). set (P1 := pa_set_core (pa_set_role _ (RClient cl1)) c) in *.
  assert (E1 : nth_error (w_parties w1) (S n) = Some P1) by (apply (nth_upd_same _ _ _ _ PN)).
  rewrite (proj2 (the_party_ok w1 (S n) P1) E1). cbn [bind as_client P1 pa_set_core pa_set_role pa_role pa_id fresh_client].
  cbn [bind new_msg]. set (w2 := w_set_msgs w1 _). unfold send, send_with.
  set (Mg := mkMsg _ MOutsourcing _ _) in *.
  assert (O0 : nth_error (w_parties w2) 0 = Some (mkParty idS TServer (dir 0) cS (RServer (mkServer st 0)))).
  { wcbn. rewrite nth_upd_other by discriminate. exact S1. }
  assert (OM : nth_error (w_msgs w2) (length (w_msgs w1)) = Some Mg) by (apply nth_snoc).
  assert (NE : mb_id M <> idS).
  { intros E. inversion ND as [|x l NI _]. apply NI. rewrite <- E. apply in_map. eapply nth_error_In; exact HN. }
  assert (GD : map_find (dir 0) (mb_id M) = Some (S n)). { rewrite <- (idn_member n M HN). apply dir_finds; lia. }
  rewrite (outsource_ok sha rand fuel p canzass berlekamp rbits 3 w2 0 (length (w_msgs w1)) _ (mkServer st 0) Mg (S n) P1 O0 OM);
    try reflexivity; [|exact NE|exact GD|exact E1|unfold hasAuthenticatedId, getPartyById; cbn [pa_parties P1 pa_set_core pa_set_role pa_id fresh_client]; rewrite GD; reflexivity].
  cbn [or_exit bind]. eexists. split; [reflexivity|]. split; [|split; reflexivity].
  change (pa_id P1) with (mb_id M). cbn [sv_stored sv_toClient].
  assert (LM1 : length (w_msgs w1) = (2 * N + 1 + n)%nat) by exact LM.
  assert (EP : forall i, i <> O -> i <> S n -> nth_error (upd (upd (w_parties w) (S n) P1) 0 (mkParty idS TServer (dir 0) cS (RServer (mkServer (map_put st (mb_id M) (Some (length (w_msgs w1)))) 0)))) i = nth_error (w_parties w) i).
  { intros i A B. rewrite nth_upd_other by congruence. apply nth_upd_other. congruence. }
  split; [|split; [|split; [|split; [|split]]]].
  - intros k M' Hk HK. destruct (Nat.eq_dec k n) as [->|NK].
    + assert (M' = M) by congruence. subst M'. exists (w_rand w), c, t, z, R, c, z, None, None, []. split; [exact BA|].
      split; [wcbn; rewrite nth_upd_other by discriminate; rewrite (nth_upd_same _ _ _ _ PN); unfold P1, cl1; rewrite LH; unfold pa_set_core, pa_set_role; cbn [fresh_client pa_id pa_type pa_parties pa_core pa_role cl_secret cl_q cl_t cl_toCloud cl_toClient cl_setcap]; do 4 f_equal; lia|].
      split; [exact UA|]. split; [exact SA|]. split; [exact PA|]. split; [exact IA|]. split; [intros _; repeat split|].
      split; [wcbn; rewrite <- LH; apply nth_snoc|]. split; [|discriminate]. exists Mg. split; [cbn [put_party w_set_parties w_msgs w2 w_set_msgs]; rewrite <- LM1; apply nth_snoc|]. cbn. rewrite LH. reflexivity.
    + destruct (HM k M' ltac:(lia) HK) as [ps [c' [t' [z' [R' [co' [zz' [q' [tt' [cap' [B1 [B2 [B3 [B4 [B5 [B6 [B7 [B8 [[Mx [B9 B10]] _]]]]]]]]]]]]]]]]]]].
      exists ps, c', t', z', R', co', zz', q', tt', cap'. split; [exact B1|]. split; [wcbn; rewrite nth_upd_other by discriminate; rewrite nth_upd_other by congruence; exact B2|].
      split; [exact B3|]. split; [exact B4|]. split; [exact B5|]. split; [exact B6|]. split; [exact B7|].
      split; [wcbn; apply nth_snoc_old; exact B8|]. split; [|discriminate]. exists Mx. split; [apply nth_snoc_old; exact B9|exact B10].
  - intros k M' Hk HK. wcbn. rewrite nth_upd_other by discriminate. rewrite nth_upd_other by lia. apply (HF k M' ltac:(lia) HK).
  - exists cS, (map_put st (mb_id M) (Some (length (w_msgs w1)))). split; [apply (nth_upd_same _ _ _ _ O0)|].
    split; [exact S2|]. split; [exact S3|]. split; [exact S4|]. intros k M' Hk HK. rewrite map_find_put.
    destruct (Nat.eq_dec k n) as [->|NK].
    + assert (M' = M) by congruence. subst M'. rewrite str_eqb_refl, LM1. reflexivity.
    + rewrite <- (idn_member k M' HK), <- (idn_member n M HN). pose proof (member_lt k M' HK).
      rewrite (idn_eqb (S k) (S n)) by lia. rewrite (idn_member k M' HK). apply S5; [lia|exact HK].
  - wcbn. rewrite app_length. cbn [length]. lia.
  - wcbn. rewrite app_length. cbn [length]. rewrite LM. lia.
  - wcbn. rewrite !upd_length. exact LP.
Qed.
Lemma outsource_rest h0 : new_hb L h (Some al) = Ok h0 -> forall rest n w, outsourcing h0 n w ->
  (forall k, nth_error rest k = nth_error ms (n + k)) ->
  exists w', outsource_all sha rand fuel p canzass berlekamp hw rbits L D bits nt rest (S n) w = Ok w' /\ outsourcing h0 (n + length rest) w' /\
    w_draws w' = w_draws w /\ w_facts w' = w_facts w.
Proof.
  intros E0. induction rest as [|M rest IH]; intros n w OO HR; cbn [outsource_all length].
  - exists w. rewrite Nat.add_0_r. auto.
  - pose proof (HR O) as H0. cbn [nth_error] in H0. rewrite Nat.add_0_r in H0. symmetry in H0.
    destruct (outsource_step h0 n w M E0 OO H0) as [w1 [E1 [O1 [D1 F1]]]]. rewrite E1. cbn [bind].
    destruct (IH (S n) w1 O1) as [w2 [E2 [O2 [D2 F2]]]].
    + intros k. replace (S n + k)%nat with (n + S k)%nat by lia. exact (HR (S k)).
    + exists w2. split; [exact E2|]. replace (n + S (length rest))%nat with (S n + length rest)%nat by lia. split; [exact O2|]. split; congruence.
Qed.

(** the group between requests *)
Definition group (h0 : hb Z) (used : nat -> bool) (w : world) : Prop :=
  (forall k M, nth_error ms k = Some M -> member_ok h0 w used k M) /\ server_ok w N /\
  (N <= length (w_heap w))%nat /\ (3 * N + 1 <= length (w_msgs w))%nat /\ length (w_parties w) = S N.

Lemma setup_ok pos draws facts : exists h0 w, new_hb L h (Some al) = Ok h0 /\
  group_setup sha rand fuel p canzass berlekamp hw rbits L h D al bits idS nt ms pos draws facts = Ok w /\
  group h0 (fun _ => false) w /\ w_draws w = draws /\ w_facts w = facts.
Proof.
  destruct (blind_new p Hp HLong sha HSh rand fuel hw L h D al bits [] 0 nt 0 HAl HL) as [h0 [E0 _]]. exists h0.
  unfold group_setup. rewrite (add_clients_eq h0 E0). cbn [bind new_server fst empty_world]. wcbn. cbn [app length].
  set (w1 := w_set_msgs _ _).
  assert (P1 : w_parties w1 = mkParty idS TServer [] core0 (RServer (mkServer [] 0)) :: clients_from h0 ms 1) by reflexivity.
  assert (LP1 : length (w_parties w1) = S N) by (rewrite P1; cbn [length]; rewrite clients_length; reflexivity).
  assert (PC : forall k M, nth_error ms k = Some M -> nth_error (w_parties w1) (S k) = Some (fresh_client h0 M [] (1 + 2 * k))).
  { intros k M H. rewrite P1. cbn [nth_error]. apply clients_nth. exact H. }
  destruct (auth_all w1 LP1) as [ps [EA [LA HA]]].
  { intros [|j] P H.
    - rewrite P1 in H. cbn in H. injection H as <-. split; reflexivity.
    - destruct (nth_error ms j) as [M|] eqn:EM.
      + rewrite (PC j M EM) in H. injection H as <-. split; [symmetry; apply idn_member; exact EM|reflexivity].
      + apply nth_error_None in EM. assert (S j < S N)%nat by (rewrite <- LP1; apply nth_error_Some; congruence). lia. }
  rewrite EA. cbn [bind].
  destruct (outsource_rest h0 E0 ms 0 (w_set_parties w1 ps)) as [w2 [E2 [[O1 [O2 [O3 [O4 [O5 O6]]]]] [D2 F2]]]].
  - split; [intros; lia|]. split; [|split; [|split; [|split]]].
    + intros k M _ HK. wcbn. rewrite (HA (S k) _ (PC k M HK)). unfold pa_set_parties, fresh_client. cbn [pa_id pa_type pa_parties pa_core pa_role].
      do 4 f_equal; lia.
    + exists core0, []. split; [wcbn; refine (HA O (mkParty idS TServer [] core0 (RServer (mkServer [] 0))) _); rewrite P1; reflexivity|]. split; [apply new_party|]. split; [repeat split|]. split; [left; reflexivity|]. intros; lia.
    + reflexivity.
    + wcbn. rewrite !app_length, repeat_length. cbn [length empty_world w_msgs]. lia.
    + exact LA.
  - intros k. reflexivity.
  - exists w2. split; [exact E0|]. split; [exact E2|]. cbn [Nat.add] in *. split; [|split; [exact D2|exact F2]].
    split; [|split; [exact O3|split; [lia|split; [lia|exact O6]]]].
    intros k M H. apply O1; [apply (member_lt k M H)|exact H].
Qed.

(** *** one request *)
Definition mark (used : nat -> bool) (a b : nat) : nat -> bool := fun k => (Nat.eqb k a || Nat.eqb k b || used k)%bool.
Lemma find_cloud_ok w : length (w_parties w) = S N -> (exists P, nth_error (w_parties w) 0 = Some P /\ pa_type P = TServer) ->
  (forall k M, nth_error ms k = Some M -> exists P, nth_error (w_parties w) (S k) = Some P /\ pa_type P = TClient) ->
  forall i, (0 < i <= N)%nat -> find_cloud w (dir i) = Ok (Some O).
Proof.
  intros LP [P0 [HP0 T0]] HC i Hi.
  assert (R : forall x j, In (x, j) (dir i) -> (j <= N)%nat) by (intros x j H; apply dirk_range in H; lia).
  assert (I0 : exists x, In (x, O) (dir i)) by (apply (map_find_in (dir i) (idn 0) O); apply dir_finds; lia).
  revert R I0. generalize (dir i) as d. induction d as [|[x j] d IH]; intros R [y I0]; [destruct I0|]. cbn [find_cloud].
  destruct j as [|j].
  - rewrite (proj2 (the_party_ok w 0 P0) HP0). cbn [bind]. rewrite T0. reflexivity.
  - pose proof (R x (S j) (or_introl eq_refl)) as RJ. destruct (nth_error ms j) as [M|] eqn:EM; [|apply nth_error_None in EM; lia].
    destruct (HC j M EM) as [P [HP TP]]. rewrite (proj2 (the_party_ok w (S j) P) HP). cbn [bind]. rewrite TP. cbn [ptype_eqb].
    apply IH; [intros x' j' H; apply (R x' j'); right; exact H|]. destruct I0 as [I0|I0]; [discriminate I0|exists y; exact I0].
Qed.

(** the world in which the request message exists *)
Definition with_request (w : world) (id : str) (d : list cell) : world :=
  w_set_msgs (w_set_heap w (w_heap w ++ [BBytes d])) (w_msgs w ++ [mkMsg id MClientRequest (Some (length (w_heap w))) (Z.of_nat (length d))]).
Lemma group_ready h0 used w a b MA MB coA clA coB clB cS st vA vB d sb : group h0 used w ->
  nth_error ms a = Some MA -> nth_error ms b = Some MB -> a <> b ->
  nth_error (w_parties w) (S a) = Some (mkParty (mb_id MA) TClient (dir (S a)) coA (RClient clA)) ->
  nth_error (w_parties w) (S b) = Some (mkParty (mb_id MB) TClient (dir (S b)) coB (RClient clB)) ->
  nth_error (w_parties w) 0 = Some (mkParty idS TServer (dir 0) cS (RServer (mkServer st 0))) ->
  (forall k M, (k < N)%nat -> nth_error ms k = Some M -> map_find st (mb_id M) = Some (Some (2 * N + 1 + k)%nat)) ->
  cl_toCloud clA = (2 * a + 1)%nat -> cl_toClient clA = (2 * a + 2)%nat -> cl_rawDataBits clB = Some bits ->
  nth_error (w_heap w) a = Some (BMat (table2 L D vA)) -> nth_error (w_heap w) b = Some (BMat (table2 L D vB)) ->
  (exists M, nth_error (w_msgs w) (2 * N + 1 + a) = Some M /\ m_data M = Some a) ->
  (exists M, nth_error (w_msgs w) (2 * N + 1 + b) = Some M /\ m_data M = Some b) ->
  cstr_at d 0 = Ok (mb_id MB) -> bytes_from d (length (mb_id MB) + 1) 3 = Ok sb ->
  ready (with_request w (mb_id MB) d) (S a) (S b) O (mkParty (mb_id MA) TClient (dir (S a)) coA (RClient clA))
    (mkParty (mb_id MB) TClient (dir (S b)) coB (RClient clB)) (mkParty idS TServer (dir 0) cS (RServer (mkServer st 0))) clA clB (mkServer st 0)
    (2 * N + 1 + a) (2 * N + 1 + b) (table2 L D vA) (table2 L D vB) (length (w_msgs w)) sb bits.
Proof.
  intros [GM [_ [GH [GMs GP]]]] HA HB NAB A2 B2 S1 S5 CA1 CA2 CB A8 B8 [MgA [A9 A10]] [MgB [B9 B10]] RC RS1.
  pose proof (member_lt a MA HA) as La. pose proof (member_lt b MB HB) as Lb.
  assert (FA : nul_free (mb_id MA)) by (rewrite Forall_forall in HFree; apply HFree; eapply nth_error_In; exact HA).
  assert (FB : nul_free (mb_id MB)) by (rewrite Forall_forall in HFree; apply HFree; eapply nth_error_In; exact HB).
  assert (IDA : mb_id MA = idn (S a)) by (symmetry; apply idn_member; exact HA).
  assert (IDB : mb_id MB = idn (S b)) by (symmetry; apply idn_member; exact HB).
  assert (IDS : idS = idn 0) by reflexivity.
  assert (NI : forall i j, (i <= N)%nat -> (j <= N)%nat -> i <> j -> idn i <> idn j) by (intros i j Hi Hj NE E; apply NE; apply idn_inj; assumption).
  set (w1 := with_request w (mb_id MB) d).
  assert (GMM : forall i x, nth_error (w_msgs w) i = Some x -> nth_error (w_msgs w1) i = Some x) by (intros i y Hi; apply nth_snoc_old; exact Hi).
  assert (GHH : forall i x, nth_error (w_heap w) i = Some x -> nth_error (w_heap w1) i = Some x) by (intros i y Hi; apply nth_snoc_old; exact Hi).
  assert (GL : forall i, (i < 3 * N + 1)%nat -> exists M, nth_error (w_msgs w1) i = Some M).
  { intros i Hi. destruct (nth_error (w_msgs w) i) eqn:E; [eexists; apply GMM; exact E|]. apply nth_error_None in E. lia. }
  assert (FC : find_cloud w1 (dir (S a)) = Ok (Some O)).
  { apply find_cloud_ok; [exact GP|eexists; split; [exact S1|reflexivity]| |lia].
    intros j M H. destruct (GM j M H) as [? [? [? [? [? [? [? [? [? [? [_ [X _]]]]]]]]]]]]. eexists. split; [exact X|reflexivity]. }
  constructor; cbn [pa_id pa_role pa_type pa_parties pa_core sv_stored sv_toClient]; rewrite ?CA1, ?CA2; unfold getPartyById; cbn [pa_parties].
  - exact A2.
  - exact B2.
  - exact S1.
  - reflexivity.
  - reflexivity.
  - reflexivity.
  - lia.
  - lia.
  - lia.
  - reflexivity.
  - reflexivity.
  - reflexivity.
  - exact FA.
  - exact FB.
  - rewrite IDA, IDB. apply NI; lia.
  - rewrite IDA, IDS. apply NI; lia.
  - rewrite IDB, IDS. apply NI; lia.
  - rewrite IDB. apply dir_finds; lia.
  - exact FC.
  - rewrite IDA. apply dir_finds; lia.
  - rewrite IDB. apply dir_finds; lia.
  - rewrite IDA. apply dir_finds; lia.
  - rewrite IDS. apply dir_finds; lia.
  - apply GL. lia.
  - apply GL. lia.
  - apply GL. lia.
  - lia.
  - lia.
  - lia.
  - lia.
  - apply S5; [exact La|exact HA].
  - apply S5; [exact Lb|exact HB].
  - exists MgA, a. split; [apply GMM; exact A9|]. split; [exact A10|]. apply GHH. exact A8.
  - exists MgB, b. split; [apply GMM; exact B9|]. split; [exact B10|]. apply GHH. exact B8.
  - eexists _, (length (w_heap w)), d. split; [apply nth_snoc|]. cbn [m_party m_type m_data]. repeat (split; [reflexivity|]).
    split; [apply nth_snoc|]. split; assumption.
  - exact CB.
Qed.
Lemma ask_eq w id secret to : nul_free id -> 2 ^ 8 <= secret -> exists d sb,
  cstr_at d 0 = Ok id /\ bytes_from d (length id + 1) 3 = Ok sb /\ le_val sb = secret mod 2 ^ 24 /\
  ask sha rand fuel p canzass berlekamp rbits w id secret to =
  receive sha rand fuel p canzass berlekamp rbits 4 (with_request w id d) to (length (w_msgs w)).
Proof.
  intros FI HS. pose proof (client_request_bytes_ok id secret FI ltac:(lia)) as ED. destruct (client_request_reads id secret FI ltac:(lia)) as [RC [_ RS]]. cbv zeta in RC, RS.
  destruct (RS HS) as [sb [R1 R2]]. eexists _, sb. split; [exact RC|]. split; [exact R1|]. split; [exact R2|].
  unfold ask. rewrite ED. reflexivity.
Qed.

Lemma request_ok h0 used w a b MA MB key k : group h0 used w -> new_hb L h (Some al) = Ok h0 ->
  nth_error ms a = Some MA -> nth_error ms b = Some MB -> a <> b -> used b = false -> 2 ^ 8 <= mb_secret MB < 2 ^ 24 ->
  draw_key rbits fuel (w_draws w) = Ok (key, k) -> 0 <= key < 2 ^ 128 ->
  (forall posA posB, exists r vs, session sha rand fuel p canzass berlekamp hw L h D al bits (mb_raw MA) (mb_raw MB) (mb_secret MA) (mb_secret MB) key nt posA posB (w_facts w) = Ok (r, Some vs)) ->
  exists w' tr r vs posA posB, ask sha rand fuel p canzass berlekamp rbits w (mb_id MB) (mb_secret MB) (S a) = Ok (w', Done, tr) /\
    getIntersection w' (S b) = Ok vs /\
    session sha rand fuel p canzass berlekamp hw L h D al bits (mb_raw MA) (mb_raw MB) (mb_secret MA) (mb_secret MB) key nt posA posB (w_facts w) = Ok (r, Some vs) /\
    group h0 (mark used a b) w' /\ (forall i, i <> S b -> getIntersection w' i = getIntersection w i) /\
    w_draws w' = k /\ w_facts w' = (w_facts w + L)%nat.
Proof.
  intros GG E0 HA HB NAB UB HS HK HKR HSess. pose proof GG as [GM [[cS [st [S1 [S2 [S3 [S4 S5]]]]]] [GH [GMs GP]]]].
  pose proof (member_lt a MA HA) as La. pose proof (member_lt b MB HB) as Lb. pose proof HLong' as HL64.
  destruct (GM a MA HA) as [posA [cA [tA [zA [RA [coA [zpA [qA [ttA [capA [A1 [A2 [A3 [A4 [A5 [A6 [A7 [A8 [A9 _]]]]]]]]]]]]]]]]]]].
  destruct (GM b MB HB) as [posB [cB [tB [zB [RB [coB [zpB [qB [ttB [capB [B1 [B2 [B3 [B4 [B5 [B6 [B7 [B8 [B9 _]]]]]]]]]]]]]]]]]]].
  destruct (B7 UB) as [-> [-> _]]. clear B7.
  set (vA := blind_cell p sha (mb_secret MA) D us RA) in *. set (vB := blind_cell p sha (mb_secret MB) D us RB) in *.
  destruct (HSess posA posB) as [r [vs SE]]. pose proof SE as SE0.
  assert (LU : length us = D) by apply points_length.
  (* what the two-party session computed *)
  unfold session in SE. apply bind_ok in SE. destruct SE as [r' [EX SE]]. apply bind_ok in SE. destruct SE as [x [HI SE]]. apply Ok_inj in SE. injection SE as -> HX.
  destruct x as [[cB1 vs']|]; [|discriminate]. injection HX as ->.
  assert (PU : forall c, same_core core0 c -> co_unknowns c = [] \/ co_unknowns c = us -> points_of sha p c (co_degree c) = us).
  { intros c SC [E|E]; destruct SC as [SF [_ [SD _]]]; unfold points_of; rewrite E, SF, SD; [reflexivity|].
    cbn [core0 new_core co_fieldsize co_degree]. destruct (Nat.eqb (length us) 0); reflexivity. }
  assert (CDL : forall c, same_core core0 c -> co_degree c = D /\ co_length c = L).
  { intros c [_ [_ [SD [SL _]]]]. split; assumption. }
  assert (TQ : forall c, party_ok p c -> same_core core0 c -> co_unknowns c = [] \/ co_unknowns c = us ->
     exists c', computeTOrQ sha rand fuel p c key (entry (table2 L D vA)) (entry (table2 L D vB)) = Ok (c', table2 L D (tq_value sha p (num_bits p) core0 key us vA vB)) /\
       co_unknowns c' = us /\ same_core c c' /\ party_ok p c').
  { intros c PC SC UC. destruct (CDL c SC) as [CD CL].
    destruct (computeTOrQ_ok sha HSh rand fuel p ltac:(lia) c key (entry (table2 L D vA)) (entry (table2 L D vB)) vA vB) as [c' [ET [US [SS KS]]]].
    - apply (party_core p ltac:(lia) HL64). exact PC.
    - rewrite (PU c SC UC), LU, CD. lia.
    - intros j i Hj Hi. rewrite CL in Hj. rewrite CD in Hi. split; apply entry_table2; assumption.
    - exists c'. rewrite (PU c SC UC) in ET, US. split; [|split; [exact US|split; [exact SS|apply (same_party p c c'); assumption]]].
      rewrite ET, CD, CL. assert (FB : co_fbits c = num_bits p) by apply PC. rewrite FB. rewrite (tq_value_same sha p _ _ _ _ _ _ _ SC). reflexivity. }
  assert (DO : forall c zp, party_ok p c -> same_core core0 c -> co_unknowns c = us -> zp_inv p zp ->
     exists c' zp' vq, delegationOutput sha rand fuel p c zp (mb_secret MA) (mb_secret MB) key = Ok (c', zp', table2 L D vq) /\
       vq = tq_value sha p (num_bits p) core0 key us (fun j i => key_stream sha p (num_bits p) (mb_secret MA mod p) (mask_pos D j i)) (fun j i => key_stream sha p (num_bits p) (mb_secret MB mod p) (mask_pos D j i)) /\
       co_unknowns c' = us /\ same_core c c' /\ party_ok p c' /\ zp_inv p zp').
  { intros c zp PC SC UC IZ. destruct (CDL c SC) as [CD CL].
    destruct (delegationOutput_ok p ltac:(lia) HL64 sha HSh rand fuel c zp (mb_secret MA) (mb_secret MB) key PC IZ) as [c' [zp' [EQ [UA1 [SA1 [PA1 IA1]]]]]].
    { rewrite (PU c SC (or_intror UC)), LU, CD. lia. }
    rewrite (PU c SC (or_intror UC)), CD, CL in EQ. rewrite (PU c SC (or_intror UC)) in UA1.
    eexists c', zp', _. split; [exact EQ|]. split; [rewrite (tq_value_same sha p _ _ _ _ _ _ _ SC); reflexivity|]. auto. }
  assert (SAc : same_core core0 cA /\ party_ok p cA /\ co_unknowns cA = us /\ zp_inv p zA).
  { destruct (blind_new p Hp HLong sha HSh rand fuel hw L h D al bits (mb_raw MA) (mb_secret MA) nt posA HAl HL) as [h0' [E0' [BA' _]]].
    assert (h0' = h0) by congruence. subst h0'.
    destruct BA' as [c' [h' [zp' [R' [EB [_ [X1 [X2 [X3 X4]]]]]]]]]; [rewrite Forall_forall in HFits; apply HFits; eapply nth_error_In; exact HA|].
    fold core0 in EB. rewrite A1 in EB. apply Ok_inj in EB. injection EB as -> -> -> _. auto. }
  destruct SAc as [SA1 [SA2 [SA3 SA4]]].
  destruct (TQ core0 (new_party p L h D) ltac:(repeat split) (or_introl eq_refl)) as [cx [ETx _]].
  destruct (DO cA zA SA2 SA1 SA3 SA4) as [cy [zy [vqy [EQy [Vy _]]]]].
  unfold exchange in EX. fold core0 in EX. rewrite E0 in EX. cbn [bind] in EX. rewrite A1 in EX. cbn [bind] in EX. rewrite B1 in EX. cbn [bind] in EX.
  rewrite ETx in EX. cbn [bind] in EX. rewrite EQy in EX. cbn [bind] in EX. apply Ok_inj in EX. subst r. cbn [rr_t rr_q rr_requester] in HI.
  (* the same at the group *)
  destruct (TQ cS S2 S3 S4) as [cS' [ET [US' [SS' PS']]]].
  destruct (DO coA zpA A5 A4 A3 A6) as [coA' [zpA' [vq [EQ [Vq [UA' [SA' [PA' IA']]]]]]]].
  rewrite <- Vq in Vy. subst vqy. set (vt := tq_value sha p (num_bits p) core0 key us vA vB) in *.
  assert (C1 : cB1 = cB).
  { clear - HI. unfold intersect in HI. apply bind_ok in HI. destruct HI as [pad [_ HI]]. apply bind_ok in HI. destruct HI as [df [_ HI]].
    apply bind_ok in HI. destruct HI as [[c1 u] [HG HI]]. apply bind_ok in HI. destruct HI as [[y ws] [_ HI]]. apply Ok_inj in HI. injection HI as <- _.
    unfold getUnknowns in HG. rewrite Nat.ltb_irrefl, andb_false_r in HG. cbn [bind] in HG. apply Ok_inj in HG. injection HG as <- _. reflexivity. }
  subst cB1.
  (* the request *)
  assert (FB : nul_free (mb_id MB)) by (rewrite Forall_forall in HFree; apply HFree; eapply nth_error_In; exact HB).
  destruct (ask_eq w (mb_id MB) (mb_secret MB) (S a) FB (proj1 HS)) as [d [sb [RC [RS1 [RS2 ->]]]]].
  match type of A2 with _ = Some ?P => set (PA := P) in A2 end. match type of B2 with _ = Some ?P => set (PB := P) in B2 end.
  set (clA := mkClient (mb_raw MA) (length (mb_raw MA)) (Some bits) (Some a) (mb_secret MA) tA qA ttA zpA (2 * a + 1) (2 * a + 2) capA) in *.
  set (clB := mkClient (mb_raw MB) (length (mb_raw MB)) (Some bits) (Some b) (mb_secret MB) tB None ttB zpB (2 * b + 1) (2 * b + 2) capB) in *.
  set (PS := mkParty idS TServer (dir 0) cS (RServer (mkServer st 0))) in *.
  pose proof (group_ready h0 used w a b MA MB coA clA cB clB cS st vA vB d sb GG HA HB NAB A2 B2 S1 S5 eq_refl eq_refl eq_refl A8 B8 A9 B9 RC RS1) as RD.
  fold PA in RD. fold PB in RD. fold PS in RD.
  set (w1 := with_request w (mb_id MB) d) in *.
  assert (GMM : forall i x, nth_error (w_msgs w) i = Some x -> nth_error (w_msgs w1) i = Some x) by (intros i y Hi; apply nth_snoc_old; exact Hi).
  destruct (run_ok sha rand fuel p canzass berlekamp rbits 1 w1 (S a) (S b) O PA PB PS clA clB (mkServer st 0) (2 * N + 1 + a) (2 * N + 1 + b) (table2 L D vA) (table2 L D vB) (length (w_msgs w)) sb bits
     key k cS' (table2 L D vt) (vt 0%nat 0%nat) coA' zpA' (table2 L D vq) (vq 0%nat 0%nat) cB vs RD eq_refl HK HKR ET) as [w' [E [WA [WB [WS [WP [WM [WML [WH [WR [WD WF]]]]]]]]]]].
  - apply (entry_table2 HL HD).
  - cbn [PA pa_core clA cl_zp cl_secret]. rewrite RS2, Z.mod_small by lia. exact EQ.
  - apply (entry_table2 HL HD).
  - exact HI.
  - exists w', [(S a, MClientRequest); (O, MCloudRequest); (S b, MOutput); (S b, MPolynomial)]. eexists _, vs, posA, posB.
    change (3 + 1)%nat with 4%nat in E. rewrite E. split; [reflexivity|].
    split; [unfold getIntersection; rewrite (proj2 (the_party_ok w' (S b) _) WB); reflexivity|].
    split; [exact SE0|].
    assert (HH : w_heap w' = w_heap w ++ [BBytes d; Freed; Freed; Freed]).
    { rewrite WH. unfold w1, with_request. wcbn. rewrite <- app_assoc. reflexivity. }
    assert (LMM : length (w_msgs w1) = S (length (w_msgs w))) by (unfold w1, with_request; wcbn; rewrite app_length; cbn [length]; lia).
    assert (LHH : length (w_heap w1) = S (length (w_heap w))) by (unfold w1, with_request; wcbn; rewrite app_length; cbn [length]; lia).
    assert (FR : nth_error (w_heap w') (length (w_heap w1) + 2) = Some Freed) by (rewrite HH, LHH, nth_error_app2 by lia; replace (S (length (w_heap w)) + 2 - length (w_heap w))%nat with 3%nat by lia; reflexivity).
    split; [|split; [|split; [exact WD|]]].
    + split; [|split; [|split; [|split]]].
      * intros j M HJ. destruct (GM j M HJ) as [ps [c' [t' [z' [R' [co' [zz' [q' [tt' [cap' [X1 [X2 [X3 [X4 [X5 [X6 [X7 [X8 [[Mx [X9 X10]] X11]]]]]]]]]]]]]]]]]]].
        assert (X8' : nth_error (w_heap w') j = Some (BMat (table2 L D (blind_cell p sha (mb_secret M) D us R')))) by (rewrite HH; rewrite nth_error_app1 by (pose proof (member_lt j M HJ); lia); exact X8).
        assert (X9' : exists M', nth_error (w_msgs w') (2 * N + 1 + j) = Some M' /\ m_data M' = Some j).
        { exists Mx. split; [|exact X10]. rewrite WM by (cbn [clA cl_toCloud cl_toClient sv_toClient]; lia). apply GMM. exact X9. }
        destruct (Nat.eq_dec j a) as [->|NJA]; [|destruct (Nat.eq_dec j b) as [->|NJB]].
        -- assert (M = MA) by congruence. subst M. rewrite A2 in X2. unfold PA, clA in X2. injection X2 as <- <- <- <- <- <-.
           exists ps, c', tA, z', R', coA', zpA', (Some (length (w_heap w1) + 2)%nat), ttA, capA.
           split; [exact X1|]. split; [rewrite WA; reflexivity|]. split; [exact UA'|].
           split; [destruct A4 as [Y1 [Y2 [Y3 [Y4 Y5]]]]; destruct SA' as [Q1 [Q2 [Q3 [Q4 Q5]]]]; repeat split; congruence|].
           split; [exact PA'|]. split; [exact IA'|]. split; [unfold mark; rewrite Nat.eqb_refl; discriminate|]. split; [exact X8'|]. split; [exact X9'|]. intros _. eexists. split; [reflexivity|exact FR].
        -- assert (M = MB) by congruence. subst M. rewrite B2 in X2. unfold PB, clB in X2. injection X2 as <- <- <- <- <- <-.
           exists ps, c', tB, z', R', cB, zpB, (Some (length (w_heap w1) + 2)%nat), (Some (length (w_heap w1) + 1)%nat), vs.
           split; [exact X1|]. split; [rewrite WB; reflexivity|]. split; [exact B3|]. split; [exact B4|].
           split; [exact B5|]. split; [exact B6|]. split; [unfold mark; rewrite Nat.eqb_refl, orb_true_r; discriminate|]. split; [exact X8'|]. split; [exact X9'|]. intros _. eexists. split; [reflexivity|exact FR].
        -- exists ps, c', t', z', R', co', zz', q', tt', cap'. split; [exact X1|]. split; [rewrite WP by lia; exact X2|].
           split; [exact X3|]. split; [exact X4|]. split; [exact X5|]. split; [exact X6|].
           split; [unfold mark; intros HU; apply X7; destruct (used j); [rewrite !orb_true_r in HU; discriminate|reflexivity]|]. split; [exact X8'|]. split; [exact X9'|].
           unfold mark. intros HU. rewrite (proj2 (Nat.eqb_neq _ _) NJA), (proj2 (Nat.eqb_neq _ _) NJB) in HU. destruct (X11 HU) as [qa [Q1 Q2]]. exists qa. split; [exact Q1|].
           rewrite HH. apply nth_error_app_old. exact Q2.
      * exists cS', st. split; [rewrite WS; reflexivity|]. split; [exact PS'|].
        split; [destruct S3 as [Y1 [Y2 [Y3 [Y4 Y5]]]]; destruct SS' as [Q1 [Q2 [Q3 [Q4 Q5]]]]; repeat split; congruence|]. split; [right; exact US'|exact S5].
      * rewrite HH, app_length. lia.
      * rewrite WML, LMM. lia.
      * assert (LE : forall i, (i < length (w_parties w'))%nat <-> (i < length (w_parties w))%nat).
        { intros i. rewrite <- !nth_error_Some. destruct (Nat.eq_dec i (S a)) as [->|N1]; [rewrite WA, A2; split; discriminate|].
          destruct (Nat.eq_dec i (S b)) as [->|N2]; [rewrite WB, B2; split; discriminate|]. destruct (Nat.eq_dec i 0) as [->|N3]; [rewrite WS, S1; split; discriminate|].
          rewrite (WP i N1 N2 N3). reflexivity. }
        pose proof (LE (length (w_parties w))). pose proof (LE (length (w_parties w'))). lia.
    + intros i NB. unfold getIntersection, the_party. destruct (Nat.eq_dec i (S a)) as [->|N1]; [rewrite WA, A2; reflexivity|].
      destruct (Nat.eq_dec i 0) as [->|N3]; [rewrite WS, S1; reflexivity|]. rewrite (WP i N1 NB N3). reflexivity.
    + rewrite WF. cbn [PB pa_core]. wcbn. destruct (CDL cB B4) as [_ ->]. reflexivity.
Qed.

(** *** the objects of a client serve one request *)
Lemma request_again h0 used w a b MA MB key k secret : group h0 used w ->
  nth_error ms a = Some MA -> nth_error ms b = Some MB -> a <> b -> used b = true ->
  draw_key rbits fuel (w_draws w) = Ok (key, k) -> 0 <= key < 2 ^ 128 -> 2 ^ 8 <= secret ->
  ask sha rand fuel p canzass berlekamp rbits w (mb_id MB) secret (S a) = UB Dangling.
Proof.
  intros GG HA HB NAB UB HK HKR HS. pose proof GG as [GM [[cS [st [S1 [S2 [S3 [S4 S5]]]]]] [GH [GMs GP]]]]. pose proof HLong' as HL64.
  destruct (GM a MA HA) as [posA [cA [tA [zA [RA [coA [zpA [qA [ttA [capA [A1 [A2 [A3 [A4 [A5 [A6 [A7 [A8 [A9 _]]]]]]]]]]]]]]]]]]].
  destruct (GM b MB HB) as [posB [cB [tB [zB [RB [coB [zpB [qB [ttB [capB [B1 [B2 [B3 [B4 [B5 [B6 [B7 [B8 [B9 B11]]]]]]]]]]]]]]]]]]].
  destruct (B11 UB) as [qa [-> HQ]].
  assert (FB : nul_free (mb_id MB)) by (rewrite Forall_forall in HFree; apply HFree; eapply nth_error_In; exact HB).
  destruct (ask_eq w (mb_id MB) secret (S a) FB HS) as [d [sb [RC [RS1 [RS2 ->]]]]].
  pose proof (group_ready h0 used w a b MA MB coA _ coB _ cS st _ _ d sb GG HA HB NAB A2 B2 S1 S5 eq_refl eq_refl eq_refl A8 B8 A9 B9 RC RS1) as RD.
  assert (LU : length us = D) by apply points_length.
  assert (PU : points_of sha p cS (co_degree cS) = us).
  { destruct S3 as [SF [_ [SD _]]]. unfold points_of. destruct S4 as [E|E]; rewrite E, SF, SD; [reflexivity|].
    cbn [core0 new_core co_fieldsize co_degree]. destruct (Nat.eqb (length us) 0); reflexivity. }
  assert (CD : co_degree cS = D /\ co_length cS = L) by (destruct S3 as [_ [_ [SD [SL _]]]]; split; assumption). destruct CD as [CD CL].
  assert (CB : co_degree coB = D /\ co_length coB = L) by (destruct B4 as [_ [_ [SD [SL _]]]]; split; assumption). destruct CB as [CBD CBL].
  set (vA := blind_cell p sha (mb_secret MA) D us RA) in *. set (vB := blind_cell p sha (mb_secret MB) D us RB) in *.
  destruct (computeTOrQ_ok sha HSh rand fuel p ltac:(lia) cS key (entry (table2 L D vA)) (entry (table2 L D vB)) vA vB) as [c' [ET _]].
  - apply (party_core p ltac:(lia) HL64). exact S2.
  - rewrite PU, LU, CD. lia.
  - intros j i Hj Hi. rewrite CL in Hj. rewrite CD in Hi. split; apply entry_table2; assumption.
  - rewrite CD, CL in ET.
    eapply (run_dangling sha rand fuel p canzass berlekamp rbits 1 _ (S a) (S b) O _ _ _ _ _ _ _ _ _ _ _ sb bits key k c' _ _ qa RD).
    + reflexivity.
    + apply nth_snoc_old. exact HQ.
    + cbn [pa_core]. lia.
    + cbn [pa_core]. lia.
    + exact HK.
    + exact HKR.
    + cbn [pa_core]. exact ET.
    + apply (entry_table2 HL HD).
Qed.
End G.
