(** Properties C84: one server and any number of clients. *)
From Verif Require Import Base Spec Lib NtlMiss NtlMissProofs StrIntModel HashBucketsModel HashBucketsSpec HashBucketsProofs.
From Verif Require Import PRFModel PRFSpec PRFProofs PolyModel PolySpec EopsiModel EopsiSpec EopsiProofs EopsiBlind EopsiRun EopsiFacts PropEopsi.
From Verif Require Import WorldModel WorldSpec WorldProofs WorldFrame WorldRun WorldMore WorldSim WorldLaws PropRun GroupSpec GroupProofs.
From Coq Require Import Lia Znumtheory.

Lemma session_explained sha p L h D al b rawA rawB rand fuel hw canzass berlekamp sA sB key nt posA posB facts r vs :
  setting sha p L h D al b rawA rawB -> distinct_points sha p D -> factors_correctly p canzass -> factors_correctly p berlekamp ->
  session sha rand fuel p canzass berlekamp hw L h D al b rawA rawB sA sB key nt posA posB facts = Ok (r, Some vs) ->
  explained sha p L h D al b rawA rawB key vs.
Proof.
  intros ST ND HC HB E0.
  destruct (C46_explained sha p L h D al b rawA rawB rand fuel hw sA sB key nt posA posB canzass berlekamp facts ST ND HC HB) as [r1 [vs1 [E [R1 R2]]]].
  rewrite E in E0. apply Ok_inj in E0. injection E0 as -> ->.
  destruct (C45_complete sha p L h D al b rawA rawB rand fuel hw sA sB key nt posA posB canzass berlekamp facts ST ND HC HB) as [r' [vs' [E' CO]]].
  rewrite E in E'. apply Ok_inj in E'. injection E' as <- <-.
  split; [exact CO|].
  destruct (sess_facts ST key rand fuel hw sA sB nt posA posB facts canzass berlekamp HC HB) as [r2 [RA [RB [E2 [FL _]]]]].
  assert (r2 = r). { unfold session in E. apply bind_ok in E. destruct E as [r3 [E3 E]]. rewrite E2 in E3. apply Ok_inj in E3. subst r3.
    apply bind_ok in E. destruct E as [y [_ E]]. apply Ok_inj in E. injection E as <- _. reflexivity. }
  subst r2. exists RA, RB.
  assert (CT : forall j RA' RB', (j < L)%nat -> contents (rr_tableA r) j RA' -> contents (rr_tableB r) j RB' -> RA' = RA j /\ RB' = RB j).
  { intros j RA' RB' Hj [mA CA'] [mB CB']. destruct (FL j Hj) as [fA [fB [_ [_ [_ [_ [_ [_ [[nA CA] [nB CB]]]]]]]]]].
    rewrite CA in CA'. rewrite CB in CB'. apply Ok_inj in CA'. apply Ok_inj in CB'. injection CA' as <- _. injection CB' as <- _. auto. }
  assert (RT : forall j z, (j < L)%nat -> (exists RA' RB', contents (rr_tableA r) j RA' /\ contents (rr_tableB r) j RB' /\
      combined p RA' RB' (coeffsA sha p L D h key j) (coeffsB sha p L D h key j) z = 0) <->
      combined p (RA j) (RB j) (coeffsA sha p L D h key j) (coeffsB sha p L D h key j) z = 0).
  { intros j z Hj. split.
    - intros [RA' [RB' [CA [CB Z0]]]]. destruct (CT j RA' RB' Hj CA CB) as [-> ->]. exact Z0.
    - intros Z0. destruct (FL j Hj) as [fA [fB [_ [_ [_ [_ [_ [_ [CA CB]]]]]]]]]. exists (RA j), (RB j). auto. }
  split.
  { intros j Hj. destruct (FL j Hj) as [fA [fB [EA [EB [LA [LB [GA [GB _]]]]]]]]. exists fA, fB. repeat (split; [assumption|]). apply Forall_app. split; assumption. }
  cbv zeta. split.
  - intros v. rewrite R1. split; intros [[j [Hj [B Z0]]] N]; (split; [|exact N]); exists j; (split; [exact Hj|]); (split; [exact B|]); apply (RT j _ Hj); exact Z0.
  - intros NA. apply R2. intros j v Hj B N Z0. apply NA; try assumption. apply (RT j _ Hj). exact Z0.
Qed.

(** the requests one after the other, each by the member that is named second;
    the outcomes of all of them *)
Fixpoint ask_all sha rand fuel p canzass berlekamp rbits (ms : list member) (reqs : list (nat * nat)) (w : world) : res (world * list outcome) :=
  match reqs with
  | [] => Ok (w, [])
  | (a, b) :: r =>
      match nth_error ms b with
      | None => UB OutOfBounds
      | Some MB =>
          do (w1, o, tr) <- ask sha rand fuel p canzass berlekamp rbits w (mb_id MB) (mb_secret MB) (S a);
          do (w2, os) <- ask_all sha rand fuel p canzass berlekamp rbits ms r w1;
          Ok (w2, o :: os)
      end
  end.

Section R.
Variable sha : list Z -> list Z.
Variable rand : nat -> Z.
Variable fuel : nat.
Variable p : Z.
Variables canzass berlekamp : nat -> list Z -> list (list Z * Z).
Variable hw : nat.
Variable rbits : nat -> Z.
Variables (L h D : nat) (al : halgo Z) (bits : Z) (idS : str) (nt : nat).
Variable ms : list member.
Hypothesis HSh : is_sha sha.
Hypothesis Hp : 2 < p.
Hypothesis HLong : num_bits p < 2 ^ 63.
Hypothesis HAl : algo_valid al.
Hypothesis HL : (0 < L)%nat.
Hypothesis HD : (0 < D)%nat.
Hypothesis ND : NoDup (idS :: map mb_id ms).
Hypothesis HFree : Forall (fun M => nul_free (mb_id M)) ms.
Hypothesis HFits : Forall (fun M => fits al L h (map (field_value p bits) (mb_raw M))) ms.
Hypothesis HSec : Forall (fun M => 2 ^ 8 <= mb_secret M < 2 ^ 24) ms.
Hypothesis HST : forall MA MB, In MA ms -> In MB ms -> setting sha p L h D al bits (mb_raw MA) (mb_raw MB).
Hypothesis HDP : distinct_points sha p D.
Hypothesis HC : factors_correctly p canzass.
Hypothesis HB : factors_correctly p berlekamp.
Hypothesis HK : forall d, exists key k, draw_key rbits fuel d = Ok (key, k) /\ 0 <= key < 2 ^ 128.

Lemma requests_ok h0 : new_hb L h (Some al) = Ok h0 -> forall reqs seen used w,
  group sha rand fuel p hw L h D bits idS nt ms h0 used w -> (forall k, used k = true <-> In k seen) -> fresh_requests (length ms) seen reqs ->
  exists w' used', ask_all sha rand fuel p canzass berlekamp rbits ms reqs w = Ok (w', repeat Done (length reqs)) /\
    group sha rand fuel p hw L h D bits idS nt ms h0 used' w' /\
    (forall k, used' k = true <-> In k seen \/ exists a b, In (a, b) reqs /\ (k = a \/ k = b)) /\
    (forall i, ~ In i (map (fun r => S (snd r)) reqs) -> getIntersection w' i = getIntersection w i) /\
    (forall a b MA MB, In (a, b) reqs -> nth_error ms a = Some MA -> nth_error ms b = Some MB ->
      exists vs key n k, getIntersection w' (S b) = Ok vs /\ draw_key rbits fuel n = Ok (key, k) /\
        explained sha p L h D al bits (mb_raw MA) (mb_raw MB) key vs).
Proof.
  intros E0. induction reqs as [|[a b] reqs IH]; intros seen used w GG HU FR.
  - exists w, used. split; [reflexivity|]. split; [exact GG|]. split; [|split; [reflexivity|intros ? ? ? ? []]].
    intros k. rewrite HU. split; [auto|]. intros [X|[a [b [[] _]]]]; exact X.
  - cbn [fresh_requests] in FR. destruct FR as [La [Lb [NAB [NS FR]]]]. cbn [ask_all length repeat].
    destruct (nth_error ms a) as [MA|] eqn:EA; [|apply nth_error_None in EA; lia].
    destruct (nth_error ms b) as [MB|] eqn:EB; [|apply nth_error_None in EB; lia].
    assert (IA : In MA ms) by (eapply nth_error_In; exact EA). assert (IB : In MB ms) by (eapply nth_error_In; exact EB).
    destruct (HK (w_draws w)) as [key [k [KE KR]]].
    assert (UB : used b = false) by (destruct (used b) eqn:E; [|reflexivity]; apply HU in E; contradiction).
    assert (SB : 2 ^ 8 <= mb_secret MB < 2 ^ 24) by (rewrite Forall_forall in HSec; apply HSec; exact IB).
    destruct (request_ok sha rand fuel p canzass berlekamp hw rbits L h D al bits idS nt HSh Hp HLong HAl HL HD ms ND HFree HFits h0 used w a b MA MB key k GG E0 EA EB NAB UB SB KE KR)
      as [w1 [tr [r [vs [posA [posB [EQ [GI [SE [G1 [GO [_ _]]]]]]]]]]]].
    { intros posA posB. destruct (C45_complete sha p L h D al bits (mb_raw MA) (mb_raw MB) rand fuel hw (mb_secret MA) (mb_secret MB) key nt posA posB canzass berlekamp (w_facts w) (HST MA MB IA IB) HDP HC HB) as [r [vs [E _]]].
      exists r, vs. exact E. }
    rewrite EQ. cbn [bind].
    destruct (IH (a :: b :: seen) (mark used a b) w1 G1) as [w2 [used2 [E2 [G2 [U2 [O2 R2]]]]]].
    { intros j. unfold mark. cbn [In]. rewrite !orb_true_iff, !Nat.eqb_eq, HU. split; intuition congruence. }
    { exact FR. }
    rewrite E2. cbn [bind]. exists w2, used2. split; [reflexivity|]. split; [exact G2|]. split; [|split].
    + intros j. rewrite U2. cbn [In]. split.
      * intros [[X|[X|X]]|[a' [b' [I X]]]]; [right; exists a, b; split; [left; reflexivity|left; congruence]|right; exists a, b; split; [left; reflexivity|right; congruence]|left; exact X|right; exists a', b'; split; [right; exact I|exact X]].
      * intros [X|[a' [b' [[I|I] X]]]]; [auto| |right; exists a', b'; auto]. injection I as <- <-. left. destruct X as [X|X]; rewrite X; auto.
    + intros i NI. cbn [map In snd] in NI. rewrite O2 by tauto. apply GO. intros ->. apply NI. left. reflexivity.
    + assert (NB : ~ In (S b) (map (fun r => S (snd r)) reqs)).
      { clear - FR. assert (X : forall rs sn, In b sn -> fresh_requests (length ms) sn rs -> ~ In (S b) (map (fun r => S (snd r)) rs)).
        { induction rs as [|[x y] rs IHr]; intros sn I F; [intros []|]. cbn [fresh_requests] in F. destruct F as [_ [_ [_ [N F]]]].
          intros [Y|Y]; [cbn in Y; apply N; replace y with b by congruence; exact I|]. apply (IHr (x :: y :: sn)); [right; right; exact I|exact F|exact Y]. }
        apply (X reqs (a :: b :: seen)); [right; left; reflexivity|exact FR]. }
      intros a' b' MA' MB' [I|I] HA' HB'; [|apply (R2 a' b' MA' MB' I HA' HB')].
      injection I as <- <-. rewrite EA in HA'. rewrite EB in HB'. injection HA' as <-. injection HB' as <-.
      exists vs, key, (w_draws w), k. split; [rewrite O2 by exact NB; exact GI|]. split; [exact KE|].
      apply (session_explained sha p L h D al bits (mb_raw MA) (mb_raw MB) rand fuel hw canzass berlekamp _ _ key nt posA posB (w_facts w) r vs (HST MA MB IA IB) HDP HC HB SE).
Qed.
End R.

(** *** C84 *)
(** Any number of clients outsource to one server; then any list of requests in
    which nobody asks after having taken part in an earlier one ends well: every
    call returns normally, and at the end every requester holds its own answer
    for its own helper's data, whatever the others did in between. *)
Theorem C84_group : forall sha rand fuel p canzass berlekamp hw rbits L h D al bits idS nt ms pos draws facts reqs,
  (exists M, In M ms) ->
  (forall MA MB, In MA ms -> In MB ms -> setting sha p L h D al bits (mb_raw MA) (mb_raw MB)) ->
  distinct_points sha p D -> factors_correctly p canzass -> factors_correctly p berlekamp ->
  NoDup (idS :: map mb_id ms) ->
  Forall (fun M => nul_free (mb_id M) /\ mb_raw M <> [] /\ 2 ^ 8 <= mb_secret M < 2 ^ 24) ms ->
  (forall d, exists key k, draw_key rbits fuel d = Ok (key, k) /\ 0 <= key < 2 ^ 128) ->
  fresh_requests (length ms) [] reqs ->
  exists w w', group_setup sha rand fuel p canzass berlekamp hw rbits L h D al bits idS nt ms pos draws facts = Ok w /\
    ask_all sha rand fuel p canzass berlekamp rbits ms reqs w = Ok (w', repeat Done (length reqs)) /\
    (* the requesters' results *)
    (forall a b MA MB, In (a, b) reqs -> nth_error ms a = Some MA -> nth_error ms b = Some MB ->
      exists vs key n k, getIntersection w' (S b) = Ok vs /\ draw_key rbits fuel n = Ok (key, k) /\
        explained sha p L h D al bits (mb_raw MA) (mb_raw MB) key vs) /\
    (* the others hold none *)
    (forall c, (c < length ms)%nat -> ~ In c (map snd reqs) -> getIntersection w' (S c) = Ok []) /\
    (* a member that took part - as helper or as requester - cannot ask any more *)
    (forall a b MB secret, (exists c, In (b, c) reqs \/ In (c, b) reqs) -> (a < length ms)%nat -> a <> b -> nth_error ms b = Some MB -> 2 ^ 8 <= secret ->
      ask sha rand fuel p canzass berlekamp rbits w' (mb_id MB) secret (S a) = UB Dangling).
Proof.
  intros sha rand fuel p canzass berlekamp hw rbits L h D al bits idS nt ms pos draws facts reqs [M0 IM0] HST HDP HC HB ND HM HK FR.
  pose proof (HST M0 M0 IM0 IM0) as ST. destruct ST as [HSh HPr HOdd HLong HAl HL HDeg HW HdA _ HfA _].
  assert (HFree : Forall (fun M => nul_free (mb_id M)) ms) by (eapply Forall_impl; [|exact HM]; cbv beta; tauto).
  assert (HRaw : Forall (fun M => mb_raw M <> []) ms) by (eapply Forall_impl; [|exact HM]; cbv beta; tauto).
  assert (HSec : Forall (fun M => 2 ^ 8 <= mb_secret M < 2 ^ 24) ms) by (eapply Forall_impl; [|exact HM]; cbv beta; tauto).
  assert (HFits : Forall (fun M => fits al L h (map (field_value p bits) (mb_raw M))) ms).
  { apply Forall_forall. intros M I. pose proof (HST M M I I) as SM. rewrite (data_eq SM) by (apply (st_dataA _ _ _ _ _ _ _ _ _ SM)). apply (st_fitA _ _ _ _ _ _ _ _ _ SM). }
  assert (HD : (0 < D)%nat) by lia.
  destruct (setup_ok sha rand fuel p canzass berlekamp hw rbits L h D al bits idS nt HSh HOdd HLong HAl HL HD ms ND HRaw HFits pos draws facts) as [h0 [w [E0 [EW [GG _]]]]].
  destruct (requests_ok sha rand fuel p canzass berlekamp hw rbits L h D al bits idS nt ms HSh HOdd HLong HAl HL HD ND HFree HFits HSec HST HDP HC HB HK h0 E0 reqs [] (fun _ => false) w GG)
    as [w' [used [EA [G' [U' [O' R']]]]]]; [intros k; split; [discriminate|intros []]|exact FR|].
  exists w, w'. split; [exact EW|]. split; [exact EA|]. split; [exact R'|]. split.
  - intros c Lc NC. rewrite O'.
    + destruct GG as [GM _]. destruct (nth_error ms c) as [M|] eqn:EM; [|apply nth_error_None in EM; lia].
      destruct (GM c M EM) as [? [? [? [? [? [? [? [? [? [? [_ [X [_ [_ [_ [_ [Y _]]]]]]]]]]]]]]]]].
      destruct (Y eq_refl) as [_ [_ Z]]. unfold getIntersection. rewrite (proj2 (the_party_ok w (S c) _) X), Z. reflexivity.
    + intros I. apply in_map_iff in I. destruct I as [[x y] [E I]]. cbn in E. injection E as ->. apply NC. apply in_map_iff. exists (x, c). auto.
  - intros a b MB secret [c HI] La NAB EB HS.
    destruct (nth_error ms a) as [MA|] eqn:EMA; [|apply nth_error_None in EMA; lia].
    destruct (HK (w_draws w')) as [key [k [KE KR]]].
    apply (request_again sha rand fuel p canzass berlekamp hw rbits L h D bits idS nt HSh HOdd HLong HL HD ms ND HFree h0 used w' a b MA MB key k secret G' EMA EB NAB); try assumption.
    apply U'. right. destruct HI as [HI|HI]; [exists b, c; auto|exists c, b; auto].
Qed.
Print Assumptions C84_group.
Definition ex_members : list member := [mkMember [97] 300 [0; 1; 4]; mkMember [98] 301 [1; 3; 0]; mkMember [100] 302 [1; 4]].
Example C84_nonvacuous : fresh_requests 3 [] [(0, 1); (0, 2)]%nat /\
  exists w w', group_setup ex_sha ex_rand 10 61 ex_factor ex_factor 4 ex_rbits 3 2 5 ex_algo 3 [99; 1] 1 ex_members 0 0 0 = Ok w /\
    ask_all ex_sha ex_rand 10 61 ex_factor ex_factor ex_rbits ex_members [(0, 1); (0, 2)]%nat w = Ok (w', [Done; Done]) /\
    exists vs1 vs2, getIntersection w' 2 = Ok vs1 /\ In 1 vs1 /\ getIntersection w' 3 = Ok vs2 /\ In 1 vs2 /\ In 4 vs2 /\
      ask ex_sha ex_rand 10 61 ex_factor ex_factor ex_rbits w' [97] 300 2 = UB Dangling.
Proof.
  assert (FR : fresh_requests 3 [] [(0, 1); (0, 2)]%nat) by (cbn; intuition lia).
  split; [exact FR|].
  assert (DF : forall l, Forall (fun v => 0 <= v < 8) l -> forallb (fun j => Nat.leb (length (belonging ex_algo 3 j (padded_data 61 3 l))) 2) (seq 0 3) = true -> fits ex_algo 3 2 (padded_data 61 3 l)).
  { intros l _ H j Hj. rewrite forallb_forall in H. apply Nat.leb_le. apply H. apply in_seq. lia. }
  assert (ST : forall MA MB, In MA ex_members -> In MB ex_members -> setting ex_sha 61 3 2 5 ex_algo 3 (mb_raw MA) (mb_raw MB)).
  { assert (X : forall M, In M ex_members -> Forall (fun v => 0 <= v < 8) (mb_raw M) /\ fits ex_algo 3 2 (padded_data 61 3 (mb_raw M))).
    { intros M [<-|[<-|[<-|[]]]]; (split; [cbn [mb_raw]; repeat constructor; lia|apply DF; [cbn [mb_raw]; repeat constructor; lia|vm_compute; reflexivity]]). }
    pose proof ex_setting as [HSh HPr HOdd HLong HAl HL HDeg HW HdA _ HfA _].
    intros MA MB IA IB. destruct (X MA IA) as [A1 A2]. destruct (X MB IB) as [B1 B2]. constructor; assumption. }
  destruct (C84_group ex_sha ex_rand 10 61 ex_factor ex_factor 4 ex_rbits 3 2 5 ex_algo 3 [99; 1] 1 ex_members 0 0 0 [(0, 1); (0, 2)]%nat) as [w [w' [S1 [S2 [S3 [_ S4]]]]]].
  - eexists. left. reflexivity.
  - exact ST.
  - exact ex_distinct.
  - exact ex_factor_ok.
  - exact ex_factor_ok.
  - cbn. repeat constructor; cbn; intuition discriminate.
  - repeat constructor; cbn; try discriminate; try lia.
  - intros d. exists (2 ^ 127 + 99). destruct d as [|d]; eexists; (split; [vm_compute; reflexivity|lia]).
  - exact FR.
  - exists w, w'. split; [exact S1|]. split; [exact S2|].
    destruct (S3 0%nat 1%nat _ _ (or_introl eq_refl) eq_refl eq_refl) as [vs1 [k1 [_ [_ [G1 [_ [C1 _]]]]]]].
    destruct (S3 0%nat 2%nat _ _ (or_intror (or_introl eq_refl)) eq_refl eq_refl) as [vs2 [k2 [_ [_ [G2 [_ [C2 _]]]]]]].
    exists vs1, vs2. split; [exact G1|]. split; [apply C1; [cbn; auto|cbn; auto|left; lia]|]. split; [exact G2|].
    split; [apply C2; [cbn; auto|cbn; auto|left; lia]|]. split; [apply C2; [cbn; auto|cbn; auto|left; lia]|].
    apply (S4 1%nat 0%nat (mkMember [97] 300 [0; 1; 4])); [exists 1%nat; left; left; reflexivity|cbn; lia|discriminate|reflexivity|lia].
Qed.
