(** Property C129: what receive() writes to the standard output. *)
From Verif Require Import Base Spec Lib NtlMiss NtlMissProofs StrIntModel HashBucketsModel HashBucketsSpec HashBucketsProofs.
From Verif Require Import PRFModel PRFSpec PRFProofs PolyModel PolySpec EopsiModel EopsiSpec EopsiProofs EopsiBlind EopsiRun EopsiFacts PropEopsi.
From Verif Require Import WorldModel WorldSpec WorldProofs WorldFrame WorldRun WorldMore WorldSim WorldLaws PropWorld PropRun PropMore PropCollude.
From Verif Require Import MurmurModel ShaSpec ShaProofs ConsoleModel ConsoleSpec ConsoleProofs ConsoleRun.
From Coq Require Import String.
From Coq Require Import Lia Znumtheory List.
Import ListNotations.
#[local] Open Scope list_scope.
#[local] Open Scope Z_scope.

(** Writing changes nothing else: with the lines left out, the functions that
    write are those the other claims are about. *)
Theorem C129_same_program : forall sha rand fuel p canzass berlekamp hw rbits,
  (forall d w me m, snd (receive_log sha rand fuel p canzass berlekamp rbits d w me m) = receive sha rand fuel p canzass berlekamp rbits d w me m) /\
  (forall L h D al b idA idB idS sA sB rawA rawB nt pos draws facts,
     snd (simulate_log sha rand fuel p canzass berlekamp hw rbits L h D al b idA idB idS sA sB rawA rawB nt pos draws facts) =
     simulate sha rand fuel p canzass berlekamp hw rbits L h D al b idA idB idS sA sB rawA rawB nt pos draws facts).
Proof.
  intros. split; intros.
  - apply same_receive.
  - apply same_simulate.
Qed.
Print Assumptions C129_same_program.

(** What a client writes that accepts a request, in any world: the requester's
    secret as the message has it, then the new key of the session; the server
    it asks writes the key again. *)
Theorem C129_request : forall sha rand fuel p canzass berlekamp rbits d w me P c m M l w' tr,
  nth_error (w_parties w) me = Some P -> pa_role P = RClient c -> nth_error (w_msgs w) m = Some M -> m_type M = MClientRequest -> m <> cl_toCloud c ->
  (forall i, 0 <= rbits i < 2 ^ 128) ->
  receive_log sha rand fuel p canzass berlekamp rbits (S d) w me m = (l, Ok (w', Done, tr)) ->
  exists s Q cs sb key k i C l1 l2,
    getPartyById P (m_party M) = Some s /\ nth_error (w_parties w) s = Some Q /\
    bytes_at (w_heap w) (m_data M) = Ok cs /\ cstr_at cs 0 = Ok (pa_id Q) /\ bytes_from cs (length (pa_id Q) + 1) 3 = Ok sb /\
    draw_key rbits fuel (w_draws w) = Ok (key, k) /\ 2 ^ 127 <= key /\
    find_cloud w (pa_parties P) = Ok (Some i) /\ nth_error (w_parties w) i = Some C /\
    l = LSecret (pa_id P) (le_val sb) (pa_id Q) :: LSending (pa_id P) key (pa_id C) :: l1 ++ LHelperTime :: l2 /\
    (forall sv, pa_role C = RServer sv -> nul_free (pa_id P) -> nul_free (pa_id Q) ->
       exists l3, l1 = LKey (pa_id C) key (pa_id P) :: LServerTime :: l3).
Proof.
  intros sha rand fuel p canzass berlekamp rbits d w me P c m M l w' tr HP HR HM HT NM RB H.
  cbn [receive_log] in H. rewrite (proj2 (the_party_ok w me P) HP), lb_ok, (proj2 (the_msg_ok w m M) HM), lb_ok, HR in H.
  apply lb_inv in H. destruct H as [[[w1 o1] tr1] [l0 [E [H EL]]]]. cbn [quietly] in H. injection H as <- <- -> <-. rewrite app_nil_r in EL. subst l.
  destruct (client_receive_log sha rand fuel p canzass berlekamp rbits (receive_log sha rand fuel p canzass berlekamp rbits d) w me P c m M) as [l r] eqn:H. cbn [snd] in E. subst r. cbn [fst].
  unfold client_receive_log in H. destruct (str_eqb (m_party M) (pa_id P)); [discriminate|].
  apply lb_inv in H. destruct H as [ok [l1 [E1 [H ->]]]]. cbn [fst quietly app]. destruct (negb ok); [discriminate|].
  destruct (getPartyById P (m_party M)) as [s|] eqn:EG; [|discriminate].
  apply lb_inv in H. destruct H as [Q [l2 [E2 [H ->]]]]. cbn [fst quietly app snd] in *. rewrite HT in H. apply the_party_ok in E2.
  unfold client_request_log in H.
  apply lb_inv in H. destruct H as [cs [l3 [E3 [H ->]]]]. cbn [fst quietly app snd] in *.
  apply lb_inv in H. destruct H as [claimed [l4 [E4 [H ->]]]]. cbn [fst quietly app snd] in *.
  apply lb_inv in H. destruct H as [Q' [l5 [E5 [H ->]]]]. cbn [fst quietly app snd] in *. apply the_party_ok in E5. assert (Q' = Q) by congruence. subst Q'.
  destruct (str_eqb claimed (pa_id Q)) eqn:EC; [|discriminate]. cbn [negb] in H. apply str_eqb_eq in EC. subst claimed.
  apply lb_inv in H. destruct H as [[key k] [l6 [E6 [H ->]]]]. cbn [fst quietly app snd] in *.
  apply lb_inv in H. destruct H as [dd [l7 [E7 [H ->]]]]. cbn [fst quietly app snd] in *.
  unfold alloc in H. apply lb_inv in H. destruct H as [MC [l8 [E8 [H ->]]]]. cbn [fst quietly app snd] in *.
  match type of H with context [find_cloud ?x _] => set (w2 := x) in * end.
  assert (EF : forall l, find_cloud w2 l = find_cloud w l).
  { induction l as [|[i j] l IH]; [reflexivity|]. cbn [find_cloud]. change (the_party w2 j) with (the_party w j). destruct (the_party w j); cbn [bind]; try reflexivity. rewrite IH. reflexivity. }
  apply lb_inv in H. destruct H as [cloud [l9 [E9 [H ->]]]]. cbn [fst quietly app snd] in *. rewrite EF in E9. destruct cloud as [cl|]; [|discriminate].
  apply lb_inv in H. destruct H as [M2 [l10 [E10 [H ->]]]]. cbn [fst quietly app snd] in *.
  apply lb_inv in H. destruct H as [cs2 [l11 [E11 [H ->]]]]. cbn [fst quietly app snd] in *.
  apply lb_inv in H. destruct H as [sb [l12 [E12 [H ->]]]]. cbn [fst quietly app snd] in *.
  assert (EM : the_msg w2 m = Ok M) by (apply the_msg_ok; unfold w2; cbn; rewrite nth_upd_other by congruence; exact HM).
  assert (M2 = M) by congruence. subst M2.
  assert (EB : bytes_at (w_heap w2) (m_data M) = Ok cs).
  { unfold w2. cbn. unfold bytes_at in E3 |- *. destruct (m_data M) as [a|]; [|discriminate]. destruct (nth_error (w_heap w) a) as [bl|] eqn:E; [|discriminate].
    rewrite (nth_snoc_old _ _ _ _ E). exact E3. }
  assert (cs2 = cs) by congruence. subst cs2.
  apply lb_inv in H. destruct H as [u [l13 [_ [H ->]]]]. cbn [fst say app] in *.
  apply lb_inv in H. destruct H as [C [l14 [E14 [H ->]]]]. cbn [fst quietly app snd] in *.
  change (the_party w2 cl) with (the_party w cl) in E14. apply the_party_ok in E14.
  apply lb_inv in H. destruct H as [u' [l15 [_ [H ->]]]]. cbn [fst say app] in *.
  apply lb_inv in H. destruct H as [[[w3 o3] tr3] [l16 [E16 [H ->]]]]. cbn [send_with_log] in *.
  destruct o3; [|discriminate|].
  2:{ cbn [quietly] in H. discriminate. }
  apply lb_inv in H. destruct H as [[[w4 o4] tr4] [l17 [E17 [H ->]]]]. cbn [quietly] in H. injection H as <- <- -> <-.
  assert (EK : 2 ^ 127 <= key < 2 ^ 128) by (apply (proj2 (proj2 (C85_key rbits fuel (w_draws w))) RB key k E6)).
  assert (X : exists l2', fst (client_reply_log sha rand fuel p (receive_log sha rand fuel p canzass berlekamp rbits d) w3 me s (le_val sb) key) = LHelperTime :: l2').
  { destruct (client_reply_log sha rand fuel p (receive_log sha rand fuel p canzass berlekamp rbits d) w3 me s (le_val sb) key) as [ll r] eqn:E. cbn [snd fst] in *. subst r.
    unfold client_reply_log in E. apply lb_inv in E. destruct E as [P3 [x1 [_ [E ->]]]]. apply lb_inv in E. destruct E as [c3 [x2 [_ [E ->]]]].
    apply lb_inv in E. destruct E as [[[co z] q] [x3 [_ [E ->]]]]. unfold alloc in E. apply lb_inv in E. destruct E as [M3 [x4 [_ [E ->]]]].
    apply lb_inv in E. destruct E as [u3 [x5 [_ [E ->]]]]. cbn [fst quietly say app]. eexists. reflexivity. }
  destruct X as [l2' EX]. rewrite EX.
  exists s, Q, cs, sb, key, k, cl, C, (fst (receive_log sha rand fuel p canzass berlekamp rbits d w2 cl (cl_toCloud c))), (l2' ++ []).
  repeat (split; [first [assumption|lia|reflexivity]|]).
  (* the server *)
  intros sv HRC NP NQ. destruct d as [|d]; [cbn [receive_log quietly snd] in E16; apply Ok_inj in E16; discriminate|].
  set (rl := receive_log sha rand fuel p canzass berlekamp rbits d) in *.
  assert (HMC : exists Mc, nth_error (w_msgs w2) (cl_toCloud c) = Some Mc /\ m_type Mc = MCloudRequest /\ m_party Mc = pa_id P /\ m_data Mc = Some (length (w_heap w))).
  { apply the_msg_ok in E8. cbn in E8. eexists. split; [unfold w2; cbn; apply (nth_upd_same _ _ _ _ E8)|]. repeat split. }
  destruct HMC as [Mc [HMc [T1 [T2 T3]]]].
  destruct (receive_log sha rand fuel p canzass berlekamp rbits (S d) w2 cl (cl_toCloud c)) as [ll r] eqn:E. cbn [snd fst] in *. subst r.
  assert (E14' : nth_error (w_parties w2) cl = Some C) by exact E14.
  rewrite (receive_log_server sha rand fuel p canzass berlekamp rbits d w2 cl (cl_toCloud c) C Mc sv E14' HMc HRC) in E. fold rl in E.
  apply lb_inv in E. destruct E as [[[w5 o5] tr5] [x0 [E [G ->]]]]. cbn [quietly] in G. injection G as <- -> -> _. rewrite app_nil_r.
  destruct (server_receive_log sha rand fuel p rl w2 cl C sv (cl_toCloud c) Mc) as [ll r] eqn:F. cbn [snd fst] in *. subst r.
  unfold server_receive_log in F. destruct (str_eqb (m_party Mc) (pa_id C)); [discriminate|].
  apply lb_inv in F. destruct F as [ok2 [y1 [_ [F ->]]]]. cbn [fst quietly app]. destruct (negb ok2); [discriminate|]. rewrite T2 in F.
  destruct (getPartyById C (pa_id P)) as [s2|]; [|discriminate]. rewrite T1 in F. unfold server_request_log in F.
  apply lb_inv in F. destruct F as [Q2 [y2 [F2 [F ->]]]]. cbn [fst quietly app]. destruct (ptype_eqb _ _); [discriminate|].
  apply lb_inv in F. destruct F as [ds [y3 [F3 [F ->]]]]. cbn [fst quietly app snd] in *.
  apply lb_inv in F. destruct F as [own [y4 [F4 [F ->]]]]. cbn [fst quietly app snd] in *. destruct (str_eqb own (pa_id Q2)) eqn:EQ; [|discriminate]. cbn [negb] in F.
  apply str_eqb_eq in EQ. subst own.
  apply lb_inv in F. destruct F as [partner [y5 [F5 [F ->]]]]. cbn [fst quietly app snd] in *.
  apply lb_inv in F. destruct F as [kb [y6 [F6 [F ->]]]]. cbn [fst quietly app snd] in *.
  apply lb_inv in F. destruct F as [u2 [y7 [_ [F ->]]]]. cbn [fst say app].
  apply lb_inv in F. destruct F as [[w6 t] [y8 [_ [F ->]]]]. cbn [fst quietly app]. unfold alloc in F.
  apply lb_inv in F. destruct F as [MC2 [y9 [_ [F ->]]]]. cbn [fst quietly app].
  apply lb_inv in F. destruct F as [u4 [y10 [_ [F ->]]]]. cbn [fst say app].
  assert (ED : dd = map Some (cloud_request_layout (pa_id P) (pa_id Q) key)).
  { rewrite (cloud_request_ok _ _ key NP NQ) in E7 by lia. congruence. }
  assert (EH : bytes_at (w_heap w2) (m_data Mc) = Ok dd). { rewrite T3. unfold w2. cbn. rewrite nth_snoc. reflexivity. }
  assert (ds = dd) by congruence. subst ds.
  destruct (cloud_request_reads (pa_id P) (pa_id Q) key NP NQ ltac:(lia)) as [R1 [R2 [kb2 [R3 R4]]]]. cbv zeta in R1, R2, R3. rewrite <- ED in R1, R2, R3.
  assert (EI : pa_id Q2 = pa_id P) by congruence. rewrite EI in *.
  assert (partner = pa_id Q) by congruence. subst partner. assert (kb = kb2) by congruence. subst kb2. rewrite R4.
  eexists. reflexivity.
Qed.
Print Assumptions C129_request.

(** A message that is refused (an exception, and no other message was sent)
    leaves no line. *)
Theorem C129_refused : forall sha rand fuel p canzass berlekamp rbits d w me m l w' r t,
  receive_log sha rand fuel p canzass berlekamp rbits d w me m = (l, Ok (w', Thrown r, [(me, t)])) -> l = [].
Proof.
  intros sha rand fuel p canzass berlekamp rbits [|d] w me m l w' r t H; [discriminate|]. cbn [receive_log] in H.
  assert (NE : forall w a b w1 o tr, snd (receive_log sha rand fuel p canzass berlekamp rbits d w a b) = Ok (w1, o, tr) -> o = TooDeep \/ tr <> []).
  { intros w0 a b w1 o tr E. rewrite same_receive in E. destruct d as [|d']; [cbn in E; apply Ok_inj in E; injection E as <- <- <-; auto|].
    apply receive_inv in E. destruct E as [P [M [tr' [_ [_ [_ ->]]]]]]. right. discriminate. }
  set (rl := receive_log sha rand fuel p canzass berlekamp rbits d) in *.
  apply lb_inv in H. destruct H as [P [x1 [_ [H ->]]]]. apply lb_inv in H. destruct H as [M [x2 [_ [H ->]]]]. cbn [fst quietly app].
  apply lb_inv in H. destruct H as [[[w1 o1] tr1] [x3 [E [H ->]]]]. cbn [quietly] in H. injection H as E1 E2 E3 E4 E5. subst x3 w1 o1 tr1. rewrite app_nil_r. clear E4.
  destruct (pa_role P) as [c|sv].
  - destruct (client_receive_log sha rand fuel p canzass berlekamp rbits rl w me P c m M) as [l2 rr] eqn:H. cbn [snd fst] in *. subst rr.
    unfold client_receive_log in H. destruct (str_eqb _ _); [injection H as <- _; reflexivity|].
    apply lb_inv in H. destruct H as [ok [y1 [_ [H ->]]]]. cbn [fst quietly app]. destruct (negb ok); [injection H as <- _; reflexivity|].
    destruct (getPartyById P (m_party M)) as [s|]; [|discriminate].
    apply lb_inv in H. destruct H as [Q [y2 [_ [H ->]]]]. cbn [fst quietly app].
    destruct (m_type M); try (injection H as <- _; reflexivity).
    + unfold client_request_log in H.
      apply lb_inv in H. destruct H as [cs [y3 [_ [H ->]]]]. apply lb_inv in H. destruct H as [cl [y4 [_ [H ->]]]].
      apply lb_inv in H. destruct H as [Q2 [y5 [_ [H ->]]]]. cbn [fst quietly app]. destruct (negb _); [injection H as <- _; reflexivity|]. exfalso.
      apply lb_inv in H. destruct H as [[key k] [y6 [_ [H _]]]]. apply lb_inv in H. destruct H as [dd [y7 [_ [H _]]]]. unfold alloc in H.
      apply lb_inv in H. destruct H as [MC [y8 [_ [H _]]]]. apply lb_inv in H. destruct H as [[i|] [y9 [_ [H _]]]]; [|discriminate].
      apply lb_inv in H. destruct H as [M2 [z1 [_ [H _]]]]. apply lb_inv in H. destruct H as [cs2 [z2 [_ [H _]]]].
      apply lb_inv in H. destruct H as [sb [z3 [_ [H _]]]]. apply lb_inv in H. destruct H as [u1 [z4 [_ [H _]]]].
      apply lb_inv in H. destruct H as [C [z5 [_ [H _]]]]. apply lb_inv in H. destruct H as [u2 [z6 [_ [H _]]]].
      apply lb_inv in H. destruct H as [[[w3 o3] tr3] [z7 [E [H _]]]]. cbn [send_with_log] in E. apply NE in E.
      destruct o3; [|discriminate|discriminate]. destruct E as [E|E]; [discriminate|].
      apply lb_inv in H. destruct H as [[[w4 o4] tr4] [z8 [_ [H _]]]]. cbn [quietly] in H. injection H as _ _ _ H. apply app_eq_nil in H. tauto.
    + exfalso. unfold client_output_log in H. apply lb_inv in H. destruct H as [v [y3 [_ [H _]]]]. apply lb_inv in H. destruct H as [u [y4 [_ [H _]]]].
      apply lb_inv in H. destruct H as [w2 [y5 [_ [H _]]]]. apply lb_inv in H. destruct H as [u2 [y6 [_ [H _]]]]. discriminate.
    + exfalso. unfold client_polynomial_log in H. apply lb_inv in H. destruct H as [v [y3 [_ [H _]]]]. apply lb_inv in H. destruct H as [u [y4 [_ [H _]]]].
      apply lb_inv in H. destruct H as [w2 [y5 [_ [H _]]]]. apply lb_inv in H. destruct H as [u2 [y6 [_ [H _]]]]. discriminate.
  - destruct (server_receive_log sha rand fuel p rl w me P sv m M) as [l rr] eqn:H. cbn [snd fst] in *. subst rr.
    unfold server_receive_log in H. destruct (str_eqb _ _); [injection H as <- _; reflexivity|].
    apply lb_inv in H. destruct H as [ok [y1 [_ [H ->]]]]. cbn [fst quietly app]. destruct (negb ok); [injection H as <- _; reflexivity|].
    destruct (getPartyById P (m_party M)) as [s|]; [|discriminate].
    destruct (m_type M); try (injection H as <- _; reflexivity).
    + apply lb_inv in H. destruct H as [Q [y2 [_ [H ->]]]]. cbn [fst quietly app]. destruct (ptype_eqb _ _); [injection H as <- _; reflexivity|]. exfalso.
      apply lb_inv in H. destruct H as [u [y3 [_ [H _]]]]. apply lb_inv in H. destruct H as [u2 [y4 [_ [H _]]]]. discriminate.
    + unfold server_request_log in H. apply lb_inv in H. destruct H as [Q [y2 [_ [H ->]]]]. cbn [fst quietly app]. destruct (ptype_eqb _ _); [injection H as <- _; reflexivity|].
      apply lb_inv in H. destruct H as [cs [y3 [_ [H ->]]]]. apply lb_inv in H. destruct H as [cl [y4 [_ [H ->]]]]. cbn [fst quietly app].
      destruct (negb _); [injection H as <- _; reflexivity|]. exfalso.
      apply lb_inv in H. destruct H as [pa [y5 [_ [H _]]]]. apply lb_inv in H. destruct H as [kb [y6 [_ [H _]]]].
      apply lb_inv in H. destruct H as [u1 [y7 [_ [H _]]]]. apply lb_inv in H. destruct H as [[w5 tt0] [y8 [_ [H _]]]]. unfold alloc in H.
      apply lb_inv in H. destruct H as [MC [y9 [_ [H _]]]]. apply lb_inv in H. destruct H as [u2 [z1 [_ [H _]]]].
      destruct (getPartyById P pa); [|discriminate].
      apply lb_inv in H. destruct H as [[[w3 o3] tr3] [z7 [E [H _]]]]. cbn [send_with_log] in E. apply NE in E. destruct o3; [|cbn [quietly] in H|discriminate].
      * apply lb_inv in H. destruct H as [a1 [b1 [_ [H _]]]]. apply lb_inv in H. destruct H as [a2 [b2 [_ [H _]]]]. apply lb_inv in H. destruct H as [a3 [b3 [_ [H _]]]]. discriminate.
      * injection H as _ _ _ H. destruct E as [E|E]; [discriminate|contradiction].
Qed.
Print Assumptions C129_refused.

(** The whole output of the simulator's program but for its own lines, the
    times and the progress dots.  [x], [y]: the first entries of t and of q. *)
Theorem C129_run : forall sha p L h D al b rawA rawB rand fuel hw canzass berlekamp rbits idA idB idS sA sB nt pos draws facts key k,
  setting sha p L h D al b rawA rawB -> distinct_points sha p D -> factors_correctly p canzass -> factors_correctly p berlekamp ->
  idA <> idB -> idA <> idS -> idB <> idS -> nul_free idA -> nul_free idB -> rawA <> [] -> rawB <> [] ->
  2 ^ 8 <= sB < 2 ^ 24 -> draw_key rbits fuel draws = Ok (key, k) -> 0 <= key < 2 ^ 128 ->
  exists posB r vs x y w,
    session sha rand fuel p canzass berlekamp hw L h D al b rawA rawB sA sB key nt pos posB facts = Ok (r, Some vs) /\
    entry (rr_t r) 0 0 = Ok x /\ entry (rr_q r) 0 0 = Ok y /\
    simulate_log sha rand fuel p canzass berlekamp hw rbits L h D al b idA idB idS sA sB rawA rawB nt pos draws facts =
      ([LStored idS idA (Z.of_nat (D * L)); LStoredTime; LStored idS idB (Z.of_nat (D * L)); LStoredTime;
        LSecret idA sB idB; LSending idA key idS; LKey idS key idA; LServerTime;
        LGot idB x idS; LPart MOutput; LHelperTime; LGot idB y idA; LStats L (length vs); LFound; LPart MPolynomial], Ok w) /\
    getIntersection w 1 = Ok vs /\
    (* the array the server keeps for the requester, and the requester's table *)
    nth_error (w_heap w) 1 = Some (BMat (rr_blindB r)) /\
    (exists PS sv M, nth_error (w_parties w) 2 = Some PS /\ pa_id PS = idS /\ pa_role PS = RServer sv /\
       map_find (sv_stored sv) idB = Some (Some 6%nat) /\ nth_error (w_msgs w) 6 = Some M /\ m_data M = Some 1%nat) /\
    exists PB cB, nth_error (w_parties w) 1 = Some PB /\ pa_role PB = RClient cB /\ cl_table cB = rr_tableB r.
Proof.
  intros sha p L h D al bits rawA rawB rand fuel hw canzass berlekamp rbits idA idB idS sA sB nt pos draws facts key k ST ND HC HB NAB NAS NBS FA FB HA HBe HS HK HKR.
  pose proof ST as [HSh HPr HOdd HLong HAl HL HDeg HW HdA HdB HfA HfB]. rewrite <- (data_eq ST rawA HdA) in HfA. rewrite <- (data_eq ST rawB HdB) in HfB.
  assert (HD : (0 < D)%nat) by lia.
  assert (HLong' : num_bits p + 7 < 2 ^ 64) by (change (2 ^ 63) with 9223372036854775808 in HLong; lia).
  destruct (blind_new p HOdd HLong sha HSh rand fuel hw L h D al bits rawA sA nt pos HAl HL) as [hA [EA [BA' _]]].
  destruct (BA' HfA) as [cA [tA [zA [RA [BA [_ [UA [SA [PA IA]]]]]]]]]. clear BA'.
  destruct (blind_new p HOdd HLong sha HSh rand fuel hw L h D al bits rawB sB nt (p_pos (zp_prf zA)) HAl HL) as [hB [EB [BB' _]]].
  destruct (BB' HfB) as [cB [tB [zB [RB [BB [_ [UB [SB [PB IB]]]]]]]]]. clear BB'.
  assert (hB = hA) by congruence. subst hB.
  set (us := points sha p (num_bits p) D) in *. assert (LU : length us = D) by apply points_length.
  set (vA := blind_cell p sha sA D us RA) in *. set (vB := blind_cell p sha sB D us RB) in *.
  destruct (computeTOrQ_ok sha HSh rand fuel p ltac:(lia) (new_core p L h D 0) key (entry (table2 L D vA)) (entry (table2 L D vB)) vA vB) as [cS [ET [US [SS KS]]]].
  { apply (party_core p ltac:(lia) HLong'). apply new_party. }
  { change (points_of sha p (new_core p L h D 0) (co_degree (new_core p L h D 0))) with us. rewrite LU. cbn. lia. }
  { intros j i Hj Hi. split; apply entry_table2; assumption. }
  assert (PUA : points_of sha p cA (co_degree cA) = us).
  { unfold points_of. rewrite UA. destruct SA as [SF [_ [SD _]]]. cbn [new_core co_fieldsize co_degree] in SF, SD. rewrite SF, SD.
    fold us. destruct (Nat.eqb (length us) 0); reflexivity. }
  assert (CD : co_degree cA = D) by (destruct SA as [_ [_ [SD _]]]; exact SD). assert (CL : co_length cA = L) by (destruct SA as [_ [_ [_ [SD _]]]]; exact SD).
  assert (CLB : co_length cB = L) by (destruct SB as [_ [_ [_ [SD _]]]]; exact SD).
  destruct (delegationOutput_ok p ltac:(lia) HLong' sha HSh rand fuel cA zA sA sB key PA IA) as [cA1 [zA1 [EQ [UA1 [SA1 _]]]]].
  { rewrite PUA, LU, CD. lia. }
  rewrite PUA, CD, CL in EQ.
  change (co_length (new_core p L h D 0)) with L in *. change (co_degree (new_core p L h D 0)) with D in *.
  match type of ET with _ = Ok (_, table2 L D ?v) => set (vt := v) in * end.
  match type of EQ with _ = Ok (_, _, table2 L D ?v) => set (vq := v) in * end.
  destruct (C46_explained sha p L h D al bits rawA rawB rand fuel hw sA sB key nt pos (p_pos (zp_prf zA)) canzass berlekamp facts ST ND HC HB) as [r [vs [E _]]].
  pose proof E as E0. unfold session in E. apply bind_ok in E. destruct E as [r' [EX E]]. apply bind_ok in E. destruct E as [x [HI E]]. apply Ok_inj in E. injection E as -> HX.
  destruct x as [[cB1 vs']|]; [|discriminate]. injection HX as ->.
  unfold exchange in EX. rewrite EA in EX. cbn [bind] in EX. rewrite BA in EX. cbn [bind] in EX. rewrite BB in EX. cbn [bind] in EX.
  rewrite ET in EX. cbn [bind] in EX. rewrite EQ in EX. cbn [bind] in EX. apply Ok_inj in EX. subst r. cbn [rr_t rr_q rr_requester] in HI.
  assert (X0 : entry (table2 L D vt) 0 0 = Ok (vt 0%nat 0%nat)) by (apply (entry_table2 HL HD)).
  assert (Y0 : entry (table2 L D vq) 0 0 = Ok (vq 0%nat 0%nat)) by (apply (entry_table2 HL HD)).
  assert (EQ' : delegationOutput sha rand fuel p cA zA sA (sB mod 2 ^ 24) key = Ok (cA1, zA1, table2 L D vq)) by (rewrite Z.mod_small by lia; exact EQ).
  destruct (simulate_run sha rand fuel p canzass berlekamp hw rbits L h D al bits idA idB idS sA sB rawA rawB nt pos draws facts NAB NAS NBS HA HBe FA FB
    hA cA cB tA tB zA zB (table2 L D vA) (table2 L D vB) key k cS (table2 L D vt) (vt 0%nat 0%nat) cA1 zA1 (table2 L D vq) (vq 0%nat 0%nat) cB1 vs EA BA BB HK HKR ltac:(lia) ET X0 EQ' Y0 HI)
    as [w' [S1 [S2 [S3 [_ [[bs [S5 _]] [_ [_ [S6 [_ [_ [S7 _]]]]]]]]]]]].
  pose proof (simulate_console sha rand fuel p canzass berlekamp hw rbits L h D al bits idA idB idS sA sB rawA rawB nt pos draws facts NAB NAS NBS HA HBe FA FB
    hA cA cB tA tB zA zB (table2 L D vA) (table2 L D vB) key k cS (table2 L D vt) (vt 0%nat 0%nat) cA1 zA1 (table2 L D vq) (vq 0%nat 0%nat) cB1 vs EA BA BB HK HKR ltac:(lia) ET X0 EQ' Y0 HI) as F.
  rewrite Z.mod_small in F by lia. rewrite CLB in F.
  eexists _, _, vs, (vt 0%nat 0%nat), (vq 0%nat 0%nat), w'. split; [exact E0|]. cbn [rr_t rr_q rr_blindB rr_tableB]. split; [exact X0|]. split; [exact Y0|]. split.
  { rewrite <- F, <- S1, <- same_simulate. apply surjective_pairing. }
  split; [exact S2|]. split; [rewrite S5; reflexivity|]. split.
  - eexists _, _, _. split; [exact S6|]. split; [reflexivity|]. split; [reflexivity|]. split; [|split; [exact S7|reflexivity]].
    cbn [sv_stored cloud1]. rewrite !map_find_put, str_eqb_refl. reflexivity.
  - eexists _, _. split; [exact S3|]. split; reflexivity.
Qed.
Print Assumptions C129_run.

(** Who reads the console and has what the server stores knows the requester's
    data: subtracting the masks of a secret that was written and interpolating
    gives a polynomial whose roots are exactly the elements of a bucket. *)
Theorem C129_log_reveals : forall sha p L h D al b rawA rawB rand fuel hw canzass berlekamp rbits idA idB idS sA sB nt pos draws facts key k,
  setting sha p L h D al b rawA rawB -> distinct_points sha p D -> factors_correctly p canzass -> factors_correctly p berlekamp ->
  idA <> idB -> idA <> idS -> idB <> idS -> nul_free idA -> nul_free idB -> rawA <> [] -> rawB <> [] ->
  2 ^ 8 <= sB < 2 ^ 24 -> draw_key rbits fuel draws = Ok (key, k) -> 0 <= key < 2 ^ 128 ->
  exists w console mat PB cB,
    simulate_log sha rand fuel p canzass berlekamp hw rbits L h D al b idA idB idS sA sB rawA rawB nt pos draws facts = (console, Ok w) /\
    nth_error (w_heap w) 1 = Some (BMat mat) /\ nth_error (w_parties w) 1 = Some PB /\ pa_role PB = RClient cB /\
    (exists s, In (LSecret idA s idB) console) /\
    forall s, In (LSecret idA s idB) console -> forall j, (j < L)%nat -> exists row R f, nth_error mat j = Some row /\ contents (cl_table cB) j R /\
      interpolate p (points sha p (num_bits p) D)
        (map (fun i => (nth i row 0 - key_stream sha p (num_bits p) (s mod p) (mask_pos D j i)) mod p) (seq 0 D)) = Ok f /\
      (forall z, 0 <= z < p -> (value p f z = 0 <-> In z R)) /\
      (forall v, In v rawB -> index_of al L (padded (pad_width p b) v) = j -> In (padded (pad_width p b) v) R).
Proof.
  intros sha p L h D al b rawA rawB rand fuel hw canzass berlekamp rbits idA idB idS sA sB nt pos draws facts key k ST ND HC HB NAB NAS NBS FA FB HA HBe HS HK HKR.
  destruct (C129_run sha p L h D al b rawA rawB rand fuel hw canzass berlekamp rbits idA idB idS sA sB nt pos draws facts key k ST ND HC HB NAB NAS NBS FA FB HA HBe HS HK HKR)
    as [posB [r [vs [x [y [w [E [_ [_ [EL [_ [EH [_ [PB [cB [E1 [E2 E3]]]]]]]]]]]]]]]]].
  eexists w, _, (rr_blindB r), PB, cB. split; [exact EL|]. split; [exact EH|]. split; [exact E1|]. split; [exact E2|]. split.
  { exists sB. cbn [In]. auto 10. }
  intros s Hs. assert (s = sB). { cbn [In] in Hs. repeat (destruct Hs as [Hs|Hs]; [try discriminate Hs; injection Hs as Hs; congruence|]). contradiction. } subst s.
  destruct (C118_server_with_helper sha p L h D al b rawA rawB rand fuel hw sA sB key nt pos posB sB ST ND eq_refl) as [r' [EX G]].
  unfold session in E. rewrite EX in E. cbn [bind] in E. apply bind_ok in E. destruct E as [z [_ E]]. apply Ok_inj in E. injection E as -> _.
  intros j Hj. destruct (G j Hj) as [row [R [f G']]]. exists row, R, f. rewrite E3. exact G'.
Qed.
Print Assumptions C129_log_reveals.

(** The text of a line gives the secret or the key in it back, whatever the
    other id is. *)
Lemma to_quote a b r s : Forall (fun c => 48 <= c <= 57) a -> Forall (fun c => 48 <= c <= 57) b -> a ++ quote ++ r = b ++ quote ++ s -> a = b.
Proof.
  intros HA. revert b. induction HA as [|x a Hx HA IH]; intros b HB E; destruct HB as [|y b Hy HB]; cbn in E; [reflexivity|injection E as E1 E2; lia|injection E as E1 E2; lia|].
  injection E as E1 E2. subst y. f_equal. apply IH; assumption.
Qed.
Theorem C129_text : forall id from from' v v' t,
  (written (LSecret id v from) t -> written (LSecret id v' from') t -> v = v') /\
  (written (LSending id v from) t -> written (LSending id v' from') t -> v = v') /\
  (written (LKey id v from) t -> written (LKey id v' from') t -> v = v') /\
  (0 <= v -> exists t, written (LSecret id v from) t).
Proof.
  intros id from from' v v' t. split; [|split; [|split]].
  1-3: cbn [written]; intros [n [Hn E]] [n' [Hn' E']]; rewrite E in E'; repeat apply app_inv_head in E';
    apply to_quote in E'; [|apply Hn|apply Hn']; subst n'; destruct Hn as [_ [_ [<- _]]]; destruct Hn' as [_ [_ [<- _]]]; reflexivity.
  intros Hv. eexists. cbn [written]. exists (dec_text v). split; [apply dec_text_decimal; exact Hv|reflexivity].
Qed.
Print Assumptions C129_text.

(** the example of C70: the lines, with the requester's secret 300 and the key *)
Example C129_nonvacuous :
  (match simulate_log ex_sha ex_rand 10 61 ex_brute ex_brute 4 ex_rbits 3 2 5 ex_algo 3 [97] [98] [99; 1] 77 300 [0; 1; 4] [1; 3; 0] 1 0 0 0 with
   | ([LStored _ _ z; LStoredTime; LStored _ _ _; LStoredTime; LSecret a s b; LSending _ k c; LKey c' k' a'; LServerTime;
       LGot b' _ _; LPart MOutput; LHelperTime; LGot _ _ _; LStats n m; LFound; LPart MPolynomial], Ok _) =>
       (z =? 15) && str_eqb a [97] && (s =? 300) && str_eqb b [98] && (k =? 2 ^ 127 + 99) && str_eqb c [99; 1] && str_eqb c' [99; 1] && (k' =? k) && str_eqb a' [97] &&
       str_eqb b' [98] && Nat.eqb n 3 && Nat.eqb m 2
   | _ => false
   end) = true /\
  (exists w console mat PB cB s,
    simulate_log ex_sha ex_rand 10 61 ex_factor ex_factor 4 ex_rbits 3 2 5 ex_algo 3 [97] [98] [99; 1] 77 300 [0; 1; 4] [1; 3; 0] 1 0 0 0 = (console, Ok w) /\
    nth_error (w_heap w) 1 = Some (BMat mat) /\ nth_error (w_parties w) 1 = Some PB /\ pa_role PB = RClient cB /\ In (LSecret [97] s [98]) console) /\
  written (LSecret [97] 300 [98]) (chars "a. Received ""300"" from b." ++ newline).
Proof.
  split; [vm_compute; reflexivity|]. split.
  - destruct (C129_log_reveals ex_sha 61 3 2 5 ex_algo 3 [0; 1; 4] [1; 3; 0] ex_rand 10 4 ex_factor ex_factor ex_rbits [97] [98] [99; 1] 77 300 1 0 0 0 (2 ^ 127 + 99) 2)
      as [w [co [mat [PB [cB [E [A [B [C [[s Hs] _]]]]]]]]]];
      [exact ex_setting|exact ex_distinct|exact ex_factor_ok|exact ex_factor_ok|discriminate|discriminate|discriminate|repeat constructor; lia|repeat constructor; lia|discriminate|discriminate|lia|vm_compute; reflexivity|lia|].
    exists w, co, mat, PB, cB, s. auto.
  - cbn [written]. exists [51; 48; 48]. split; [|reflexivity]. split; [discriminate|]. split; [repeat constructor; lia|]. split; [reflexivity|]. cbn. discriminate.
Qed.

(** a NUL in the id of the requester (C51): the cloud request reaches the server,
    which refuses it after it has read the claimed id; and a client that is sent
    an outsourcing *)
Example C129_refused_nonvacuous :
  match receive_log ex_sha ex_rand 10 61 ex_nofactor ex_nofactor ex_bits 4
          (ex_end [OSetId 0 [97; 0]; OAuthenticate 2 0; ONewBytes (ex_cloud_request (2 ^ 127 + 99)); ONewMessage (mkMsg [97; 0] MCloudRequest (Some 2%nat) 21)]) 2 7 with
  | (l, Ok (_, Thrown IdMismatch, [(2%nat, MCloudRequest)])) => l = []
  | _ => False
  end /\
  match receive_log ex_sha ex_rand 10 61 ex_nofactor ex_nofactor ex_bits 4 (ex_end []) 1 5 with
  | (l, Ok (_, Thrown NotAuthorised, [(1%nat, MOutsourcing)])) => l = []
  | _ => False
  end.
Proof. split; vm_compute; reflexivity. Qed.
