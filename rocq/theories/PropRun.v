(** End to end: the simulator's program, from the constructors to the
    requester's getIntersection().  C70, and the parts of C52 and C59 about a
    whole run. *)
From Verif Require Import Base Spec Lib NtlMiss NtlMissProofs StrIntModel HashBucketsModel HashBucketsSpec HashBucketsProofs.
From Verif Require Import PRFModel PRFSpec PRFProofs PolyModel PolySpec EopsiModel EopsiSpec EopsiProofs EopsiBlind EopsiRun EopsiFacts PropEopsi.
From Verif Require Import WorldModel WorldSpec WorldProofs WorldFrame WorldRun WorldMore WorldSim WorldLaws.
From Coq Require Import Lia Znumtheory.

(** the position of rand() after the first party outsourced does not depend on the second party *)
Section R.
Variable sha : list Z -> list Z.
Variable rand : nat -> Z.
Variable fuel : nat.
Variable p : Z.
Variables canzass berlekamp : nat -> list Z -> list (list Z * Z).
Variable hw : nat.
Variable rbits : nat -> Z.
#[local] Notation simulate := (simulate sha rand fuel p canzass berlekamp hw rbits).
#[local] Notation session := (session sha rand fuel p canzass berlekamp hw).
#[local] Notation exchange := (exchange sha rand fuel p hw).
#[local] Notation intersect := (intersect sha rand fuel p canzass berlekamp).

(** after a run: what is left of the three parties *)
Definition run_over (w : world) (L D : nat) (bits : Z) (idA idB idS : list Z) (k : nat) : Prop :=
  exists sA sB rawA rawB tA tB zA zB cA cB cS vA vB vs bs posn,
    nth_error (w_parties w) 0 = Some (mkParty idA TClient (dirA idB idS) cA (RClient (mkClient rawA (length rawA) (Some bits) (Some 0%nat) sA tA (Some 5%nat) None zA 0 1 []))) /\
    nth_error (w_parties w) 1 = Some (mkParty idB TClient (dirB idA idS) cB (RClient (mkClient rawB (length rawB) (Some bits) (Some 1%nat) sB tB (Some 5%nat) (Some 4%nat) zB 2 3 vs))) /\
    nth_error (w_parties w) 2 = Some (mkParty idS TServer (dirS idA idB) cS (RServer (cloud1 idA idB))) /\
    length (w_msgs w) = 8%nat /\
    nth_error (w_msgs w) 5 = Some (mkMsg idA MOutsourcing (Some 0%nat) (Z.of_nat (D * L))) /\
    nth_error (w_msgs w) 6 = Some (mkMsg idB MOutsourcing (Some 1%nat) (Z.of_nat (D * L))) /\
    w_heap w = [BMat (table2 L D vA); BMat (table2 L D vB); BBytes bs; Freed; Freed; Freed] /\
    w_draws w = k /\ w_rand w = posn /\
    core_ok cS /\ co_length cS = L /\ co_degree cS = D /\ length (co_unknowns cS) = D /\
    co_length cA = L /\ co_degree cA = D /\ co_length cB = L /\ co_degree cB = D.

Lemma simulate_session_gen L h D al bits idA idB idS sA sB rawA rawB nt pos draws facts key k :
  is_sha sha -> 2 < p -> num_bits p < 2 ^ 63 -> algo_valid al -> (0 < L)%nat -> (0 < D)%nat ->
  fits al L h (map (field_value p bits) rawA) -> fits al L h (map (field_value p bits) rawB) ->
  idA <> idB -> idA <> idS -> idB <> idS -> nul_free idA -> nul_free idB -> rawA <> [] -> rawB <> [] ->
  2 ^ 8 <= sB < 2 ^ 24 -> draw_key rbits fuel draws = Ok (key, k) -> 0 <= key < 2 ^ 128 ->
  exists posB, forall r vs, session L h D al bits rawA rawB sA sB key nt pos posB facts = Ok (r, Some vs) ->
    exists w', simulate L h D al bits idA idB idS sA sB rawA rawB nt pos draws facts = Ok w' /\ getIntersection w' 1 = Ok vs /\
      getIntersection w' 0 = Ok [] /\ run_over w' L D bits idA idB idS k /\
      exists len, nth_error (w_msgs w') 7 = Some (mkMsg idB MClientRequest (Some 2%nat) len).
Proof.
  intros HSh HOdd HLong HAl HL HD HfA HfB NAB NAS NBS FA FB HA HB HS HK HKR. assert (HLong' : num_bits p + 7 < 2 ^ 64) by (change (2 ^ 63) with 9223372036854775808 in HLong; lia).
  destruct (blind_new p HOdd HLong sha HSh rand fuel hw L h D al bits rawA sA nt pos HAl HL) as [hA [EA [BA' _]]].
  destruct (BA' HfA) as [cA [tA [zA [RA [BA [_ [UA [SA [PA IA]]]]]]]]]. clear BA'.
  destruct (blind_new p HOdd HLong sha HSh rand fuel hw L h D al bits rawB sB nt (p_pos (zp_prf zA)) HAl HL) as [hB [EB [BB' _]]].
  destruct (BB' HfB) as [cB [tB [zB [RB [BB [_ [UB [SB [PB IB]]]]]]]]]. clear BB'.
  assert (hB = hA) by congruence. subst hB.
  set (us := points sha p (num_bits p) D) in *. assert (LU : length us = D) by apply points_length.
  set (vA := blind_cell p sha sA D us RA) in *. set (vB := blind_cell p sha sB D us RB) in *.
  exists (p_pos (zp_prf zA)). intros r vs HSS. unfold EopsiModel.session in HSS. apply bind_ok in HSS. destruct HSS as [r' [EX HSS]].
  apply bind_ok in HSS. destruct HSS as [x [HI HSS]]. apply Ok_inj in HSS. injection HSS as -> HX. destruct x as [[cB1 vs']|]; [|discriminate]. injection HX as ->.
  destruct (computeTOrQ_ok sha HSh rand fuel p ltac:(lia) (new_core p L h D 0) key (entry (table2 L D vA)) (entry (table2 L D vB)) vA vB) as [cS [ET [US [SS KS]]]].
  { apply (party_core p ltac:(lia) HLong'). apply new_party. }
  { change (points_of sha p (new_core p L h D 0) (co_degree (new_core p L h D 0))) with us. rewrite LU. cbn. lia. }
  { intros j i Hj Hi. split; apply entry_table2; assumption. }
  assert (PUA : points_of sha p cA (co_degree cA) = us).
  { unfold points_of. rewrite UA. destruct SA as [SF [_ [SD _]]]. cbn [new_core co_fieldsize co_degree] in SF, SD. rewrite SF, SD.
    fold us. destruct (Nat.eqb (length us) 0); reflexivity. }
  assert (CD : co_degree cA = D) by (destruct SA as [_ [_ [SD _]]]; exact SD). assert (CL : co_length cA = L) by (destruct SA as [_ [_ [_ [SD _]]]]; exact SD).
  destruct (delegationOutput_ok p ltac:(lia) HLong' sha HSh rand fuel cA zA sA sB key PA IA) as [cA1 [zA1 [EQ [UA1 [SA1 _]]]]].
  { rewrite PUA, LU, CD. lia. }
  rewrite PUA, CD, CL in EQ.
  unfold EopsiModel.exchange in EX. rewrite EA in EX. cbn [bind] in EX. rewrite BA in EX. cbn [bind] in EX. rewrite BB in EX. cbn [bind] in EX.
  rewrite ET in EX. cbn [bind] in EX. rewrite EQ in EX. cbn [bind] in EX. apply Ok_inj in EX. subst r. cbn [rr_t rr_q rr_requester] in HI.
  change (co_length (new_core p L h D 0)) with L in *. change (co_degree (new_core p L h D 0)) with D in *.
  match type of ET with _ = Ok (_, table2 L D ?v) => set (vt := v) in * end.
  match type of EQ with _ = Ok (_, _, table2 L D ?v) => set (vq := v) in * end.
  assert (C1 : cB1 = cB).
  { clear - HI. unfold EopsiModel.intersect in HI. apply bind_ok in HI. destruct HI as [pad [_ HI]]. apply bind_ok in HI. destruct HI as [df [_ HI]].
    apply bind_ok in HI. destruct HI as [[c1 u] [HG HI]]. apply bind_ok in HI. destruct HI as [[y ws] [_ HI]]. apply Ok_inj in HI. injection HI as <- _.
    unfold getUnknowns in HG. rewrite Nat.ltb_irrefl, andb_false_r in HG. cbn [bind] in HG. apply Ok_inj in HG. injection HG as <- _. reflexivity. }
  subst cB1.
  destruct (simulate_run sha rand fuel p canzass berlekamp hw rbits L h D al bits idA idB idS sA sB rawA rawB nt pos draws facts NAB NAS NBS HA HB FA FB
    hA cA cB tA tB zA zB (table2 L D vA) (table2 L D vB) key k cS (table2 L D vt) (vt 0%nat 0%nat) cA1 zA1 (table2 L D vq) (vq 0%nat 0%nat) cB vs)
    as [w' [S1 [S2 [S3 [S4 [[bs [S5 _]] [S6 [_ [S7 [S8 [S9 [S10 [S11 S12]]]]]]]]]]]]]; try assumption; try lia.
  - apply (entry_table2 HL HD).
  - rewrite Z.mod_small by lia. exact EQ.
  - apply (entry_table2 HL HD).
  - exists w'. split; [exact S1|]. split; [exact S2|]. split; [unfold getIntersection; rewrite (proj2 (the_party_ok w' 0 _) S4); reflexivity|]. split; [|exact S12].
    exists sA, sB, rawA, rawB, tA, tB, zA1, zB, cA1, cB, cS, vA, vB, vs, bs, (p_pos (zp_prf zB)).
    destruct SS as [_ [_ [X1 [X2 _]]]]. destruct SA1 as [_ [_ [X3 [X4 _]]]]. destruct SB as [_ [_ [X5 [X6 _]]]].
    split; [exact S4|]. split; [exact S3|]. split; [exact S7|]. split; [exact S8|]. split; [exact S9|]. split; [exact S10|]. split; [exact S5|]. split; [exact S6|].
    split; [exact S11|]. split; [exact KS|]. split; [exact X2|]. split; [exact X1|]. split; [rewrite US; exact LU|].
    split; [rewrite X4; exact CL|]. split; [rewrite X3; exact CD|]. split; [exact X6|exact X5].
Qed.

Lemma simulate_session L h D al bits idA idB idS sA sB rawA rawB nt pos draws facts key k :
  setting sha p L h D al bits rawA rawB ->
  idA <> idB -> idA <> idS -> idB <> idS -> nul_free idA -> nul_free idB -> rawA <> [] -> rawB <> [] ->
  2 ^ 8 <= sB < 2 ^ 24 -> draw_key rbits fuel draws = Ok (key, k) -> 0 <= key < 2 ^ 128 ->
  exists posB, forall r vs, session L h D al bits rawA rawB sA sB key nt pos posB facts = Ok (r, Some vs) ->
    exists w', simulate L h D al bits idA idB idS sA sB rawA rawB nt pos draws facts = Ok w' /\ getIntersection w' 1 = Ok vs /\
      getIntersection w' 0 = Ok [] /\ run_over w' L D bits idA idB idS k /\
      exists len, nth_error (w_msgs w') 7 = Some (mkMsg idB MClientRequest (Some 2%nat) len).
Proof.
  intros ST. pose proof ST as ST'. destruct ST' as [HSh HPr HOdd HLong HAl HL HDeg HW HdA HdB HfA HfB].
  apply simulate_session_gen; try assumption; try lia; rewrite (data_eq ST) by assumption; assumption.
Qed.

Lemma simulate_overflow L h D al bits idA idB idS sA sB rawA rawB nt pos draws facts :
  is_sha sha -> 2 < p -> num_bits p < 2 ^ 63 -> algo_valid al -> (0 < L)%nat ->
  idA <> idB -> idA <> idS -> idB <> idS -> rawA <> [] -> rawB <> [] ->
  ~ (fits al L h (map (field_value p bits) rawA) /\ fits al L h (map (field_value p bits) rawB)) ->
  simulate L h D al bits idA idB idS sA sB rawA rawB nt pos draws facts = Exit 1.
Proof.
  intros HSh HOdd HLong HAl HL NAB NAS NBS HA HB NF.
  destruct (blind_new p HOdd HLong sha HSh rand fuel hw L h D al bits rawA sA nt pos HAl HL) as [hA [EA [BA' BA2]]].
  assert (DF : forall zs, fits al L h zs \/ ~ fits al L h zs).
  { intros zs. unfold fits. destruct (forallb (fun j => Nat.leb (length (belonging al L j zs)) h) (seq 0 L)) eqn:E.
    - left. intros j Hj. rewrite forallb_forall in E. apply Nat.leb_le. apply E. apply in_seq. lia.
    - right. intros X. enough (forallb (fun j => Nat.leb (length (belonging al L j zs)) h) (seq 0 L) = true) by congruence.
      apply forallb_forall. intros j Hj. apply in_seq in Hj. apply Nat.leb_le. apply X. lia. }
  destruct (DF (map (field_value p bits) rawA)) as [HfA|HfA].
  - destruct (BA' HfA) as [cA [tA [zA [RA [BA _]]]]].
    destruct (blind_new p HOdd HLong sha HSh rand fuel hw L h D al bits rawB sB nt (p_pos (zp_prf zA)) HAl HL) as [hB [EB [_ BB2]]].
    assert (hB = hA) by congruence. subst hB.
    apply (overflow_B sha rand fuel p canzass berlekamp hw rbits L h D al bits idA idB idS sA sB rawA rawB nt pos draws facts NAB NAS NBS HA HB hA cA tA zA _ 1 EA BA).
    apply BB2. tauto.
  - apply (overflow_A sha rand fuel p canzass berlekamp hw rbits L h D al bits idA idB idS sA sB rawA rawB nt pos draws facts NAB NAS NBS HA hA 1 EA). apply BA2. exact HfA.
Qed.

(** the requester's side of eopsisimul.cpp:432-450, with any id and secret *)
Definition ask (w : world) (id : list Z) (secret : Z) (helper : nat) : delivery :=
  do d <- client_request_bytes id secret;
  let '(w1, a) := alloc w (BBytes d) in
  let '(w2, m) := new_msg w1 (mkMsg id MClientRequest (Some a) (Z.of_nat (length d))) in
  send sha rand fuel p canzass berlekamp rbits 4 w2 helper (Some m).
Lemma ask_again w L D bits idA idB idS k key k' : run_over w L D bits idA idB idS k -> is_sha sha -> 2 < p -> (0 < L)%nat -> (0 < D)%nat ->
  idA <> idB -> idA <> idS -> idB <> idS -> nul_free idA -> nul_free idB ->
  draw_key rbits fuel k = Ok (key, k') -> 0 <= key < 2 ^ 128 ->
  forall secret, 2 ^ 8 <= secret -> ask w idB secret 0 = UB Dangling /\ ask w idA secret 1 = UB Dangling.
Proof.
  intros [sA [sB [rawA [rawB [tA [tB [zA [zB [cA [cB [cS [vA [vB [vs [bs [posn [P0 [P1 [P2 [LM [M5 [M6 [HH [HDr [_ [KS [L1 [D1 [U1 [L2 [D2 [L3 D3]]]]]]]]]]]]]]]]]]]]]]]]]]]]]]]]
    HSh Hp HL HD NAB NAS NBS FA FB HK HKR secret HS.
  destruct (dir_find idA idB idS NAB NAS NBS) as [F1 [F2 [F3 [F4 [F5 F6]]]]]. pose proof (proj2 (str_eqb_neq _ _) NAB) as E1.
  assert (PS : points_of sha p cS (co_degree cS) = co_unknowns cS).
  { unfold points_of. rewrite U1. destruct (Nat.eqb_spec D 0); [lia|reflexivity]. }
  assert (TQ : forall va vb, exists c' v, computeTOrQ sha rand fuel p cS key (entry (table2 L D va)) (entry (table2 L D vb)) = Ok (c', table2 L D v)).
  { intros va vb. destruct (computeTOrQ_ok sha HSh rand fuel p ltac:(lia) cS key (entry (table2 L D va)) (entry (table2 L D vb)) va vb) as [c' [ET _]]; [exact KS|rewrite PS; lia| |].
    - intros j i Hj Hi. rewrite L1 in Hj. rewrite D1 in Hi. split; apply entry_table2; assumption.
    - rewrite L1, D1 in ET. eexists _, _. exact ET. }
  assert (ASK : forall id, nul_free id -> forall helper, exists d sb, cstr_at d 0 = Ok id /\ bytes_from d (length id + 1) 3 = Ok sb /\
     ask w id secret helper = receive sha rand fuel p canzass berlekamp rbits 4
       (w_set_msgs (w_set_heap w (w_heap w ++ [BBytes d])) (w_msgs w ++ [mkMsg id MClientRequest (Some 6%nat) (Z.of_nat (length d))])) helper 8).
  { intros id FI helper. pose proof (client_request_bytes_ok id secret FI ltac:(lia)) as ED. destruct (client_request_reads id secret FI ltac:(lia)) as [RC [_ RS]]. cbv zeta in RC, RS.
    destruct (RS HS) as [sb [R1 _]]. eexists _, sb. split; [exact RC|]. split; [exact R1|]. unfold ask. rewrite ED. cbn [bind alloc new_msg w_set_heap w_heap w_msgs send send_with].
    rewrite HH, LM. reflexivity. }
  split.
  - destruct (ASK idB FB 0%nat) as [d [sb [C1 [C2 ->]]]]. destruct (TQ vA vB) as [c' [v ET]].
    set (w2 := w_set_msgs _ _). 
    assert (GH : forall i x, nth_error (w_heap w) i = Some x -> nth_error (w_heap w2) i = Some x) by (intros i y Hi; cbn; apply nth_snoc_old; exact Hi).
    assert (GM : forall i x, nth_error (w_msgs w) i = Some x -> nth_error (w_msgs w2) i = Some x) by (intros i y Hi; cbn; apply nth_snoc_old; exact Hi).
    assert (GL : forall i, (i < 8)%nat -> exists M, nth_error (w_msgs w2) i = Some M).
    { intros i Hi. destruct (nth_error (w_msgs w) i) eqn:E; [exists m; apply GM; exact E|]. apply nth_error_None in E. lia. }
    match type of P0 with _ = Some (mkParty _ _ _ _ (RClient ?c)) => set (c0 := c) in P0 end. match type of P1 with _ = Some (mkParty _ _ _ _ (RClient ?c)) => set (c1 := c) in P1 end.
    apply (run_dangling sha rand fuel p canzass berlekamp rbits 1 w2 0 1 2 (mkParty idA TClient (dirA idB idS) cA (RClient c0)) (mkParty idB TClient (dirB idA idS) cB (RClient c1)) (mkParty idS TServer (dirS idA idB) cS (RServer (cloud1 idA idB))) c0 c1 (cloud1 idA idB) 5 6 (table2 L D vA) (table2 L D vB) 8 sb bits key k' c' (table2 L D v) (v 0%nat 0%nat) 5%nat).
    { split; try exact P0; try exact P1; try exact P2; try reflexivity; try assumption; try discriminate; try (first [apply (GL 0%nat); lia | apply (GL 1%nat); lia | apply (GL 2%nat); lia | apply (GL 3%nat); lia | apply (GL 4%nat); lia]).
      - cbn [pa_parties dirA map_put]. destruct (str_cmp idS idB) eqn:E; cbn [find_cloud];
          repeat (unfold the_party; change (w_parties w2) with (w_parties w); rewrite ?P1, ?P2; cbn [bind pa_type ptype_eqb]); reflexivity.
      - unfold cloud1; cbn [sv_stored pa_id]. rewrite !map_find_put, E1, str_eqb_refl. reflexivity.
      - unfold cloud1; cbn [sv_stored pa_id]. rewrite !map_find_put, str_eqb_refl. reflexivity.
      - eexists _, _. split; [apply GM; exact M5|]. split; [reflexivity|]. apply GH. rewrite HH. reflexivity.
      - eexists _, _. split; [apply GM; exact M6|]. split; [reflexivity|]. apply GH. rewrite HH. reflexivity.
      - eexists _, 6%nat, d. split; [cbn [w2 w_set_msgs w_msgs]; rewrite <- LM; apply nth_snoc|]. cbn [m_party m_type m_data pa_id]. repeat (split; [reflexivity|]).
        split; [cbn; rewrite HH; reflexivity|]. split; assumption. }
    { reflexivity. } { apply GH. rewrite HH. reflexivity. } { cbn [pa_core]. lia. } { cbn [pa_core]. lia. }
    { change (w_draws w2) with (w_draws w). rewrite HDr. exact HK. } { exact HKR. } { exact ET. } { apply (entry_table2 HL HD). }
  - destruct (ASK idA FA 1%nat) as [d [sb [C1 [C2 ->]]]]. destruct (TQ vB vA) as [c' [v ET]].
    set (w2 := w_set_msgs _ _). 
    assert (GH : forall i x, nth_error (w_heap w) i = Some x -> nth_error (w_heap w2) i = Some x) by (intros i y Hi; cbn; apply nth_snoc_old; exact Hi).
    assert (GM : forall i x, nth_error (w_msgs w) i = Some x -> nth_error (w_msgs w2) i = Some x) by (intros i y Hi; cbn; apply nth_snoc_old; exact Hi).
    assert (GL : forall i, (i < 8)%nat -> exists M, nth_error (w_msgs w2) i = Some M).
    { intros i Hi. destruct (nth_error (w_msgs w) i) eqn:E; [exists m; apply GM; exact E|]. apply nth_error_None in E. lia. }
    match type of P0 with _ = Some (mkParty _ _ _ _ (RClient ?c)) => set (c0 := c) in P0 end. match type of P1 with _ = Some (mkParty _ _ _ _ (RClient ?c)) => set (c1 := c) in P1 end.
    apply (run_dangling sha rand fuel p canzass berlekamp rbits 1 w2 1 0 2 (mkParty idB TClient (dirB idA idS) cB (RClient c1)) (mkParty idA TClient (dirA idB idS) cA (RClient c0)) (mkParty idS TServer (dirS idA idB) cS (RServer (cloud1 idA idB))) c1 c0 (cloud1 idA idB) 6 5 (table2 L D vB) (table2 L D vA) 8 sb bits key k' c' (table2 L D v) (v 0%nat 0%nat) 5%nat).
    { split; try exact P0; try exact P1; try exact P2; try reflexivity; try assumption; try discriminate; try (first [apply (GL 0%nat); lia | apply (GL 1%nat); lia | apply (GL 2%nat); lia | apply (GL 3%nat); lia | apply (GL 4%nat); lia]); try (cbn [pa_id]; congruence).
      - cbn [pa_parties dirB map_put]. destruct (str_cmp idS idA) eqn:E; cbn [find_cloud];
          repeat (unfold the_party; change (w_parties w2) with (w_parties w); rewrite ?P0, ?P2; cbn [bind pa_type ptype_eqb]); reflexivity.
      - unfold cloud1; cbn [sv_stored pa_id]. rewrite !map_find_put, str_eqb_refl. reflexivity.
      - unfold cloud1; cbn [sv_stored pa_id]. rewrite !map_find_put, E1, str_eqb_refl. reflexivity.
      - eexists _, _. split; [apply GM; exact M6|]. split; [reflexivity|]. apply GH. rewrite HH. reflexivity.
      - eexists _, _. split; [apply GM; exact M5|]. split; [reflexivity|]. apply GH. rewrite HH. reflexivity.
      - eexists _, 6%nat, d. split; [cbn [w2 w_set_msgs w_msgs]; rewrite <- LM; apply nth_snoc|]. cbn [m_party m_type m_data pa_id]. repeat (split; [reflexivity|]).
        split; [cbn; rewrite HH; reflexivity|]. split; assumption. }
    { reflexivity. } { apply GH. rewrite HH. reflexivity. } { cbn [pa_core]. lia. } { cbn [pa_core]. lia. }
    { change (w_draws w2) with (w_draws w). rewrite HDr. exact HK. } { exact HKR. } { exact ET. } { apply (entry_table2 HL HD). }
Qed.
End R.

(** *** C70 *)
(** Whenever the pieces fit, the simulator's program runs to its end, and the
    requester's getIntersection() then holds every common element (but 0, if
    there is padding); without accidental roots, exactly those. *)
Theorem C70_end_to_end : forall sha p L h D al b rawA rawB rand fuel hw canzass berlekamp rbits idA idB idS sA sB nt pos draws facts key k,
  setting sha p L h D al b rawA rawB -> distinct_points sha p D -> factors_correctly p canzass -> factors_correctly p berlekamp ->
  idA <> idB -> idA <> idS -> idB <> idS -> nul_free idA -> nul_free idB -> rawA <> [] -> rawB <> [] ->
  2 ^ 8 <= sB < 2 ^ 24 -> draw_key rbits fuel draws = Ok (key, k) -> 0 <= key < 2 ^ 128 ->
  let pad := num_bits p - b - 1 in
  exists w' vs, simulate sha rand fuel p canzass berlekamp hw rbits L h D al b idA idB idS sA sB rawA rawB nt pos draws facts = Ok w' /\
    getIntersection w' 1 = Ok vs /\ getIntersection w' 0 = Ok [] /\
    (forall v, In v rawA -> In v rawB -> v <> 0 \/ pad = 0 -> In v vs) /\
    exists RA RB : nat -> list Z,
      (* the contents of the buckets: the padded data that belong there, and fill-ins *)
      (forall j, (j < L)%nat -> exists fA fB, RA j = belonging al L j (padded_data p b rawA) ++ fA /\ RB j = belonging al L j (padded_data p b rawB) ++ fB /\
         length (RA j) = h /\ length (RB j) = h /\ Forall (fun z => 0 <= z < p) (fA ++ fB)) /\
      let is_root j z := combined p (RA j) (RB j) (coeffsA sha p L D h key j) (coeffsB sha p L D h key j) z = 0 in
      (forall v, In v vs <-> (exists j, (j < L)%nat /\ 0 <= v * 2 ^ pad < p /\ is_root j (v * 2 ^ pad)) /\ (v = 0 -> pad = 0)) /\
      ((forall j v, (j < L)%nat -> 0 <= v * 2 ^ pad < p -> (v = 0 -> pad = 0) -> is_root j (v * 2 ^ pad) ->
          In v rawA /\ In v rawB /\ index_of al L (v * 2 ^ pad) = j) ->
       NoDup vs /\ forall v, In v vs <-> In v rawA /\ In v rawB /\ (v = 0 -> pad = 0)).
Proof.
  intros sha p L h D al b rawA rawB rand fuel hw canzass berlekamp rbits idA idB idS sA sB nt pos draws facts key k
    ST ND HC HB NAB NAS NBS FA FB HA HBe HS HK HKR pad.
  destruct (simulate_session sha rand fuel p canzass berlekamp hw rbits L h D al b idA idB idS sA sB rawA rawB nt pos draws facts key k
    ST NAB NAS NBS FA FB HA HBe HS HK HKR) as [posB X].
  destruct (C46_explained sha p L h D al b rawA rawB rand fuel hw sA sB key nt pos posB canzass berlekamp facts ST ND HC HB) as [r [vs [E [R1 R2]]]].
  destruct (C45_complete sha p L h D al b rawA rawB rand fuel hw sA sB key nt pos posB canzass berlekamp facts ST ND HC HB) as [r' [vs' [E' CO]]].
  rewrite E in E'. apply Ok_inj in E'. injection E' as <- <-.
  destruct (X r vs E) as [w' [W1 [W2 [W3 _]]]]. exists w', vs. split; [exact W1|]. split; [exact W2|]. split; [exact W3|]. split; [exact CO|].
  destruct (sess_facts ST key rand fuel hw sA sB nt pos posB facts canzass berlekamp HC HB) as [r2 [RA [RB [E2 [FL _]]]]].
  assert (r2 = r). { unfold session in E. apply bind_ok in E. destruct E as [r3 [E3 E]]. rewrite E2 in E3. apply Ok_inj in E3. subst r3.
    apply bind_ok in E. destruct E as [y [_ E]]. apply Ok_inj in E. injection E as <- _. reflexivity. }
  subst r2. exists RA, RB.
  assert (CT : forall j RA' RB', (j < L)%nat -> contents (rr_tableA r) j RA' -> contents (rr_tableB r) j RB' -> RA' = RA j /\ RB' = RB j).
  { intros j RA' RB' Hj [mA CA'] [mB CB']. destruct (FL j Hj) as [fA [fB [_ [_ [_ [_ [_ [_ [[nA CA] [nB CB]]]]]]]]]].
    rewrite CA in CA'. rewrite CB in CB'. apply Ok_inj in CA'. apply Ok_inj in CB'. injection CA' as <- _. injection CB' as <- _. auto. }
  assert (RT : forall j z, (j < L)%nat -> (exists RA' RB', contents (rr_tableA r) j RA' /\ contents (rr_tableB r) j RB' /\
      combined p RA' RB' (coeffsA sha p L D h key j) (coeffsB sha p L D h key j) z = 0) <->
      combined p (RA j) (RB j) (coeffsA sha p L D h key j) (coeffsB sha p L D h key j) z = 0).
  { intros j z Hj. split.
    - intros [RA' [RB' [CA [CB Z0]]]]. destruct (CT j RA' RB' Hj CA CB) as [-> ->]. exact Z0.
    - intros Z0. destruct (FL j Hj) as [fA [fB [_ [_ [_ [_ [_ [_ [CA CB]]]]]]]]]. exists (RA j), (RB j). auto. }
  split.
  { intros j Hj. destruct (FL j Hj) as [fA [fB [EA [EB [LA [LB [GA [GB _]]]]]]]]. exists fA, fB. repeat (split; [assumption|]). apply Forall_app. split; assumption. }
  cbv zeta. split.
  - intros v. rewrite R1. split; intros [[j [Hj [B Z0]]] N]; (split; [|exact N]); exists j; (split; [exact Hj|]); (split; [exact B|]); apply (RT j _ Hj); exact Z0.
  - intros NA. apply R2. intros j v Hj B N Z0. apply NA; try assumption. apply (RT j _ Hj). exact Z0.
Qed.
Print Assumptions C70_end_to_end.
Definition ex_rbits (k : nat) : Z := match k with O => 99 | _ => 2 ^ 127 + 99 end.
Example C70_nonvacuous :
  exists w' vs, simulate ex_sha ex_rand 10 61 ex_factor ex_factor 4 ex_rbits 3 2 5 ex_algo 3 [97] [98] [99; 1] 77 300 [0; 1; 4] [1; 3; 0] 1 0 0 0 = Ok w' /\
    getIntersection w' 1 = Ok vs /\ In 1 vs.
Proof.
  destruct (C70_end_to_end ex_sha 61 3 2 5 ex_algo 3 [0; 1; 4] [1; 3; 0] ex_rand 10 4 ex_factor ex_factor ex_rbits [97] [98] [99; 1] 77 300 1 0 0 0 (2 ^ 127 + 99) 2)
    as [w' [vs [S1 [S2 [_ [S3 _]]]]]];
    [exact ex_setting|exact ex_distinct|exact ex_factor_ok|exact ex_factor_ok|discriminate|discriminate|discriminate|repeat constructor; lia|repeat constructor; lia|discriminate|discriminate|lia|vm_compute; reflexivity|lia|].
  exists w', vs. split; [exact S1|]. split; [exact S2|]. apply S3; [cbn; auto|cbn; auto|left; lia].
Qed.

(** *** C59: the objects serve one run only *)
(** After a run of the simulator's program, asking again - either way round,
    with any secret of at least two bytes - makes the asking party read freed
    memory. *)
Theorem C59_second_run : forall sha p L h D al b rawA rawB rand fuel hw canzass berlekamp rbits idA idB idS sA sB nt pos draws facts key k key' k' w' secret,
  setting sha p L h D al b rawA rawB -> distinct_points sha p D -> factors_correctly p canzass -> factors_correctly p berlekamp ->
  idA <> idB -> idA <> idS -> idB <> idS -> nul_free idA -> nul_free idB -> rawA <> [] -> rawB <> [] ->
  2 ^ 8 <= sB < 2 ^ 24 -> draw_key rbits fuel draws = Ok (key, k) -> 0 <= key < 2 ^ 128 ->
  simulate sha rand fuel p canzass berlekamp hw rbits L h D al b idA idB idS sA sB rawA rawB nt pos draws facts = Ok w' ->
  draw_key rbits fuel k = Ok (key', k') -> 0 <= key' < 2 ^ 128 -> 2 ^ 8 <= secret ->
  ask sha rand fuel p canzass berlekamp rbits w' idB secret 0 = UB Dangling /\
  ask sha rand fuel p canzass berlekamp rbits w' idA secret 1 = UB Dangling.
Proof.
  intros sha p L h D al b rawA rawB rand fuel hw canzass berlekamp rbits idA idB idS sA sB nt pos draws facts key k key' k' w' secret
    ST ND HC HB NAB NAS NBS FA FB HA HBe HS HK HKR HSIM HK' HKR' HSE.
  destruct (simulate_session sha rand fuel p canzass berlekamp hw rbits L h D al b idA idB idS sA sB rawA rawB nt pos draws facts key k
    ST NAB NAS NBS FA FB HA HBe HS HK HKR) as [posB X].
  destruct (C45_complete sha p L h D al b rawA rawB rand fuel hw sA sB key nt pos posB canzass berlekamp facts ST ND HC HB) as [r [vs [E _]]].
  destruct (X r vs E) as [w2 [W1 [_ [_ [RO _]]]]]. rewrite HSIM in W1. apply Ok_inj in W1. subst w2.
  destruct ST as [HSh HPr HOdd HLong HAl HL HDeg HW HdA HdB HfA HfB].
  apply (ask_again sha rand fuel p canzass berlekamp rbits w' L D b idA idB idS k key' k' RO HSh HOdd HL ltac:(lia) NAB NAS NBS FA FB HK' HKR' secret HSE).
Qed.
Print Assumptions C59_second_run.
Example C59_second_run_nonvacuous :
  exists w', simulate ex_sha ex_rand 10 61 ex_factor ex_factor 4 ex_rbits 3 2 5 ex_algo 3 [97] [98] [99; 1] 77 300 [0; 1; 4] [1; 3; 0] 1 0 0 0 = Ok w' /\
    ask ex_sha ex_rand 10 61 ex_factor ex_factor ex_rbits w' [98] 300 0 = UB Dangling /\ ask ex_sha ex_rand 10 61 ex_factor ex_factor ex_rbits w' [97] 999 1 = UB Dangling.
Proof.
  destruct C70_nonvacuous as [w' [_ [H _]]]. exists w'. split; [exact H|].
  assert (X : forall s, 2 ^ 8 <= s -> ask ex_sha ex_rand 10 61 ex_factor ex_factor ex_rbits w' [98] s 0 = UB Dangling /\ ask ex_sha ex_rand 10 61 ex_factor ex_factor ex_rbits w' [97] s 1 = UB Dangling).
  { intros s Hs. eapply (C59_second_run ex_sha 61 3 2 5 ex_algo 3 [0; 1; 4] [1; 3; 0] ex_rand 10 4 ex_factor ex_factor ex_rbits [97] [98] [99; 1] 77 300 1 0 0 0 (2 ^ 127 + 99) 2 (2 ^ 127 + 99) 3);
      [exact ex_setting|exact ex_distinct|exact ex_factor_ok|exact ex_factor_ok|discriminate|discriminate|discriminate|repeat constructor; lia|repeat constructor; lia|discriminate|discriminate|lia|vm_compute; reflexivity|lia|exact H|vm_compute; reflexivity|lia|exact Hs]. }
  split; apply X; lia.
Qed.

(** *** C52: a secret of more than three bytes *)
(** The request still goes through: the helper computes q from the lowest 24
    bits of the requester's secret, while the requester blinded its data with
    the whole secret. *)
Theorem C52_long_secret : forall sha rand fuel p canzass berlekamp hw rbits L h D al bits idA idB idS sA sB rawA rawB nt pos draws facts
    hA cA cB tA tB zA zB mA mB key k cS t x cA1 zA1 q y cB1 vs,
  idA <> idB -> idA <> idS -> idB <> idS -> rawA <> [] -> rawB <> [] -> nul_free idA -> nul_free idB ->
  new_hb L h (Some al) = Ok hA ->
  (* both parties blind with their secrets *)
  blind sha rand fuel p hw (new_core p L h D 0) sA rawA (length rawA) (Some bits) hA (new_zpprf p pos) nt = Ok (cA, tA, zA, mA) ->
  blind sha rand fuel p hw (new_core p L h D 0) sB rawB (length rawB) (Some bits) hA (new_zpprf p (p_pos (zp_prf zA))) nt = Ok (cB, tB, zB, mB) ->
  draw_key rbits fuel draws = Ok (key, k) -> 0 <= key < 2 ^ 128 -> 2 ^ 24 <= sB ->
  computeTOrQ sha rand fuel p (new_core p L h D 0) key (entry mA) (entry mB) = Ok (cS, t) -> entry t 0 0 = Ok x ->
  (* the helper computes with the truncated secret of the other *)
  delegationOutput sha rand fuel p cA zA sA (sB mod 2 ^ 24) key = Ok (cA1, zA1, q) -> entry q 0 0 = Ok y ->
  intersect sha rand fuel p canzass berlekamp cB (Some bits) (Some (entry t)) (Some (entry q)) facts = Ok (Some (cB1, vs)) ->
  exists w', simulate sha rand fuel p canzass berlekamp hw rbits L h D al bits idA idB idS sA sB rawA rawB nt pos draws facts = Ok w' /\
    getIntersection w' 1 = Ok vs.
Proof.
  intros. edestruct (simulate_run sha rand fuel p canzass berlekamp hw rbits L h D al bits idA idB idS sA sB rawA rawB nt pos draws facts) as [w' [E [G _]]];
    try eassumption; [lia|]. exists w'. split; assumption.
Qed.
Print Assumptions C52_long_secret.
(** With a factoring function that finds the roots by trying them all: a secret
    of three bytes reports the common element 1 (and an accident); the same
    run with a secret of four bytes reports nothing. *)
Definition ex_brute (_ : nat) (f : list Z) : list (list Z * Z) :=
  map (fun z => ([(- z) mod 61; 1], 1)) (filter (fun z => value 61 f z =? 0) (map Z.of_nat (seq 0 61))).
Definition ex_go (s : Z) : res (list Z) :=
  match simulate ex_sha ex_rand 10 61 ex_brute ex_brute 4 ex_rbits 3 2 5 ex_algo 3 [97] [98] [99; 1] 77 s [0; 1; 4] [1; 3; 0] 1 0 0 0 with
  | Ok w => getIntersection w 1 | _ => Abort end.
Example C52_long_secret_nonvacuous : ex_go 65000 = Ok [1; 10] /\ ex_go (2 ^ 24 + 300) = Ok [].
Proof. split; vm_compute; reflexivity. Qed.
