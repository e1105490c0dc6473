(** Property C119: what the helper of an intersection sees does not depend on
    the requester's data. *)
From Verif Require Import Base Spec Lib NtlMiss NtlMissProofs StrIntModel HashBucketsModel HashBucketsSpec HashBucketsProofs.
From Verif Require Import PRFModel PRFSpec PRFProofs PolyModel PolySpec EopsiModel EopsiSpec EopsiProofs EopsiBlind EopsiRun EopsiFacts PropEopsi.
From Verif Require Import WorldModel WorldSpec WorldProofs WorldFrame WorldRun WorldMore WorldSim WorldLaws PropRun.
From Coq Require Import Lia Znumtheory.

Section H.
Variable sha : list Z -> list Z.
Variable rand : nat -> Z.
Variable fuel : nat.
Variable p : Z.
Variables canzass berlekamp : nat -> list Z -> list (list Z * Z).
Variable hw : nat.
Variable rbits : nat -> Z.
#[local] Notation simulate := (simulate sha rand fuel p canzass berlekamp hw rbits).

(** the helper's object at the end of a run, and all it was sent, as functions
    of everything but the requester's data *)
Lemma helper_side L h D al bits idA idB idS sA sB rawA nt pos draws key k :
  idA <> idB -> idA <> idS -> idB <> idS -> nul_free idA -> nul_free idB -> rawA <> [] ->
  2 ^ 8 <= sB < 2 ^ 24 -> draw_key rbits fuel draws = Ok (key, k) -> 0 <= key < 2 ^ 128 ->
  forall rawB0, setting sha p L h D al bits rawA rawB0 -> distinct_points sha p D -> factors_correctly p canzass -> factors_correctly p berlekamp ->
  exists helper mat bs, forall rawB facts, setting sha p L h D al bits rawA rawB -> rawB <> [] ->
    exists w matB, simulate L h D al bits idA idB idS sA sB rawA rawB nt pos draws facts = Ok w /\
      nth_error (w_parties w) 0 = Some helper /\ w_heap w = [BMat mat; BMat matB; BBytes bs; Freed; Freed; Freed] /\
      nth_error (w_msgs w) 7 = Some (mkMsg idB MClientRequest (Some 2%nat) (Z.of_nat (length bs))) /\ w_draws w = k.
Proof.
  intros NAB NAS NBS FA FB HA HS HK HKR rawB0 ST0 ND HC HB.
  pose proof ST0 as [HSh HPr HOdd HLong HAl HL HDeg HW HdA _ HfA _]. rewrite <- (data_eq ST0 rawA HdA) in HfA.
  assert (HD : (0 < D)%nat) by lia.
  assert (HLong' : num_bits p + 7 < 2 ^ 64) by (change (2 ^ 63) with 9223372036854775808 in HLong; lia).
  destruct (blind_new p HOdd HLong sha HSh rand fuel hw L h D al bits rawA sA nt pos HAl HL) as [hA [EA [BA' _]]].
  destruct (BA' HfA) as [cA [tA [zA [RA [BA [_ [UA [SA [PA IA]]]]]]]]]. clear BA'.
  set (us := points sha p (num_bits p) D) in *. assert (LU : length us = D) by apply points_length.
  set (vA := blind_cell p sha sA D us RA) in *.
  assert (PUA : points_of sha p cA (co_degree cA) = us).
  { unfold points_of. rewrite UA. destruct SA as [SF [_ [SD _]]]. cbn [new_core co_fieldsize co_degree] in SF, SD. rewrite SF, SD.
    fold us. destruct (Nat.eqb (length us) 0); reflexivity. }
  assert (CD : co_degree cA = D) by (destruct SA as [_ [_ [SD _]]]; exact SD). assert (CL : co_length cA = L) by (destruct SA as [_ [_ [_ [SD _]]]]; exact SD).
  destruct (delegationOutput_ok p ltac:(lia) HLong' sha HSh rand fuel cA zA sA sB key PA IA) as [cA1 [zA1 [EQ [UA1 [SA1 _]]]]].
  { rewrite PUA, LU, CD. lia. }
  rewrite PUA, CD, CL in EQ.
  match type of EQ with _ = Ok (_, _, table2 L D ?v) => set (vq := v) in * end.
  destruct (client_request_bytes idB sB) as [bs0| | | |] eqn:EBS; [|rewrite (client_request_bytes_ok idB sB FB ltac:(lia)) in EBS; discriminate ..].
  exists (mkParty idA TClient (dirA idB idS) cA1 (RClient (mkClient rawA (length rawA) (Some bits) (Some 0%nat) sA tA (Some 5%nat) None zA1 0 1 []))), (table2 L D vA), bs0.
  intros rawB facts ST HBe. pose proof (st_dataB _ _ _ _ _ _ _ _ _ ST) as HdB. pose proof (st_fitB _ _ _ _ _ _ _ _ _ ST) as HfB. rewrite <- (data_eq ST rawB HdB) in HfB.
  destruct (blind_new p HOdd HLong sha HSh rand fuel hw L h D al bits rawB sB nt (p_pos (zp_prf zA)) HAl HL) as [hB [EB [BB' _]]].
  destruct (BB' HfB) as [cB [tB [zB [RB [BB [_ [UB [SB [PB IB]]]]]]]]]. clear BB'.
  assert (hB = hA) by congruence. subst hB. fold us in BB. set (vB := blind_cell p sha sB D us RB) in *.
  destruct (computeTOrQ_ok sha HSh rand fuel p ltac:(lia) (new_core p L h D 0) key (entry (table2 L D vA)) (entry (table2 L D vB)) vA vB) as [cS [ET [US [SS KS]]]].
  { apply (party_core p ltac:(lia) HLong'). apply new_party. }
  { change (points_of sha p (new_core p L h D 0) (co_degree (new_core p L h D 0))) with us. rewrite LU. cbn. lia. }
  { intros j i Hj Hi. split; apply entry_table2; assumption. }
  change (co_length (new_core p L h D 0)) with L in *. change (co_degree (new_core p L h D 0)) with D in *.
  match type of ET with _ = Ok (_, table2 L D ?v) => set (vt := v) in * end.
  destruct (C46_explained sha p L h D al bits rawA rawB rand fuel hw sA sB key nt pos (p_pos (zp_prf zA)) canzass berlekamp facts ST ND HC HB) as [r [vs [E _]]].
  unfold session in E. apply bind_ok in E. destruct E as [r' [EX E]]. apply bind_ok in E. destruct E as [x [HI E]]. apply Ok_inj in E. injection E as -> HX.
  destruct x as [[cB1 vs']|]; [|discriminate]. injection HX as ->.
  unfold exchange in EX. rewrite EA in EX. cbn [bind] in EX. rewrite BA in EX. cbn [bind] in EX. rewrite BB in EX. cbn [bind] in EX.
  rewrite ET in EX. cbn [bind] in EX. rewrite EQ in EX. cbn [bind] in EX. apply Ok_inj in EX. subst r. cbn [rr_t rr_q rr_requester] in HI.
  destruct (simulate_run sha rand fuel p canzass berlekamp hw rbits L h D al bits idA idB idS sA sB rawA rawB nt pos draws facts NAB NAS NBS HA HBe FA FB
    hA cA cB tA tB zA zB (table2 L D vA) (table2 L D vB) key k cS (table2 L D vt) (vt 0%nat 0%nat) cA1 zA1 (table2 L D vq) (vq 0%nat 0%nat) cB1 vs)
    as [w' [S1 [_ [_ [S4 [[bs [S5 [S5a S5b]]] [S6 _]]]]]]]; try assumption; try lia.
  - apply (entry_table2 HL HD).
  - rewrite Z.mod_small by lia. exact EQ.
  - apply (entry_table2 HL HD).
  - assert (bs = bs0) by congruence. subst bs. exists w', (table2 L D vB). split; [exact S1|]. split; [exact S4|]. split; [exact S5|]. split; [exact S5b|exact S6].
Qed.
End H.

(** Two runs that differ in the requester's data only end with the same helper
    object (its data, table, generators, results, directory) and with the same
    request in its hands; of all arrays, only the one the requester outsourced
    differs. *)
Theorem C119_helper_learns_nothing : forall sha p L h D al b rawA rawB rawB' rand fuel hw canzass berlekamp rbits idA idB idS sA sB nt pos draws facts key k,
  setting sha p L h D al b rawA rawB -> setting sha p L h D al b rawA rawB' ->
  distinct_points sha p D -> factors_correctly p canzass -> factors_correctly p berlekamp ->
  idA <> idB -> idA <> idS -> idB <> idS -> nul_free idA -> nul_free idB -> rawA <> [] -> rawB <> [] -> rawB' <> [] ->
  2 ^ 8 <= sB < 2 ^ 24 -> draw_key rbits fuel draws = Ok (key, k) -> 0 <= key < 2 ^ 128 ->
  let run raw := simulate sha rand fuel p canzass berlekamp hw rbits L h D al b idA idB idS sA sB rawA raw nt pos draws facts in
  exists w w' P, run rawB = Ok w /\ run rawB' = Ok w' /\
    nth_error (w_parties w) 0 = Some P /\ nth_error (w_parties w') 0 = Some P /\ pa_id P = idA /\
    (exists M a bs, nth_error (w_msgs w) 7 = Some M /\ nth_error (w_msgs w') 7 = Some M /\ m_type M = MClientRequest /\ m_data M = Some a /\
       nth_error (w_heap w) a = Some (BBytes bs) /\ nth_error (w_heap w') a = Some (BBytes bs)) /\
    (forall a, nth_error (w_heap w) a <> nth_error (w_heap w') a ->
       a = 1%nat /\ exists Q c, nth_error (w_parties w) 1 = Some Q /\ pa_role Q = RClient c /\ cl_blinded c = Some a) /\
    w_draws w = w_draws w'.
Proof.
  intros sha p L h D al b rawA rawB rawB' rand fuel hw canzass berlekamp rbits idA idB idS sA sB nt pos draws facts key k ST ST' ND HC HB NAB NAS NBS FA FB HA HBe HBe' HS HK HKR run.
  destruct (helper_side sha rand fuel p canzass berlekamp hw rbits L h D al b idA idB idS sA sB rawA nt pos draws key k NAB NAS NBS FA FB HA HS HK HKR rawB ST ND HC HB) as [P [mat [bs G]]].
  destruct (G rawB facts ST HBe) as [w [mB [E1 [P1 [H1 [M1 D1]]]]]]. destruct (G rawB' facts ST' HBe') as [w' [mB' [E2 [P2 [H2 [M2 D2]]]]]].
  destruct (simulate_session sha rand fuel p canzass berlekamp hw rbits L h D al b idA idB idS sA sB rawA rawB nt pos draws facts key k
    ST NAB NAS NBS FA FB HA HBe HS HK HKR) as [posB X].
  destruct (C46_explained sha p L h D al b rawA rawB rand fuel hw sA sB key nt pos posB canzass berlekamp facts ST ND HC HB) as [r [vs [E _]]].
  destruct (X r vs E) as [w0 [W1 [_ [_ [RO _]]]]]. assert (w0 = w) by congruence. subst w0.
  destruct RO as [sA0 [sB0 [rawA0 [rawB0 [tA [tB [zA [zB [cA [cB [cS [vA [vB [vs0 [bs0 [posn [R0 [R1 _]]]]]]]]]]]]]]]]]].
  exists w, w', P. split; [exact E1|]. split; [exact E2|]. split; [exact P1|]. split; [exact P2|]. split; [rewrite R0 in P1; injection P1 as <-; reflexivity|]. split.
  - eexists _, 2%nat, bs. split; [exact M1|]. split; [exact M2|]. split; [reflexivity|]. split; [reflexivity|]. rewrite H1, H2. split; reflexivity.
  - split; [|congruence]. intros a NE. rewrite H1, H2 in NE. destruct a as [|[|a]]; cbn [nth_error] in NE; try congruence.
    split; [reflexivity|]. eexists _, _. split; [exact R1|]. split; reflexivity.
Qed.
Print Assumptions C119_helper_learns_nothing.

(** the requester with {0, 1, 3} or with {2, 4, 5}: the helper's side is the
    same although the results differ *)
Example C119_nonvacuous :
  setting ex_sha 61 3 2 5 ex_algo 3 [0; 1; 4] [1; 3; 0] /\ setting ex_sha 61 3 2 5 ex_algo 3 [0; 1; 4] [2; 4; 5] /\
  distinct_points ex_sha 61 5 /\ factors_correctly 61 ex_factor /\ draw_key ex_rbits 10 0 = Ok (2 ^ 127 + 99, 2%nat).
Proof.
  split; [exact ex_setting|]. split; [|split; [exact ex_distinct|]; split; [exact ex_factor_ok|]; vm_compute; reflexivity].
  split; try lia; try exact ex_is_sha; try exact prime_61; try exact ex_algo_valid; try (vm_compute; split; congruence).
  - repeat constructor; lia.
  - repeat constructor; lia.
  - intros j Hj. do 3 (destruct j as [|j]; [vm_compute; lia|]). lia.
  - intros j Hj. do 3 (destruct j as [|j]; [vm_compute; lia|]). lia.
Qed.
