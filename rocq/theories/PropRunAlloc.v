(** C133: a whole run of the protocol when memory runs out. *)
From Verif Require Import Base Spec Lib NtlMiss HashBucketsModel HashBucketsSpec HashBucketsProofs PRFModel PRFSpec PolyModel PolySpec EopsiModel EopsiSpec EopsiBlind EopsiRun EopsiFacts PropEopsi.
From Verif Require Import AllocModel AllocSpec AllocProofs BlindAllocModel BlindAllocProofs AskAllocModel AskAllocSpec PropAlloc PropAskAlloc RunAllocModel RunAllocSpec.
From Coq Require Import Lia Znumtheory.

Lemma short_later ok pol h m m1 : (m_tries m <= m_tries m1)%nat -> short_of_memory ok pol h m1 -> short_of_memory ok pol h m.
Proof. intros H [[j [J1 J2]]|S]; [left; exists j; split; [lia|exact J2]|right; exact S]. Qed.
Lemma short_failed ok pol h m a b : (m_tries m <= a)%nat -> failed ok a b -> short_of_memory ok pol h m.
Proof. intros H [j [[J1 J2] J3]]. left. exists j. split; [lia|exact J3]. Qed.

(** making a table: done, or memory is short *)
Lemma new_any ok pol m L h (al : halgo Z) : algo_valid al -> (0 < L)%nat ->
  (exists m1 t, a_new ok pol m L h (Some al) = Done m1 t /\ new_hb L h (Some al) = Ok (at_hb t) /\
     (m_tries m <= m_tries m1)%nat /\ m_live m1 = m_live m + 4 + Z.of_nat L) \/
  (short_of_memory ok pol h m /\ (a_new ok pol m L h (Some al) = Stop (Exit 2) \/ exists m1 x, a_new ok pol m L h (Some al) = Thrown m1 x tt)).
Proof.
  intros V HL. pose proof (a_new_cases ok pol m L h (Some al) V) as [A B]. cbv zeta in A, B.
  set (first := (m_tries m + size_algo (Some al) + 1)%nat) in *. assert (Hf : (m_tries m <= first)%nat) by (unfold first; lia).
  destruct (failed_dec ok (m_tries m) first) as [F|F].
  { right. split; [eapply short_failed; [|exact F]; lia|left; exact (A F)]. }
  destruct (B F) as [B1 [B2 B3]].
  destruct (Z.le_gt_cases (reserved h) (p_max pol)) as [R|R].
  2:{ right. split; [right; left; lia|]. right. eexists _, _. apply B1; lia. }
  destruct (failed_dec ok first (first + L)) as [F2|F2].
  - right. split; [eapply short_failed; [|exact F2]; lia|]. apply least in F2. destruct F2 as [j [J1 [J2 J3]]]. right. eexists _, _.
    apply (B2 R (j - first)%nat); [lia|..]; replace (first + (j - first))%nat with j by lia; assumption.
  - left. destruct (B3 (or_introl R) F2) as [t [E [N W]]]. eexists _, t. split; [exact E|]. split; [exact N|]. cbn [m_tries m_live made]. split; lia.
Qed.

(** Parties with data that fit, different evaluation points: either memory
    suffices and the requester finds what it finds in a run with unlimited
    memory (EopsiModel.session), every common element (but 0, if it is padded)
    among it; or memory is short and the process ends with code 1 or 2 or is
    aborted.  There is no wrong or partial answer, and no other end. *)
Theorem C133_whole_run : forall sha p L h D al b rawA rawB rand fuel hw canzass berlekamp sA sB key nt posA posB k0 ok pol m,
  setting sha p L h D al b rawA rawB -> distinct_points sha p D ->
  factors_correctly p canzass -> factors_correctly p berlekamp -> policy_ok pol -> rawA <> [] -> rawB <> [] ->
  let run := a_protocol sha rand fuel p canzass berlekamp ok pol L h D al b rawA rawB sA sB key posA posB k0 m in
  (exists m1 vs r, run = Done m1 (Some vs) /\ m_live m1 = m_live m + 2 * (4 + Z.of_nat L) + 2 /\
     session sha rand fuel p canzass berlekamp hw L h D al b rawA rawB sA sB key nt posA posB k0 = Ok (r, Some vs) /\
     forall v, In v rawA -> In v rawB -> v <> 0 \/ num_bits p - b - 1 = 0 -> In v vs) \/
  (short_of_memory ok pol h m /\ (run = Stop (Exit 1) \/ run = Stop (Exit 2) \/ run = Stop Abort)).
Proof.
  intros sha p L h D al b rawA rawB rand fuel hw canzass berlekamp sA sB key nt posA posB k0 ok pol m ST ND HC HB POL NA NB run.
  pose proof (st_algo _ _ _ _ _ _ _ _ _ ST) as V. pose proof (st_buckets _ _ _ _ _ _ _ _ _ ST) as HL.
  pose proof (st_odd _ _ _ _ _ _ _ _ _ ST) as Hp2. pose proof (st_long _ _ _ _ _ _ _ _ _ ST) as Hn. pose proof (st_sha _ _ _ _ _ _ _ _ _ ST) as HS.
  assert (Hp : 1 < p) by lia. assert (Hnb : num_bits p + 7 < 2 ^ 64) by lia.
  assert (DA := data_eq ST rawA (st_dataA _ _ _ _ _ _ _ _ _ ST)). assert (DB := data_eq ST rawB (st_dataB _ _ _ _ _ _ _ _ _ ST)).
  destruct (new_hb_ok L h (Some al) V) as [h0 [E0 [_ [K0 [M0 [A0 B0]]]]]].
  assert (FIT : forall zs, fits al L h zs -> ~ too_many al h0 h zs).
  { intros zs F [i [bk [Hi Hlt]]]. rewrite B0 in Hi. apply nth_repeat in Hi. destruct Hi as [-> Hi]. cbn [mv_items length Nat.add] in Hlt.
    rewrite K0 in Hlt. specialize (F i Hi). lia. }
  unfold run, a_protocol.
  destruct (new_any ok pol m L h al V HL) as [[m1 [tA [EA [NEA [TA LA]]]]]|[S X]].
  2:{ right. split; [exact S|]. destruct X as [->|[m1 [x ->]]]; [right; left; reflexivity|]. destruct x; cbn; auto. }
  rewrite EA. cbn [in_setup].
  destruct (new_any ok pol m1 L h al V HL) as [[m2 [tB [EB [NEB [TB LB]]]]]|[S X]].
  2:{ right. split; [eapply short_later; [|exact S]; lia|]. destruct X as [->|[m2 [x ->]]]; [right; left; reflexivity|]. destruct x; cbn; auto. }
  rewrite EB. cbn [in_setup].
  assert (at_hb tA = h0) by congruence. assert (at_hb tB = h0) by congruence.
  pose proof (start_inv p sha rand ok pol al L h D m m1 tA sA 0 posA V EA) as KA.
  pose proof (start_inv p sha rand ok pol al L h D m1 m2 tB sB 0 posB V EB) as KB.
  set (kA := mkAclient (new_core p L h D 0) sA None tA (new_zpprf p posA) None) in *.
  set (kB := mkAclient (new_core p L h D 0) sB None tB (new_zpprf p posB) None) in *.
  assert (NA' : length rawA <> 0%nat) by (destruct rawA; [contradiction|discriminate]).
  assert (NB' : length rawB <> 0%nat) by (destruct rawB; [contradiction|discriminate]).
  assert (WHY : forall mm mm1 x, (m_tries m <= m_tries mm)%nat -> why_thrown ok pol mm mm1 x h -> short_of_memory ok pol h m).
  { intros mm mm1 x T W. destruct x; cbn in W; [eapply short_failed; [exact T|exact W]|right; right; exact W]. }
  rewrite (setRaw_eq p sha rand fuel ok pol m2 kA rawA (length rawA) b NA' (le_n _)), firstn_all.
  assert (KA' : kinv p sha pol al L h D (with_raw kA (rawA, length rawA, b))) by exact KA.
  destruct (blind_cases p Hp Hnb sha HS rand fuel hw ok pol POL al L h D m2 _ b rawA nt KA' HL) as
    [[F S]|[_ [[m3 [kA1 [mA [S [L3 [T3 [KA1 [_ [SA1 [_ [BA1 QA]]]]]]]]]]]|[[m3 [x [kA1 [S [_ [T3 [_ [Y _]]]]]]]]|[S O]]]]]; cbv zeta in S; rewrite S; cbn [uncaught].
  1:{ right. split; [eapply short_failed; [|exact F]; lia|auto]. }
  2:{ right. split; [eapply WHY; [|exact Y]; lia|auto]. }
  2:{ exfalso. cbn [with_raw kA ac_table] in O. rewrite DA in O. rewrite H in O. exact (FIT _ (st_fitA _ _ _ _ _ _ _ _ _ ST) O). }
  rewrite (setRaw_eq p sha rand fuel ok pol m3 kB rawB (length rawB) b NB' (le_n _)), firstn_all.
  assert (KB' : kinv p sha pol al L h D (with_raw kB (rawB, length rawB, b))) by exact KB.
  destruct (blind_cases p Hp Hnb sha HS rand fuel hw ok pol POL al L h D m3 _ b rawB nt KB' HL) as
    [[F S2]|[_ [[m4 [kB1 [mB [S2 [L4 [T4 [KB1 [_ [SB1 [_ [BB1 QB]]]]]]]]]]]|[[m4 [x [kB1 [S2 [_ [T4 [_ [Y _]]]]]]]]|[S2 O]]]]]; cbv zeta in S2; rewrite S2; cbn [uncaught].
  1:{ right. split; [eapply short_failed; [|exact F]; lia|auto]. }
  2:{ right. split; [eapply WHY; [|exact Y]; lia|auto]. }
  2:{ exfalso. cbn [with_raw kB ac_table] in O. rewrite DB in O. rewrite H0 in O. exact (FIT _ (st_fitB _ _ _ _ _ _ _ _ _ ST) O). }
  rewrite BA1, BB1. cbn [with_raw kA kB ac_core ac_secret ac_table ac_zp] in QA, QB. rewrite H in QA. rewrite H0 in QB.
  destruct (C132_protocol sha p L h D al b rawA rawB rand fuel hw canzass berlekamp sA sB key nt posA posB k0 ok m4 h0 _ _ _ _ _ _ _ _
    ST ND HC HB E0 QA QB) as [cS1 [cA1 [zA1 [cB1 [vs [R [[r SE] C]]]]]]]. rewrite R.
  destruct (forallb ok (seq (m_tries m4) 9)) eqn:G; cbn [uncaught].
  - left. eexists _, vs, r. split; [reflexivity|]. split; [cbn [m_live]; lia|]. split; [exact SE|exact C].
  - right. split; [|auto]. left. assert (N : ~ Forall (fun j => ok j = true) (seq (m_tries m4) 9)).
    { intros N. rewrite Forall_forall in N. assert (forallb ok (seq (m_tries m4) 9) = true) by (apply forallb_forall; exact N). congruence. }
    rewrite <- Exists_Forall_neg in N by (intros j; destruct (ok j); auto).
    apply Exists_exists in N. destruct N as [j [J1 J2]]. apply in_seq in J1. exists j. split; [lia|]. destruct (ok j); [contradiction|reflexivity].
Qed.
Print Assumptions C133_whole_run.

(** Which end it is: the requests of a table are four for its numbers and one
    for its array of buckets (code 2 if refused), then one for each bucket
    (code 1); after the two tables come the four arrays of A's blind() (code
    2).  A bucket longer than a std::vector may be: aborted at the first
    table. *)
Theorem C133_setup : forall sha p L h D al b rawA rawB rand fuel canzass berlekamp sA sB key posA posB k0 ok pol m,
  setting sha p L h D al b rawA rawB -> policy_ok pol -> rawA <> [] ->
  let run := a_protocol sha rand fuel p canzass berlekamp ok pol L h D al b rawA rawB sA sB key posA posB k0 m in
  let n := (5 + L)%nat in
  (forall j, reserved h <= p_max pol -> (j < 2 * n + 4)%nat -> (forall i, (i < j)%nat -> ok (m_tries m + i)%nat = true) -> ok (m_tries m + j)%nat = false ->
     run = Stop (Exit (if (j <? n)%nat then (if (j <? 5)%nat then 2 else 1)
                       else if (j <? 2 * n)%nat then (if (j <? n + 5)%nat then 2 else 1) else 2))) /\
  (p_max pol < reserved h -> run = if forallb ok (seq (m_tries m) 5) then Stop Abort else Stop (Exit 2)).
Proof.
  intros sha p L h D al b rawA rawB rand fuel canzass berlekamp sA sB key posA posB k0 ok pol m ST POL NA run n.
  pose proof (st_algo _ _ _ _ _ _ _ _ _ ST) as V. pose proof (st_buckets _ _ _ _ _ _ _ _ _ ST) as HL.
  pose proof (st_odd _ _ _ _ _ _ _ _ _ ST) as Hp2. pose proof (st_long _ _ _ _ _ _ _ _ _ ST) as Hn. pose proof (st_sha _ _ _ _ _ _ _ _ _ ST) as HS.
  assert (Hp : 1 < p) by lia. assert (Hnb : num_bits p + 7 < 2 ^ 64) by lia.
  (* one table, the first [j] of its requests granted and the next refused, or all granted *)
  assert (T1 : forall mm j, reserved h <= p_max pol -> (j < n)%nat -> (forall i, (i < j)%nat -> ok (m_tries mm + i)%nat = true) -> ok (m_tries mm + j)%nat = false ->
     if (j <? 5)%nat then a_new ok pol mm L h (Some al) = Stop (Exit 2) else exists m1, a_new ok pol mm L h (Some al) = Thrown m1 BadAlloc tt).
  { intros mm j R Hj G Fj. destruct (a_new_cases ok pol mm L h (Some al) V) as [A B]. cbv zeta in A, B. cbn [size_algo] in A, B.
    replace (m_tries mm + 4 + 1)%nat with (m_tries mm + 5)%nat in A, B by lia.
    destruct (Nat.ltb_spec j 5) as [X|X].
    - apply A. exists (m_tries mm + j)%nat. split; [lia|exact Fj].
    - assert (NF : forall a c, (m_tries mm <= a)%nat -> (c <= m_tries mm + j)%nat -> ~ failed ok a c).
      { intros a c Ha Hc [i [I1 I2]]. specialize (G (i - m_tries mm)%nat ltac:(lia)). replace (m_tries mm + (i - m_tries mm))%nat with i in G by lia. congruence. }
      destruct B as [_ [B2 _]]; [apply NF; lia|]. eexists. apply (B2 R (j - 5)%nat); [unfold n in Hj; lia|apply NF; lia|].
      replace (m_tries mm + 5 + (j - 5))%nat with (m_tries mm + j)%nat by lia. exact Fj. }
  assert (T2 : forall mm, reserved h <= p_max pol -> (forall i, (i < n)%nat -> ok (m_tries mm + i)%nat = true) ->
     exists m1 t, a_new ok pol mm L h (Some al) = Done m1 t /\ m_tries m1 = (m_tries mm + n)%nat).
  { intros mm R G. destruct (a_new_cases ok pol mm L h (Some al) V) as [_ B]. cbv zeta in B. cbn [size_algo] in B.
    replace (m_tries mm + 4 + 1)%nat with (m_tries mm + 5)%nat in B by lia.
    assert (NF : forall a c, (m_tries mm <= a)%nat -> (c <= m_tries mm + n)%nat -> ~ failed ok a c).
    { intros a c Ha Hc [i [I1 I2]]. specialize (G (i - m_tries mm)%nat ltac:(lia)). replace (m_tries mm + (i - m_tries mm))%nat with i in G by lia. congruence. }
    destruct B as [_ [_ B3]]; [apply NF; unfold n; lia|]. destruct (B3 (or_introl R)) as [t [E _]]; [apply NF; unfold n; lia|].
    eexists _, t. split; [exact E|]. cbn [m_tries]. unfold n. lia. }
  unfold run, a_protocol. split.
  - intros j R Hj G Fj. destruct (Nat.ltb_spec j n) as [X|X].
    { specialize (T1 m j R X G Fj). destruct (j <? 5)%nat; [rewrite T1|destruct T1 as [m1 ->]]; reflexivity. }
    destruct (T2 m R (fun i Hi => G i (Nat.lt_le_trans _ _ _ Hi X))) as [m1 [tA [EA TA]]]. rewrite EA. cbn [in_setup].
    assert (G1 : forall i, (n + i < j)%nat -> ok (m_tries m1 + i)%nat = true).
    { intros i Hi. rewrite TA. replace (m_tries m + n + i)%nat with (m_tries m + (n + i))%nat by lia. apply G. exact Hi. }
    destruct (Nat.ltb_spec j (2 * n)) as [X2|X2].
    { assert (F1 : ok (m_tries m1 + (j - n))%nat = false) by (rewrite TA; replace (m_tries m + n + (j - n))%nat with (m_tries m + j)%nat by lia; exact Fj).
      specialize (T1 m1 (j - n)%nat R ltac:(lia) (fun i Hi => G1 i ltac:(lia)) F1).
      destruct (Nat.ltb_spec (j - n) 5), (Nat.ltb_spec j (n + 5)); try lia; [rewrite T1|destruct T1 as [m2 ->]]; reflexivity. }
    destruct (T2 m1 R (fun i Hi => G1 i ltac:(lia))) as [m2 [tB [EB TB]]]. rewrite EB. cbn [in_setup].
    pose proof (start_inv p sha rand ok pol al L h D m m1 tA sA 0 posA V EA) as KA.
    set (kA := mkAclient (new_core p L h D 0) sA None tA (new_zpprf p posA) None) in *.
    assert (NA' : length rawA <> 0%nat) by (destruct rawA; [contradiction|discriminate]).
    rewrite (setRaw_eq p sha rand fuel ok pol m2 kA rawA (length rawA) b NA' (le_n _)), firstn_all.
    assert (KA' : kinv p sha pol al L h D (with_raw kA (rawA, length rawA, b))) by exact KA.
    destruct (blind_cases p Hp Hnb sha HS rand fuel 0%nat ok pol POL al L h D m2 _ b rawA 0%nat KA' HL) as [[_ S]|[NF _]]; [cbv zeta in S; rewrite S; reflexivity|].
    exfalso. apply NF. exists (m_tries m + j)%nat. split; [lia|exact Fj].
  - intros R. destruct (a_new_cases ok pol m L h (Some al) V) as [A B]. cbv zeta in A, B. cbn [size_algo] in A, B.
    replace (m_tries m + 4 + 1)%nat with (m_tries m + 5)%nat in A, B by lia.
    destruct (forallb ok (seq (m_tries m) 5)) eqn:F.
    + rewrite forallb_forall in F. destruct B as [B1 _]; [|rewrite (B1 HL R); reflexivity].
      intros [i [I1 I2]]. rewrite F in I2; [discriminate|]. apply in_seq. lia.
    + rewrite A; [reflexivity|]. destruct (failed_dec ok (m_tries m) (m_tries m + 5)) as [Y|Y]; [exact Y|]. exfalso.
      assert (forallb ok (seq (m_tries m) 5) = true); [|congruence]. apply forallb_forall. intros i Hi. apply in_seq in Hi.
      destruct (ok i) eqn:Oi; [reflexivity|]. exfalso. apply Y. exists i. split; [lia|exact Oi].
Qed.
Print Assumptions C133_setup.

(** three buckets of two elements over the field of 61 elements, common
    elements 0 and 1: the refused request may be for the first table, a
    bucket, an array of blind(), the growth of a bucket, an array of the
    intersection *)
Definition run_example (bad : list nat) (al : halgo Z) : out (option (list Z)) unit :=
  a_protocol ex_sha ex_rand 10 61 ask_roots ask_roots (ask_bad bad) gnu 3 2 5 al 3
    [0; 1; 4] [1; 3; 0] 77 88 99 0 5 0 (mkMem 0 20).

Example C133_whole_run_nonvacuous :
  (setting ex_sha 61 3 2 5 ex_algo 3 [0; 1; 4] [1; 3; 0] /\ distinct_points ex_sha 61 5 /\ factors_correctly 61 ex_factor /\ policy_ok gnu) /\
  match run_example [39%nat] ex_algo with Done m (Some [1]) => Nat.eqb (m_tries m) 39 && (m_live m =? 20 + 2 * 7 + 2) | _ => false end = true /\
  forallb (fun j => match run_example [j] ex_algo with Stop (Exit 2) => true | _ => false end) [0; 8; 12; 16; 19; 23; 30; 38]%nat = true /\
  forallb (fun j => match run_example [j] ex_algo with Stop (Exit 1) => true | _ => false end) [5; 7; 13; 15]%nat = true /\
  forallb (fun j => match run_example [j] ex_algo with Stop Abort => true | _ => false end) [20; 22; 27; 29]%nat = true.
Proof.
  split; [split; [exact ex_setting|split; [exact ex_distinct|split; [exact ex_factor_ok|exact gnu_ok]]]|].
  repeat split; vm_compute; reflexivity.
Qed.

(** the ten requests of the first and the second table, and the four of A's
    arrays; a bucket of 2^60 elements and more *)
Example C133_setup_nonvacuous :
  setting ex_sha 61 3 2 5 ex_algo 3 [0; 1; 4] [1; 3; 0] /\ policy_ok gnu /\ reserved 2 <= p_max gnu /\
  map (fun j => match run_example [j] ex_algo with Stop (Exit c) => c | _ => 0 end) (seq 0 20) =
    [2; 2; 2; 2; 2; 1; 1; 1; 2; 2; 2; 2; 2; 1; 1; 1; 2; 2; 2; 2] /\
  policy_ok (mkPolicy 1 (fun c => c + 1)) /\ p_max (mkPolicy 1 (fun c => c + 1)) < reserved 2.
Proof.
  split; [exact ex_setting|]. split; [exact gnu_ok|]. split; [vm_compute; discriminate|]. split; [vm_compute; reflexivity|].
  split; [split; cbn; lia|]. vm_compute. reflexivity.
Qed.
