(** C131: setRawData when allocations fail *)
From Verif Require Import Base Spec Lib NtlMiss StrIntModel HashBucketsModel HashBucketsSpec HashBucketsProofs.
From Verif Require Import PRFModel PRFSpec PRFProofs PolyModel EopsiModel EopsiSpec EopsiProofs EopsiBlind.
From Verif Require Import AllocModel AllocSpec AllocProofs BlindAllocModel BlindAllocSpec BlindAllocProofs PropAlloc PropEopsi.

(** One call.  If one of the four arrays cannot be had, the process ends with
    exit code 2.  Otherwise the call returns and has done exactly what it does
    when nothing fails, or the process ends with exit code 1 and a bucket would
    overflow, or an exception leaves it: then the four arrays are left
    behind, the stored result is a matrix of zeros, and the table has got
    either some of the data or all of them and a part of the random
    elements. *)
Theorem C131_one_call : forall sha rand fuel hw p ok pol al L h D m k raw n b nt,
  1 < p -> num_bits p + 7 < 2 ^ 63 -> is_sha sha -> policy_ok pol -> algo_valid al -> (0 < L)%nat ->
  client_reachable sha rand fuel p ok pol al L h D m k ->
  n <> 0%nat -> (n <= length raw)%nat -> 0 <= b < num_bits p ->
  let t := at_hb (ac_table k) in
  let zs := loaded p b raw n in
  let own := (m_tries m + 4)%nat in
  let o := a_setRawData sha rand fuel p ok pol m k (Some raw) n b in
  (failed ok (m_tries m) own -> o = Stop (Exit 2)) /\
  (~ failed ok (m_tries m) own ->
   match o with
   | Done m1 k1 =>
       ~ overflows al t zs /\ m_live m1 = m_live m + 1 /\ ac_secret k1 = ac_secret k /\ ac_raw k1 = Some (raw, n, b) /\
       exists bl, ac_blinded k1 = Some bl /\
         blind sha rand fuel p hw (ac_core k) (ac_secret k) (firstn n raw) n (Some b) t (ac_zp k) nt =
           Ok (ac_core k1, at_hb (ac_table k1), ac_zp k1, bl)
   | Thrown m1 x k1 =>
       m_live m1 = m_live m + 4 /\
       match x with BadAlloc => failed ok own (m_tries m1) | LengthError => p_max pol <= Z.of_nat h end /\
       ac_core k1 = ac_core k /\ ac_secret k1 = ac_secret k /\ ac_raw k1 = Some (raw, n, b) /\ ac_blinded k1 = Some (zeros L D) /\
       ((exists j, (j < n)%nat /\ ac_zp k1 = ac_zp k /\ stopped_adding al t (at_hb (ac_table k1)) zs j) \/
        (~ overflows al t zs /\ exists P, (P <= L)%nat /\ stopped_filling p al t (at_hb (ac_table k1)) zs P))
   | Stop r => r = Exit 1 /\ overflows al t zs
   end).
Proof.
  intros sha rand fuel hw p ok pol al L h D m k raw n b nt Hp Hnb HS POL V HL R N HN Hb t zs own o.
  assert (Hnb' : num_bits p + 7 < 2 ^ 64) by lia.
  pose proof (reachable_inv p Hp Hnb' sha HS rand fuel hw ok pol POL al L h D m k V HL R) as K.
  assert (KR : kinv p sha pol al L h D (with_raw k (raw, n, b))) by exact K.
  assert (LF : length (firstn n raw) = n) by (rewrite firstn_length; lia).
  assert (EZ : zs = map (field_value p b) (firstn n raw)) by (apply (loaded_eq p rand ok); lia).
  assert (LT : length (hb_buckets t) = hb_k t) by exact (kinv_len p sha pol al L h D k K).
  assert (MT : hb_maxload t = h) by apply K.
  pose proof (blind_cases p Hp Hnb' sha HS rand fuel hw ok pol POL al L h D m _ b (firstn n raw) nt KR HL) as C. cbv zeta in C.
  rewrite <- (setRaw_eq p sha rand fuel ok pol m k raw n b N HN) in C. fold o in C. rewrite <- EZ in C.
  cbn [with_raw ac_core ac_secret ac_raw ac_table ac_zp] in C. fold t in C. fold own in C.
  destruct C as [[F S]|[F C]].
  - split; [auto|intros X; contradiction].
  - split; [intros X; contradiction|]. intros _.
    destruct C as [[m1 [k1 [bl [S [L1 [T1 [K1 [FI [E1 [E2 [E3 E4]]]]]]]]]]]|[[m1 [x [k1 [S [L1 [T1 [K1 [Y [E1 [E2 [E3 [E4 C]]]]]]]]]]]]|[S O]]]; rewrite S.
    + split; [eapply fits_not_overflows; eassumption|]. split; [exact L1|]. split; [exact E1|]. split; [exact E2|].
      exists bl. split; [exact E3|]. rewrite LF in E4. exact E4.
    + split; [exact L1|]. split.
      { destruct x; cbn in Y; [|exact Y]. destruct Y as [j [J1 J2]]. exists j. split; [|exact J2].
        destruct (Nat.lt_ge_cases j own); [|lia]. exfalso. apply F. exists j. split; [lia|exact J2]. }
      split; [exact E1|]. split; [exact E2|]. split; [exact E3|]. split; [exact E4|].
      pose proof (kinv_len p sha pol al L h D k1 K1) as LT1.
      destruct C as [[j [Hj [EZP U]]]|[FI [P [ti [HP [Li [U X]]]]]]].
      * left. exists j. split; [rewrite EZ, map_length in Hj; lia|]. split; [exact EZP|]. apply stopped_adding_ok; assumption.
      * right. split; [eapply fits_not_overflows; eassumption|]. exists P. split; [exact HP|].
        eapply stopped_filling_ok; [exact LT|exact LT1|exact MT|exact U|exact X].
    + split; [reflexivity|]. eapply overflows_iff; eassumption.
Qed.
Print Assumptions C131_one_call.

(** A caller that catches the exception and calls again with the same data
    adds them to what is left of the first attempt: every bucket of the table
    it ends with holds them (or the first of them) twice.  If the first
    attempt had filled up a bucket that one of the data belongs to, the
    second cannot return. *)
Theorem C131_again : forall sha rand fuel p ok pol al L h D m k raw n b m1 x k1,
  1 < p -> num_bits p + 7 < 2 ^ 63 -> is_sha sha -> policy_ok pol -> algo_valid al -> (0 < L)%nat ->
  client_reachable sha rand fuel p ok pol al L h D m k ->
  n <> 0%nat -> (n <= length raw)%nat -> 0 <= b < num_bits p ->
  let t := at_hb (ac_table k) in
  let zs := loaded p b raw n in
  a_setRawData sha rand fuel p ok pol m k (Some raw) n b = Thrown m1 x k1 ->
  let o := a_setRawData sha rand fuel p ok pol m1 k1 (Some raw) n b in
  (forall m2 k2, o = Done m2 k2 ->
     exists j, forall i R, contents t i R -> exists f1 f2,
       contents (at_hb (ac_table k2)) i (R ++ belonging al L i (firstn j zs) ++ f1 ++ belonging al L i zs ++ f2) /\
       ((j < n)%nat -> f1 = []) /\ Forall (fun v => 0 <= v < p) (f1 ++ f2) /\
       (length (R ++ belonging al L i (firstn j zs) ++ f1 ++ belonging al L i zs ++ f2) = h)%nat) /\
  (forall P v m2 k2, stopped_filling p al t (at_hb (ac_table k1)) zs P -> In v zs -> (index_of al L v < P)%nat -> o <> Done m2 k2).
Proof.
  intros sha rand fuel p ok pol al L h D m k raw n b m1 x k1 Hp Hnb HS POL V HL R N HN Hb t zs E1 o.
  assert (Hnb' : num_bits p + 7 < 2 ^ 64) by lia.
  pose proof (reachable_inv p Hp Hnb' sha HS rand fuel 0%nat ok pol POL al L h D m k V HL R) as K.
  assert (LF : length (firstn n raw) = n) by (rewrite firstn_length; lia).
  assert (EZ : zs = map (field_value p b) (firstn n raw)) by (apply (loaded_eq p rand ok); lia).
  assert (LZ : length zs = n) by (rewrite EZ, map_length; exact LF).
  assert (LT : length (hb_buckets t) = hb_k t) by exact (kinv_len p sha pol al L h D k K).
  pose proof K as KK. destruct KK as [_ [_ [_ [_ [_ [Hk [MT _]]]]]]]. fold t in Hk, MT.
  (* the client after the first call *)
  assert (R1 : client_reachable sha rand fuel p ok pol al L h D m1 k1).
  { destruct R as [m0 [ma [ta [secret [pos [pos' [calls [log [EA [CK RC]]]]]]]]]].
    exists m0, ma, ta, secret, pos, pos', (calls ++ [(Some raw, n, b)]), (log ++ [Some x]). split; [exact EA|]. split.
    - intros r q bb Hin. apply in_app_or in Hin. destruct Hin as [Hin|[Hin|[]]]; [eapply CK; exact Hin|]. injection Hin as <- <- <-. exact HN.
    - clear - RC E1. set (k0 := mkAclient (new_core p L h D pos) secret None ta (new_zpprf p pos') None) in *. clearbody k0.
      revert ma k0 log RC. induction calls as [|[[r q] bb] calls IH]; intros ma k0 log RC; cbn [app a_calls] in *.
      + injection RC as -> -> <-. rewrite E1. reflexivity.
      + destruct (a_setRawData sha rand fuel p ok pol ma k0 r q bb) as [m2 k2|m2 y k2|rr]; [| |discriminate];
          destruct (a_calls sha rand fuel p ok pol m2 k2 calls) as [rs lg] eqn:E; injection RC as -> <-; rewrite (IH _ _ _ E); reflexivity. }
  pose proof (reachable_inv p Hp Hnb' sha HS rand fuel 0%nat ok pol POL al L h D m1 k1 V HL R1) as K1.
  set (t1 := at_hb (ac_table k1)) in *.
  assert (LT1 : length (hb_buckets t1) = hb_k t1) by exact (kinv_len p sha pol al L h D k1 K1).
  pose proof K1 as KK. destruct KK as [PK1 [EL1 [ED1 [W1 [Ha1 [Hk1 [MT1 [Hle1 [I1 HD1]]]]]]]]]. fold t1 in Ha1, Hk1, MT1, Hle1.
  (* what the second call leaves if it returns *)
  assert (Q : forall m2 k2, o = Done m2 k2 -> ~ overflows al t1 zs /\ length (hb_buckets (at_hb (ac_table k2))) = hb_k (at_hb (ac_table k2)) /\
     forall i R1, contents t1 i R1 -> exists f2, contents (at_hb (ac_table k2)) i (R1 ++ belonging al L i zs ++ f2) /\ Forall (fun v => 0 <= v < p) f2 /\
       length (R1 ++ belonging al L i zs ++ f2) = h).
  { intros m2 k2 EO. destruct (C131_one_call sha rand fuel 0%nat p ok pol al L h D m1 k1 raw n b 0%nat Hp Hnb HS POL V HL R1 N HN Hb) as [A B].
    cbv zeta in A, B. fold o zs t1 in A, B. destruct (failed_dec ok (m_tries m1) (m_tries m1 + 4)) as [F|F]; [rewrite (A F) in EO; discriminate|].
    specialize (B F). rewrite EO in B. destruct B as [NO [_ [_ [_ [bl [_ EB]]]]]]. split; [exact NO|].
    destruct (blind_ok p Hp Hnb' sha HS rand fuel 0%nat (ac_core k1) (ac_secret k1) (firstn n raw) b t1 (ac_zp k1) 0%nat al PK1 (proj1 W1) Ha1 ltac:(lia) ltac:(lia) I1) as [BO _].
    { rewrite ED1. exact HD1. }
    { rewrite MT1. exact Hle1. }
    rewrite Hk1, MT1, <- EZ in BO. destruct BO as [c' [h' [zp' [RR [EB' [HR [_ [_ [_ [W' _]]]]]]]]]].
    { intros i bk Hbk. destruct (Nat.le_gt_cases (length (mv_items bk) + length (belonging al L i zs)) h) as [X|X]; [exact X|]. exfalso. apply NO.
      apply (overflows_iff al t1 h zs LT1 MT1). exists i, bk. rewrite Hk1. split; assumption. }
    rewrite LF in EB'. rewrite EB in EB'. apply Ok_inj in EB'. assert (EH : at_hb (ac_table k2) = h') by congruence. rewrite EH.
    assert (WL : length (hb_buckets h') = hb_k h') by apply W'. split; [exact WL|].
    intros i R0 C. apply contents_nth in C; [|exact LT1]. destruct C as [mk C]. destruct (HR i _ C) as [f [mk2 [ER [LR [FR CR]]]]]. cbn [mv_items] in ER.
    exists f. rewrite <- ER. split; [apply contents_nth; [exact WL|]; eauto|]. split; [exact FR|exact LR]. }
  destruct (C131_one_call sha rand fuel 0%nat p ok pol al L h D m k raw n b 0%nat Hp Hnb HS POL V HL R N HN Hb) as [A B]. cbv zeta in A, B.
  fold zs t in A, B. destruct (failed_dec ok (m_tries m) (m_tries m + 4)) as [F|F]; [rewrite (A F) in E1; discriminate|].
  specialize (B F). rewrite E1 in B. destruct B as [_ [_ [_ [_ [_ [_ B]]]]]]. fold t1 in B.
  split.
  - intros m2 k2 EO. destruct (Q m2 k2 EO) as [_ [_ HQ]]. destruct B as [[j [Hj [_ SA]]]|[_ [P [HP SF]]]].
    + exists j. intros i R0 C. pose proof (SA i R0 C) as C1. rewrite Hk in C1. destruct (HQ i _ C1) as [f2 [C2 [F2 L2]]].
      exists [], f2. cbn [app]. rewrite <- app_assoc in C2, L2. split; [exact C2|]. split; [reflexivity|]. split; [exact F2|exact L2].
    + exists n. intros i R0 C. destruct (SF i R0 C) as [f [C1 [FF _]]]. rewrite Hk in C1. destruct (HQ i _ C1) as [f2 [C2 [F2 L2]]].
      assert (FA : firstn n zs = zs) by (apply firstn_all2; lia). rewrite FA. rewrite <- !app_assoc in C2, L2. exists f, f2. split; [exact C2|]. split; [lia|].
      split; [apply Forall_app; split; assumption|exact L2].
  - intros P v m2 k2 SF Hv HP EO. destruct (Q m2 k2 EO) as [NO _]. apply NO.
    set (i := index_of al L v) in *.
    assert (Hi : (i < length (hb_buckets t))%nat) by (rewrite LT, Hk; apply index_lt; exact HL).
    destruct (nth_error (hb_buckets t) i) as [bk|] eqn:Eb; [|apply nth_error_None in Eb; lia].
    assert (C : contents t i (mv_items bk)) by (apply contents_nth; [exact LT|]; exists (mv_marked bk); destruct bk; exact Eb).
    destruct (SF i _ C) as [f [C1 [_ [LP _]]]]. cbv zeta in LP. specialize (LP HP). rewrite MT in LP. rewrite Hk in C1, LP.
    eexists i, _. split; [exact C1|]. rewrite LP, MT1, Hk1.
    assert (IN : In v (belonging al L i zs)) by (apply filter_In; split; [exact Hv|apply Nat.eqb_refl]).
    destruct (belonging al L i zs); [contradiction|]. cbn [length]. lia.
Qed.
Print Assumptions C131_again.

Lemma log_length sha rand fuel p ok pol calls : forall m k m1 k1 log,
  a_calls sha rand fuel p ok pol m k calls = (inl (m1, k1), log) -> length log = length calls.
Proof.
  induction calls as [|[[raw n] b] calls IH]; intros m k m1 k1 log E; cbn [a_calls] in E; [injection E as _ _ <-; reflexivity|].
  destruct (a_setRawData sha rand fuel p ok pol m k raw n b) as [m2 k2|m2 x k2|r]; [| |discriminate];
    destruct (a_calls sha rand fuel p ok pol m2 k2 calls) as [r lg] eqn:E2; injection E as -> <-; cbn [length]; f_equal; exact (IH _ _ _ _ _ E2).
Qed.

(** Storage: every call that stores data leaves one array behind, and three
    more if an exception leaves it; [log] has one entry for every call. *)
Theorem C131_storage : forall sha rand fuel p ok pol al L h D m k calls m1 k1 log,
  1 < p -> num_bits p + 7 < 2 ^ 63 -> is_sha sha -> policy_ok pol -> algo_valid al -> (0 < L)%nat ->
  client_reachable sha rand fuel p ok pol al L h D m k ->
  (forall raw n b, In (raw, n, b) calls -> exists l, raw = Some l /\ (0 < n <= length l)%nat) ->
  a_calls sha rand fuel p ok pol m k calls = (inl (m1, k1), log) ->
  length log = length calls /\
  m_live m1 = m_live m + Z.of_nat (length calls) + 3 * Z.of_nat (throws log).
Proof.
  intros sha rand fuel p ok pol al L h D m k calls m1 k1 log Hp Hnb HS POL V HL R HC E.
  split; [exact (log_length _ _ _ _ _ _ _ _ _ _ _ _ E)|].
  assert (Hnb' : num_bits p + 7 < 2 ^ 64) by lia.
  pose proof (reachable_inv p Hp Hnb' sha HS rand fuel 0%nat ok pol POL al L h D m k V HL R) as K.
  destruct (calls_inv p Hp Hnb' sha HS rand fuel 0%nat ok pol POL al L h D HL calls m k m1 k1 log K) as [_ [_ X]]; [|exact E|].
  - apply Forall_forall. intros [[raw n] b] Hin. destruct (HC _ _ _ Hin) as [l [-> H]]. cbn. lia.
  - rewrite X. f_equal. f_equal. f_equal. clear -HC. induction calls as [|[[raw n] b] calls IH]; [reflexivity|].
    cbn [filter]. destruct (HC raw n b (or_introl eq_refl)) as [l [-> H]]. cbn [real_call]. destruct (Nat.eqb_spec n 0); [lia|]. cbn [negb length].
    f_equal. apply IH. intros r1 n1 b1 H1. apply (HC r1 n1 b1). right. exact H1.
Qed.
Print Assumptions C131_storage.

(** *** non-vacuity: two buckets for 8 elements, 17 points, 61 elements in the
    field; the attempts 0-6 are those of the table, 7-10 the four arrays *)
Definition bx_first (l : list nat) (f : mem -> aclient -> bool) : bool :=
  match a_new (bad l) gnu start 2 8 (Some ex_algo) with
  | Done m t => f m (mkAclient (new_core 61 2 8 17 0) 77 None t (new_zpprf 61 0) None)
  | _ => false
  end.
Definition bx_set l m k raw := a_setRawData ex_sha ex_rand 10 61 (bad l) gnu m k (Some raw) (length raw) 3.
Lemma bx_start l f : bx_first l f = true ->
  exists m k, client_reachable ex_sha ex_rand 10 61 (bad l) gnu ex_algo 2 8 17 m k /\ f m k = true.
Proof.
  unfold bx_first. destruct (a_new (bad l) gnu start 2 8 (Some ex_algo)) as [m t| |] eqn:E; try discriminate. intros F.
  exists m, (mkAclient (new_core 61 2 8 17 0) 77 None t (new_zpprf 61 0) None). split; [|exact F].
  exists start, m, t, 77, 0%nat, 0%nat, [], []. split; [exact E|]. split; [intros ? ? ? []|reflexivity].
Qed.
Definition buckets_of (k : aclient) : list (list Z) := map mv_items (hb_buckets (at_hb (ac_table k))).
Definition is_zeros (k : aclient) : bool :=
  match ac_blinded k with Some bl => same_lists bl (zeros 2 17) | None => false end.
Definition all8 : list Z := [0; 1; 2; 3; 4; 5; 6; 7].

(** all the data belong to bucket 0: the 8th makes it grow (attempt 11); the
    8th random element makes bucket 1 grow (attempt 12); 13 and 14 are the
    copies *)
Example C131_one_call_nonvacuous :
  (exists m k, client_reachable ex_sha ex_rand 10 61 (bad [8%nat]) gnu ex_algo 2 8 17 m k /\
     match bx_set [8%nat] m k all8 with Stop (Exit 2) => true | _ => false end = true) /\
  (exists m k, client_reachable ex_sha ex_rand 10 61 (bad [11%nat]) gnu ex_algo 2 8 17 m k /\
     match bx_set [11%nat] m k all8 with Thrown m1 BadAlloc k1 => (m_live m1 =? m_live m + 4) && is_zeros k1 && same_lists (buckets_of k1) [[0; 4; 8; 12; 16; 20; 24]; []] | _ => false end = true) /\
  (exists m k, client_reachable ex_sha ex_rand 10 61 (bad [12%nat]) gnu ex_algo 2 8 17 m k /\
     match bx_set [12%nat] m k all8 with Thrown m1 BadAlloc k1 => is_zeros k1 && same_lists (firstn 1 (buckets_of k1)) [[0; 4; 8; 12; 16; 20; 24; 28]] && Nat.eqb (length (nth 1 (buckets_of k1) [])) 7 | _ => false end = true) /\
  (exists m k, client_reachable ex_sha ex_rand 10 61 (bad [14%nat]) gnu ex_algo 2 8 17 m k /\
     match bx_set [14%nat] m k all8 with Thrown m1 BadAlloc k1 => is_zeros k1 && Nat.eqb (length (nth 1 (buckets_of k1) [])) 8 | _ => false end = true) /\
  (exists m k, client_reachable ex_sha ex_rand 10 61 (bad [15%nat]) gnu ex_algo 2 8 17 m k /\
     match bx_set [15%nat] m k all8 with Done m1 k1 => (m_live m1 =? m_live m + 1) && negb (is_zeros k1) | _ => false end = true) /\
  (exists m k, client_reachable ex_sha ex_rand 10 61 (bad []) gnu ex_algo 2 8 17 m k /\
     match bx_set [] m k (0 :: all8) with Stop (Exit 1) => true | _ => false end = true).
Proof. repeat split; apply bx_start; vm_compute; reflexivity. Qed.

(** one datum; bucket 0 cannot grow for its last random element; the second
    call adds the datum again and then returns.  With eight data the second
    call ends the process. *)
Example C131_again_nonvacuous :
  (exists m k, client_reachable ex_sha ex_rand 10 61 (bad [11%nat]) gnu ex_algo 2 8 17 m k /\
     match bx_set [11%nat] m k [1] with
     | Thrown m1 BadAlloc k1 =>
         match bx_set [11%nat] m1 k1 [1] with
         | Done m2 k2 => (m_live m2 =? m_live m + 5) && (nth 0 (nth 0 (buckets_of k2) []) 0 =? 4) && (nth 7 (nth 0 (buckets_of k2) []) 0 =? 4)
         | _ => false
         end
     | _ => false
     end = true) /\
  (exists m k, client_reachable ex_sha ex_rand 10 61 (bad [12%nat]) gnu ex_algo 2 8 17 m k /\
     match bx_set [12%nat] m k all8 with
     | Thrown m1 BadAlloc k1 => match bx_set [12%nat] m1 k1 all8 with Stop (Exit 1) => true | _ => false end
     | _ => false
     end = true).
Proof. repeat split; apply bx_start; vm_compute; reflexivity. Qed.
Example C131_storage_nonvacuous :
  exists m k, client_reachable ex_sha ex_rand 10 61 (bad [11%nat]) gnu ex_algo 2 8 17 m k /\
    match a_calls ex_sha ex_rand 10 61 (bad [11%nat]) gnu m k [(Some [1], 1%nat, 3); (Some [1], 1%nat, 3)] with
    | (inl (m1, _), [Some BadAlloc; None]) => m_live m1 =? m_live m + 5
    | _ => false
    end = true.
Proof. apply bx_start. vm_compute. reflexivity. Qed.
