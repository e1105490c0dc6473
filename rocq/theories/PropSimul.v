(** Properties C64-C66 and C71-C72: the simulator eopsisimul. *)
From Verif Require Import Base Spec Lib NtlMiss StrIntModel HashBucketsModel HashBucketsSpec PRFModel PRFSpec PolyModel PolySpec EopsiModel EopsiSpec PropEopsi.
From Verif Require Import EopsiProofs EopsiBlind EopsiRun EopsiFacts.
From Verif Require Import WorldModel WorldSpec PropRun SimulModel SimulSpec SimulProofs.
From Coq Require Import Lia Sorted Permutation Znumtheory.

(** *** C64 *)
Theorem C64_reference_intersection : forall A B, NoDup A -> NoDup B ->
  exists r, plain_intersect (Some A) (length A) (Some B) (length B) = Ok (r, length r) /\ increasing r /\
    forall v, In v r <-> common A B v.
Proof.
  intros A B HA HB. destruct (plain_intersect_ok (Some A) (length A) A (Some B) (length B) B) as [r [E [I V]]]; [split; auto|split; auto|].
  exists r. split; [exact E|]. split; [exact I|]. intros v. rewrite V. unfold common. rewrite !occ_in.
  pose proof (occ_nodup v A HA). pose proof (occ_nodup v B HB). lia.
Qed.
Print Assumptions C64_reference_intersection.
(** without the condition: whatever occurs twice is reported, in one array or in both *)
Theorem C64_duplicates_reported : forall A B,
  exists r, plain_intersect (Some A) (length A) (Some B) (length B) = Ok (r, length r) /\ increasing r /\
    forall v, In v r <-> common A B v \/ (2 <= occurrences v A)%nat \/ (2 <= occurrences v B)%nat.
Proof.
  intros A B. destruct (plain_intersect_ok (Some A) (length A) A (Some B) (length B) B) as [r [E [I V]]]; [split; auto|split; auto|].
  exists r. split; [exact E|]. split; [exact I|]. intros v. rewrite V. unfold common. rewrite !occ_in. lia.
Qed.
Print Assumptions C64_duplicates_reported.
Example C64_nonvacuous : plain_intersect (Some [5; 1; 9; 2]) 4 (Some [2; 7; 5]) 3 = Ok ([2; 5], 2%nat) /\ NoDup [5; 1; 9; 2] /\ NoDup [2; 7; 5] /\
  plain_intersect (Some [5; 1; 5]) 3 (Some [2; 1; 2; 7]) 4 = Ok ([1; 2; 5], 3%nat) /\ plain_intersect None 0 (Some [4]) 1 = Ok ([], 0%nat).
Proof. repeat split; try reflexivity; repeat constructor; cbn; lia. Qed.

(** *** C65 *)
Theorem C65_verdict : forall A B, exists ans, checkIntersectionCorrectness (Some A) (length A) B = Ok ans /\
  (ans = true <-> length A = length B /\ forall v, In v A <-> In v B).
Proof. intros A B. apply check_ok. split; auto. Qed.
Print Assumptions C65_verdict.
Theorem C65_permutation : forall A B, NoDup A -> checkIntersectionCorrectness (Some A) (length A) B = Ok true <-> Permutation A B.
Proof.
  intros A B HA. destruct (C65_verdict A B) as [ans [E V]]. rewrite E. split.
  - intros H. apply Ok_inj in H. apply V in H. destruct H as [HL HV]. apply NoDup_Permutation_bis; [exact HA|lia|]. intros v Hv. apply HV. exact Hv.
  - intros H. f_equal. apply V. split; [apply Permutation_length; exact H|]. intros v. split; [apply Permutation_in; exact H|apply Permutation_in; symmetry; exact H].
Qed.
Print Assumptions C65_permutation.
Example C65_nonvacuous : checkIntersectionCorrectness (Some [1; 2; 5]) 3 [5; 1; 2] = Ok true /\ checkIntersectionCorrectness (Some [1; 2; 5]) 3 [5; 1; 1] = Ok false /\
  checkIntersectionCorrectness (Some [1; 2]) 2 [1; 2; 2] = Ok false /\ checkIntersectionCorrectness (Some [1; 1; 2]) 3 [1; 2; 2] = Ok true /\ NoDup [1; 2; 5].
Proof. repeat split; try reflexivity; repeat constructor; cbn; lia. Qed.

(** *** C66 *)
(** NTL's contract for RandomBits_ZZ *)
Definition random_bits (rb : nat -> Z -> Z) : Prop := forall k b, 0 <= b -> 0 <= rb k b < 2 ^ b.
Lemma fill_set_ends rb fuel n bits : forall k s, (exists x, fill_set rb fuel n bits k s = Ok x) \/ fill_set rb fuel n bits k s = NoFuel.
Proof. induction fuel as [|f IH]; intros k s; cbn [fill_set]; [right; reflexivity|]. destruct (Nat.ltb _ _); [apply IH|left; eexists; reflexivity]. Qed.
Lemma randomData_ends rb fuel n bits k : (exists x, randomData rb fuel n bits k = Ok x) \/ randomData rb fuel n bits k = NoFuel.
Proof.
  unfold randomData. destruct n as [|n]; [left; eexists; reflexivity|]. destruct (fill_set_ends rb fuel (S n) (s64 bits) k []) as [[[s k1] F]|F]; rewrite F; cbn [bind]; [left|right; reflexivity].
  replace k with (k + 0)%nat in F by lia. apply fill_set_ok in F; [|constructor|cbn; tauto|left; reflexivity]. destruct F as [m [_ [_ [_ [_ [_ L]]]]]].
  specialize (L ltac:(lia)). rewrite (copy_set s (S n) L). eexists. reflexivity.
Qed.
(** what randomData returns, if it returns; it never does anything undefined *)
Theorem C66_result : forall rb fuel n bits k, random_bits rb -> 0 <= bits < 2 ^ 63 ->
  (exists d k', randomData rb fuel n bits k = Ok (d, k') /\ (n = 0%nat -> d = None /\ k' = k) /\
     ((0 < n)%nat -> (k < k')%nat /\ exists l, d = Some l /\ length l = n /\ increasing l /\ Forall (fun v => 0 <= v < 2 ^ bits) l /\
        forall v, In v l <-> exists i, (k <= i < k')%nat /\ v = rb i bits))
  \/ randomData rb fuel n bits k = NoFuel.
Proof.
  intros rb fuel n bits k HR HB. destruct (randomData rb fuel n bits k) as [[d k']|c|u| |] eqn:E.
  - left. exists d, k'. split; [reflexivity|]. destruct (randomData_ok rb fuel n bits k d k' E) as [m [l [-> [[Hl HD] [HI [H0 HV]]]]]]. rewrite s64_small in HV by exact HB.
    split.
    + intros ->. specialize (H0 eq_refl). subst m. split; [|lia]. destruct HD as [->|_]; [|unfold randomData in E; apply Ok_inj in E; congruence].
      unfold randomData in E. apply Ok_inj in E. congruence.
    + intros Hn. assert (Hm : (0 < m)%nat). { destruct m; [|lia]. destruct l as [|x l]; [cbn in Hl; lia|]. exfalso. apply (HV x). left. reflexivity. }
      split; [lia|]. exists l. split; [destruct HD as [->| ->]; [reflexivity|cbn in Hl; lia]|]. split; [lia|]. split; [exact HI|].
      assert (HV' : forall v, In v l <-> exists i, (k <= i < k + m)%nat /\ v = rb i bits).
      { intros v. rewrite HV, in_map_iff. split; intros [i [X Y]]; exists i; [rewrite in_seq in Y; auto|rewrite in_seq; auto]. }
      split; [|exact HV']. apply Forall_forall. intros v Hv. apply HV' in Hv. destruct Hv as [i [_ ->]]. apply HR. lia.
  - destruct (randomData_ends rb fuel n bits k) as [[x X]|X]; rewrite X in E; discriminate.
  - destruct (randomData_ends rb fuel n bits k) as [[x X]|X]; rewrite X in E; discriminate.
  - destruct (randomData_ends rb fuel n bits k) as [[x X]|X]; rewrite X in E; discriminate.
  - right. reflexivity.
Qed.
Print Assumptions C66_result.
Lemma increasing_bounded l : forall lo hi, increasing l -> Forall (fun v => lo <= v < hi) l -> Z.of_nat (length l) <= Z.max 0 (hi - lo).
Proof.
  induction l as [|x l IH]; intros lo hi HI HF; cbn [length]; [lia|]. inversion HI as [|? ? HI' HX]; subst. inversion HF as [|? ? Hx HF']; subst.
  assert (Z.of_nat (length l) <= Z.max 0 (hi - (x + 1))).
  { apply IH; [exact HI'|]. rewrite Forall_forall in *. intros v Hv. specialize (HX v Hv). specialize (HF' v Hv). lia. }
  lia.
Qed.
(** more elements than there are numbers: the loop never ends *)
Theorem C66_never_returns : forall rb fuel n bits k, random_bits rb -> 0 <= bits < 2 ^ 63 -> 2 ^ bits < Z.of_nat n ->
  randomData rb fuel n bits k = NoFuel.
Proof.
  intros rb fuel n bits k HR HB HN. destruct (C66_result rb fuel n bits k HR HB) as [[d [k' [_ [_ H]]]]|H]; [|exact H]. exfalso.
  assert (0 < 2 ^ bits) by (apply Z.pow_pos_nonneg; lia). destruct (H ltac:(lia)) as [_ [l [_ [HL [HI [HF _]]]]]].
  pose proof (increasing_bounded l 0 (2 ^ bits) HI HF). lia.
Qed.
Print Assumptions C66_never_returns.
(** once enough different numbers were drawn, it returns *)
Theorem C66_returns : forall rb fuel n bits k M, 0 <= bits < 2 ^ 63 -> (0 < n)%nat ->
  (n <= length (distinct_values (fun i => rb i bits) k M))%nat -> (M <= fuel)%nat ->
  exists l k', randomData rb fuel n bits k = Ok (Some l, k') /\ (k' <= k + M)%nat.
Proof.
  intros rb fuel n bits k M HB Hn HD HF. apply randomData_enough; [lia| |exact HF]. rewrite s64_small by exact HB. exact HD.
Qed.
Print Assumptions C66_returns.
Definition ex_rb (k : nat) (b : Z) : Z := if b =? 128 then 2 ^ 127 + Z.of_nat k else Z.of_nat (3 * k / 2) mod 2 ^ b.
Example C66_nonvacuous : random_bits (fun k b => Z.of_nat (3 * k / 2) mod 2 ^ b) /\ randomData ex_rb 20 3 2 1 = Ok (Some [0; 1; 3], 4%nat) /\ randomData ex_rb 20 5 2 1 = NoFuel /\
  length (distinct_values (fun i => ex_rb i 2) 1 3) = 3%nat.
Proof. split; [|split; [reflexivity|split; reflexivity]]. intros k b Hb. apply Z.mod_pos_bound. apply Z.pow_pos_nonneg; lia. Qed.

(** *** C71 *)
(** the data of the two clients, as main makes them *)
Lemma generate_ok rb fuel n r bits k da db k' : random_bits rb -> 0 <= bits < 2 ^ 63 -> (r <= n)%nat -> generate rb fuel n r bits k = Ok (da, db, k') ->
  exists c ua ub, da = c ++ ua /\ db = c ++ ub /\ increasing c /\ increasing ua /\ increasing ub /\ length c = r /\ length ua = (n - r)%nat /\ length ub = (n - r)%nat /\
    Forall (fun v => 0 <= v < 2 ^ bits) (c ++ ua ++ ub).
Proof.
  intros HR HB HN H. unfold generate in H. apply bind_ok in H. destruct H as [[c k1] [H1 H]]. apply bind_ok in H. destruct H as [[ua k2] [H2 H]].
  apply bind_ok in H. destruct H as [da' [H3 H]]. apply bind_ok in H. destruct H as [[ub k3] [H4 H]]. apply bind_ok in H. destruct H as [db' [H5 H]].
  apply Ok_inj in H. injection H as -> -> ->.
  assert (G : forall n k d k', randomData rb fuel n bits k = Ok (d, k') -> exists l, holds d n l /\ increasing l /\ Forall (fun v => 0 <= v < 2 ^ bits) l).
  { intros n0 k0 d k0' E. destruct (randomData_ok rb fuel n0 bits k0 d k0' E) as [m [l [_ [HD [HI [_ HV]]]]]]. rewrite s64_small in HV by exact HB.
    exists l. split; [exact HD|]. split; [exact HI|]. apply Forall_forall. intros v Hv. apply HV in Hv. apply in_map_iff in Hv. destruct Hv as [i [<- _]]. apply HR. lia. }
  destruct (G _ _ _ _ H1) as [lc [C1 [C2 C3]]]. destruct (G _ _ _ _ H2) as [la [A1 [A2 A3]]]. destruct (G _ _ _ _ H4) as [lb [B1 [B2 B3]]].
  rewrite (join_ok _ _ _ _ _ _ C1 A1) in H3. rewrite (join_ok _ _ _ _ _ _ C1 B1) in H5. apply Ok_inj in H3. apply Ok_inj in H5. subst da db.
  exists lc, la, lb. destruct C1 as [-> _], A1 as [E1 _], B1 as [E2 _]. repeat split; try assumption; try lia.
  apply Forall_app. split; [exact C3|]. apply Forall_app. split; assumption.
Qed.
(** the reference is the true intersection, although the data may have duplicates *)
Lemma generated_reference rb fuel n r bits k da db k' : random_bits rb -> 0 <= bits < 2 ^ 63 -> (r <= n)%nat -> generate rb fuel n r bits k = Ok (da, db, k') ->
  length da = n /\ length db = n /\ Forall (fun v => 0 <= v < 2 ^ bits) da /\ Forall (fun v => 0 <= v < 2 ^ bits) db /\
  exists cap, plain_intersect (Some da) n (Some db) n = Ok (cap, length cap) /\ increasing cap /\ forall v, In v cap <-> common da db v.
Proof.
  intros HR HB HN H. destruct (generate_ok rb fuel n r bits k da db k' HR HB HN H) as [c [ua [ub [-> [-> [IC [IA [IB [LC [LA [LB F]]]]]]]]]]].
  apply Forall_app in F. destruct F as [F1 F2]. apply Forall_app in F2. destruct F2 as [F2 F3].
  split; [rewrite app_length; lia|]. split; [rewrite app_length; lia|]. split; [apply Forall_app; auto|]. split; [apply Forall_app; auto|].
  destruct (plain_intersect_ok (Some (c ++ ua)) n (c ++ ua) (Some (c ++ ub)) n (c ++ ub)) as [cap [E [I V]]].
  { split; [rewrite app_length; lia|auto]. } { split; [rewrite app_length; lia|auto]. }
  exists cap. split; [exact E|]. split; [exact I|]. intros v. rewrite V. unfold common. rewrite !occ_in, !occ_app.
  pose proof (occ_nodup v c (increasing_nodup c IC)). pose proof (occ_nodup v ua (increasing_nodup ua IA)). pose proof (occ_nodup v ub (increasing_nodup ub IB)). lia.
Qed.

(** The simulator runs to its end, and says "correct" exactly if the requester
    reported each common element once and nothing else.  So: it says "WRONG"
    whenever 0 is common and there is padding, or a bucket has an accidental
    root that survives the pad filter; otherwise it says "correct". *)
Theorem C71_simulator_verdict : forall rb sha rand fuel p canzass berlekamp hw al args o draws da db k key k',
  random_bits rb ->
  (* the options are accepted and the prime has the chosen width *)
  parse default_options args = Ok o -> check_options o = Ok o -> num_bits p = op_p o ->
  let L := Z.to_nat (op_k o) in let h := Z.to_nat (op_l o) in let D := (2 * h + 1)%nat in let b := op_b o in
  op_l o < 2 ^ 62 -> 0 < op_n o -> 0 < op_k o -> 0 <= op_l o ->
  (* the random data were drawn, and fit the tables *)
  generate rb fuel (Z.to_nat (op_n o)) (Z.to_nat (op_r o)) b draws = Ok (da, db, k) ->
  setting sha p L h D al b da db -> distinct_points sha p D -> factors_correctly p canzass -> factors_correctly p berlekamp ->
  draw_key (fun i => rb i 128) fuel k = Ok (key, k') ->
  let pad := num_bits p - b - 1 in
  exists verdict vs, simul_main rb sha rand fuel p canzass berlekamp hw al args draws = Ok verdict /\
    (verdict = true <-> NoDup vs /\ forall v, In v vs <-> common da db v) /\
    (forall v, common da db v -> v <> 0 \/ pad = 0 -> In v vs) /\
    (common da db 0 -> pad <> 0 -> verdict = false) /\
    exists RA RB : nat -> list Z,
      (forall j, (j < L)%nat -> exists fA fB, RA j = belonging al L j (padded_data p b da) ++ fA /\ RB j = belonging al L j (padded_data p b db) ++ fB /\
         length (RA j) = h /\ length (RB j) = h /\ Forall (fun z => 0 <= z < p) (fA ++ fB)) /\
      let is_root j z := combined p (RA j) (RB j) (coeffsA sha p L D h key j) (coeffsB sha p L D h key j) z = 0 in
      (* an accidental root makes the verdict "WRONG" ... *)
      (forall j v, (j < L)%nat -> 0 <= v * 2 ^ pad < p -> (v = 0 -> pad = 0) -> is_root j (v * 2 ^ pad) -> ~ common da db v -> verdict = false) /\
      (* ... without one (and with no common 0 to lose) it is "correct" *)
      ((forall j v, (j < L)%nat -> 0 <= v * 2 ^ pad < p -> (v = 0 -> pad = 0) -> is_root j (v * 2 ^ pad) ->
          In v da /\ In v db /\ index_of al L (v * 2 ^ pad) = j) ->
       (common da db 0 -> pad = 0) -> verdict = true).
Proof.
  intros rb sha rand fuel p canzass berlekamp hw al args o draws da db k key k' HR HO HC HW L h D b HL1 HN HK HL0 HG ST ND F1 F2 HDK pad.
  assert (HRN : op_r o <= op_n o). { unfold check_options in HC. destruct (Z.ltb_spec (op_n o) (op_r o)); [discriminate|lia]. }
  assert (HBits : 0 <= b < 2 ^ 63). { destruct ST as [_ _ _ H1 _ _ _ H2 _ _ _ _]. lia. }
  destruct (generated_reference rb fuel (Z.to_nat (op_n o)) (Z.to_nat (op_r o)) b draws da db k HR HBits ltac:(lia) HG) as [LA [LB [_ [_ [cap [ER [IC VC]]]]]]].
  assert (KR : 0 <= key < 2 ^ 128).
  { clear - HDK HR. revert k HDK. induction fuel as [|f IH]; intros k HDK; [discriminate|]. cbn [draw_key] in HDK. destruct (_ <? _); [exact (IH _ HDK)|].
    apply Ok_inj in HDK. injection HDK as <- _. apply HR. lia. }
  destruct (C70_end_to_end sha p L h D al b da db rand fuel hw canzass berlekamp (fun i => rb i 128) id_alice id_bob id_cloud secret_alice secret_bob 1 0 k 0 key k')
    as [w' [vs [S1 [S2 [_ [S3 [RA [RB [S4 [S5 S6]]]]]]]]]];
    [exact ST|exact ND|exact F1|exact F2|discriminate|discriminate|discriminate|repeat constructor; lia|repeat constructor; lia
    |intros X; rewrite X in LA; cbn [length] in LA; lia|intros X; rewrite X in LB; cbn [length] in LB; lia|vm_compute; split; [discriminate|reflexivity]|exact HDK|exact KR|].
  destruct (check_ok (Some cap) (length cap) cap vs ltac:(split; auto)) as [verdict [EV VV]]. exists verdict, vs.
  assert (VD : verdict = true <-> NoDup vs /\ forall v, In v vs <-> common da db v).
  { rewrite VV. split.
    - intros [HL HV]. split.
      + assert (P : Permutation cap vs). { apply NoDup_Permutation_bis; [apply increasing_nodup; exact IC|lia|]. intros v Hv. apply HV. exact Hv. }
        eapply Permutation_NoDup; [exact P|]. apply increasing_nodup. exact IC.
      + intros v. rewrite <- HV. apply VC.
    - intros [HD HV]. assert (P : Permutation cap vs). { apply NoDup_Permutation; [apply increasing_nodup; exact IC|exact HD|]. intros v. rewrite HV. apply VC. }
      split; [apply Permutation_length; exact P|]. intros v. rewrite HV. apply VC. }
  assert (FALSE : (exists v, In v vs /\ ~ common da db v \/ ~ In v vs /\ common da db v) -> verdict = false).
  { intros [v X]. destruct verdict; [|reflexivity]. exfalso. destruct (proj1 VD eq_refl) as [_ Y]. specialize (Y v). tauto. }
  split.
  { unfold simul_main. rewrite HO. cbn [bind]. rewrite HC. cbn [bind]. fold L h b. rewrite HG. cbn [bind].
    replace (Z.to_nat (w64 (2 * op_l o + 1))) with D.
    2:{ rewrite w64_small by (unfold M64; lia). unfold D, h. lia. }
    change DEFAULT_KEY_BITSIZE with 128. rewrite S1. cbn [bind]. rewrite ER. cbn [bind]. rewrite S2. cbn [bind]. exact EV. }
  split; [exact VD|]. split; [intros v [X1 X2] X3; apply S3; assumption|]. split.
  { intros H0 HP. apply FALSE. exists 0. right. split; [|exact H0]. intros X. apply S5 in X. destruct X as [_ X]. apply HP. apply X. reflexivity. }
  exists RA, RB. split; [exact S4|]. cbv zeta. split.
  - intros j v Hj HB HZ HRt HNC. apply FALSE. exists v. left. split; [|exact HNC]. apply S5. split; [exists j; auto|exact HZ].
  - intros HX H0. destruct (S6 HX) as [N1 N2]. apply VD. split; [exact N1|]. intros v. rewrite N2. unfold common in *. split; [tauto|].
    intros [X1 X2]. split; [exact X1|]. split; [exact X2|]. intros ->. apply H0. split; assumption.
Qed.
Print Assumptions C71_simulator_verdict.

(** A run with three buckets of capacity 2 in the field of 61 elements, with
    3-bit data: 1 and 4 are common, there are no duplicates. *)
Definition ex_args : list option_arg := [OptB 3; OptP 6; OptN 3; OptR 2; OptK 3; OptL 2].
Definition ex_rb2 (r : Z) (k : nat) (b : Z) : Z := (if b =? 128 then 2 ^ 127 + r else nth k [1; 4; 6; 3; 5] 0) mod 2 ^ b.
Lemma ex_rb2_ok r : random_bits (ex_rb2 r).
Proof. intros k b Hb. apply Z.mod_pos_bound. apply Z.pow_pos_nonneg; lia. Qed.
Lemma ex_setting2 : setting ex_sha 61 3 2 5 ex_algo 3 [1; 4; 6] [1; 4; 3].
Proof.
  split; try lia; try exact ex_is_sha; try exact prime_61; try exact ex_algo_valid; try (vm_compute; split; congruence).
  - repeat constructor; lia.
  - repeat constructor; lia.
  - intros j Hj. do 3 (destruct j as [|j]; [vm_compute; lia|]). lia.
  - intros j Hj. do 3 (destruct j as [|j]; [vm_compute; lia|]). lia.
Qed.
Example C71_nonvacuous :
  exists verdict vs, simul_main (ex_rb2 99) ex_sha ex_rand 10 61 ex_factor ex_factor 4 ex_algo ex_args 0 = Ok verdict /\
    (verdict = true <-> NoDup vs /\ forall v, In v vs <-> common [1; 4; 6] [1; 4; 3] v) /\ In 4 vs.
Proof.
  destruct (C71_simulator_verdict (ex_rb2 99) ex_sha ex_rand 10 61 ex_factor ex_factor 4 ex_algo ex_args (mkOptions 3 6 3 2 3 2 0) 0 [1; 4; 6] [1; 4; 3] 4 (2 ^ 127 + 99) 5)
    as [verdict [vs [E [V [I _]]]]];
    [apply ex_rb2_ok|reflexivity|reflexivity|reflexivity|reflexivity|reflexivity|reflexivity|discriminate|vm_compute; reflexivity|exact ex_setting2|exact ex_distinct|exact ex_factor_ok|exact ex_factor_ok|vm_compute; reflexivity|].
  exists verdict, vs. split; [exact E|]. split; [exact V|]. apply I; [split; cbn; auto|left; lia].
Qed.
(** both verdicts occur, by computation: the temporary key decides *)
Example C71_both_verdicts :
  simul_main (ex_rb2 99) ex_sha ex_rand 10 61 ex_brute ex_brute 4 ex_algo ex_args 0 = Ok true /\
  simul_main (ex_rb2 102) ex_sha ex_rand 10 61 ex_brute ex_brute 4 ex_algo ex_args 0 = Ok false.
Proof. split; vm_compute; reflexivity. Qed.

(** *** C72 *)
(** What main accepts. *)
Definition legal (a : option_arg) : Prop :=
  match a with
  | OptB v | OptP v | OptN v | OptK v | OptL v => 0 < v
  | OptR v | OptJ v => 0 <= v
  | OptHelp => False
  end.
(** the last value given for an option, or the default *)
Definition setting_of (sel : option_arg -> option Z) (d : Z) (args : list option_arg) : Z :=
  fold_left (fun acc a => match sel a with Some v => v | None => acc end) args d.
Definition is_long (a : option_arg) : Prop :=
  match a with OptB v | OptP v | OptN v | OptK v | OptL v | OptR v | OptJ v => - 2 ^ 63 <= v < 2 ^ 63 | OptHelp => True end.
Definition sel_b a := match a with OptB v => Some v | _ => None end.
Definition sel_p a := match a with OptP v => Some v | _ => None end.
Definition sel_n a := match a with OptN v => Some v | _ => None end.
Definition sel_r a := match a with OptR v => Some v | _ => None end.
Definition sel_k a := match a with OptK v => Some v | _ => None end.
Definition sel_l a := match a with OptL v => Some v | _ => None end.
Lemma parse_ok args : forall o, Forall is_long args ->
  (Forall legal args -> exists o', parse o args = Ok o' /\ op_b o' = setting_of sel_b (op_b o) args /\ op_p o' = setting_of sel_p (op_p o) args /\
     op_n o' = setting_of sel_n (op_n o) args /\ op_r o' = setting_of sel_r (op_r o) args /\ op_k o' = setting_of sel_k (op_k o) args /\ op_l o' = setting_of sel_l (op_l o) args) /\
  (~ Forall legal args -> parse o args = Exit 1).
Proof.
  induction args as [|a args IH]; intros o HLo; cbn [parse].
  - split; [intros _; exists o; repeat split; reflexivity|]. intros H. exfalso. apply H. constructor.
  - inversion HLo as [|? ? HA HLs]; subst.
    assert (ST : (legal a -> exists o1, parse_step o a = Ok o1 /\ op_b o1 = setting_of sel_b (op_b o) [a] /\ op_p o1 = setting_of sel_p (op_p o) [a] /\
     op_n o1 = setting_of sel_n (op_n o) [a] /\ op_r o1 = setting_of sel_r (op_r o) [a] /\ op_k o1 = setting_of sel_k (op_k o) [a] /\ op_l o1 = setting_of sel_l (op_l o) [a]) /\
     (~ legal a -> parse_step o a = Exit 1)).
    { destruct a; cbn [legal is_long parse_step] in *; try (destruct (Z.leb_spec v 0)); try (destruct (Z.ltb_spec v 0)); (split; intros X; [try lia; try contradiction|try lia; try reflexivity; try (exfalso; lia)]);
        eexists; (split; [reflexivity|]); cbn; rewrite ?w64_small by (unfold M64; lia); repeat split; reflexivity. }
    destruct ST as [S1 S2]. split.
    + intros HF. inversion HF; subst. destruct (S1 ltac:(assumption)) as [o1 [E [E1 [E2 [E3 [E4 [E5 E6]]]]]]]. rewrite E. cbn [bind].
      destruct (proj1 (IH o1 HLs) ltac:(assumption)) as [o' [F [F1 [F2 [F3 [F4 [F5 F6]]]]]]]. exists o'. split; [exact F|].
      rewrite F1, F2, F3, F4, F5, F6, E1, E2, E3, E4, E5, E6. repeat split; reflexivity.
    + intros HF. assert (DL : legal a \/ ~ legal a) by (destruct a; cbn; lia).
      destruct DL as [DL|DL]; [|rewrite (S2 DL); reflexivity]. destruct (S1 DL) as [o1 [E _]]. rewrite E. cbn [bind]. apply (IH o1 HLs).
      intros X. apply HF. constructor; assumption.
Qed.
Theorem C72_options : forall rb sha rand fuel p canzass berlekamp hw al args draws, Forall is_long args ->
  let b := setting_of sel_b 32 args in let fb := setting_of sel_p 113 args in
  let n := setting_of sel_n 100000 args in let r := setting_of sel_r 1 args in
  (* refused with exit code 1: an illegal value, r > n, fewer field bits than data bits *)
  (~ Forall legal args \/ n < r \/ fb < b -> simul_main rb sha rand fuel p canzass berlekamp hw al args draws = Exit 1) /\
  (* anything else is accepted, data as wide as the field included *)
  (Forall legal args -> r <= n -> b <= fb -> exists o, parse default_options args = Ok o /\ check_options o = Ok o /\
     op_b o = b /\ op_p o = fb /\ op_n o = n /\ op_r o = r /\ op_k o = setting_of sel_k 10000 args /\ op_l o = setting_of sel_l 30 args).
Proof.
  intros rb sha rand fuel p canzass berlekamp hw al args draws HL b fb n r. destruct (parse_ok args default_options HL) as [P1 P2].
  assert (DL : Forall legal args \/ ~ Forall legal args).
  { clear. induction args as [|a l IH]; [left; constructor|]. assert (D : legal a \/ ~ legal a) by (destruct a; cbn; lia).
    destruct D as [D|D]; [|right; intros X; inversion X; contradiction]. destruct IH as [I|I]; [left; constructor; assumption|right; intros X; inversion X; contradiction]. }
  split.
  - intros H. unfold simul_main. destruct DL as [DL|DL]; [|rewrite (P2 DL); reflexivity].
    destruct (P1 DL) as [o [E [E1 [E2 [E3 [E4 _]]]]]]. rewrite E. cbn [bind]. unfold check_options. rewrite E1, E2, E3, E4. cbn [default_options op_b op_p op_n op_r]. fold b fb n r.
    destruct H as [H|[H|H]]; [contradiction| |].
    + destruct (Z.ltb_spec n r); [reflexivity|lia].
    + destruct (Z.ltb_spec n r); [reflexivity|]. destruct (Z.ltb_spec fb b); [reflexivity|lia].
  - intros HF HR HB. destruct (P1 HF) as [o [E [E1 [E2 [E3 [E4 [E5 E6]]]]]]]. exists o. split; [exact E|].
    cbn [default_options op_b op_p op_n op_r op_k op_l] in *. fold b in E1. fold fb in E2. fold n in E3. fold r in E4.
    split; [|rewrite E1, E2, E3, E4, E5, E6; repeat split; reflexivity]. unfold check_options. rewrite E1, E2, E3, E4.
    destruct (Z.ltb_spec n r); [lia|]. destruct (Z.ltb_spec fb b); [lia|]. reflexivity.
Qed.
Print Assumptions C72_options.
(** The data main makes: n numbers of the chosen width for each client, at
    least r different ones common; the reference is the exact intersection,
    even if the parts drawn separately overlap. *)
Theorem C72_generated_data : forall rb fuel n r bits k da db k', random_bits rb -> 0 <= bits < 2 ^ 63 -> (r <= n)%nat ->
  generate rb fuel n r bits k = Ok (da, db, k') ->
  length da = n /\ length db = n /\ Forall (fun v => 0 <= v < 2 ^ bits) da /\ Forall (fun v => 0 <= v < 2 ^ bits) db /\
  (exists c, increasing c /\ length c = r /\ forall v, In v c -> common da db v) /\
  exists cap, plain_intersect (Some da) n (Some db) n = Ok (cap, length cap) /\ increasing cap /\ forall v, In v cap <-> common da db v.
Proof.
  intros rb fuel n r bits k da db k' HR HB HN HG. destruct (generated_reference rb fuel n r bits k da db k' HR HB HN HG) as [L1 [L2 [L3 [L4 L5]]]].
  split; [exact L1|]. split; [exact L2|]. split; [exact L3|]. split; [exact L4|]. split; [|exact L5].
  destruct (generate_ok rb fuel n r bits k da db k' HR HB HN HG) as [c [ua [ub [-> [-> [IC [_ [_ [LC _]]]]]]]]]. exists c. split; [exact IC|]. split; [exact LC|].
  intros v Hv. split; apply in_or_app; left; exact Hv.
Qed.
Print Assumptions C72_generated_data.
(** the client's "set" may have a duplicate: 4 was drawn twice for Alice *)
Example C72_nonvacuous :
  generate (fun k b => nth k [1; 4; 4; 3; 5; 2] 0 mod 2 ^ b) 10 4 2 3 0 = Ok ([1; 4; 3; 4], [1; 4; 2; 5], 6%nat) /\
  plain_intersect (Some [1; 4; 3; 4]) 4 (Some [1; 4; 2; 5]) 4 = Ok ([1; 4], 2%nat) /\
  Forall legal [OptB 7; OptP 7] /\ simul_main (ex_rb2 0) ex_sha ex_rand 10 61 ex_brute ex_brute 4 ex_algo [OptN 3; OptR 4] 0 = Exit 1.
Proof. split; [vm_compute; reflexivity|]. split; [vm_compute; reflexivity|]. split; [repeat constructor|]. vm_compute. reflexivity. Qed.

(** *** C71, when the data do not fit *)
Theorem C71_overflow_exits : forall rb sha rand fuel p canzass berlekamp hw al args o draws da db k,
  random_bits rb -> parse default_options args = Ok o -> check_options o = Ok o -> num_bits p = op_p o ->
  let L := Z.to_nat (op_k o) in let h := Z.to_nat (op_l o) in let b := op_b o in
  0 < op_n o -> 0 < op_k o -> is_sha sha -> 2 < p -> num_bits p < 2 ^ 63 -> algo_valid al -> 0 <= b < num_bits p ->
  generate rb fuel (Z.to_nat (op_n o)) (Z.to_nat (op_r o)) b draws = Ok (da, db, k) ->
  ~ (fits al L h (padded_data p b da) /\ fits al L h (padded_data p b db)) ->
  simul_main rb sha rand fuel p canzass berlekamp hw al args draws = Exit 1.
Proof.
  intros rb sha rand fuel p canzass berlekamp hw al args o draws da db k HR HO HC HW L h b HN HK HSh HOdd HLong HAl HB HG HF.
  assert (HRN : op_r o <= op_n o). { unfold check_options in HC. destruct (Z.ltb_spec (op_n o) (op_r o)); [discriminate|lia]. }
  destruct (generated_reference rb fuel (Z.to_nat (op_n o)) (Z.to_nat (op_r o)) b draws da db k HR ltac:(lia) ltac:(lia) HG) as [LA [LB [DA [DB _]]]].
  assert (EQ : forall raw, Forall (fun v => 0 <= v < 2 ^ b) raw -> map (field_value p b) raw = padded_data p b raw).
  { intros raw F. apply map_ext_in. intros v Hv. rewrite Forall_forall in F. apply (field_value_padded p HOdd HLong (fun _ => 0) 0%nat); [assumption|apply F; exact Hv]. }
  unfold simul_main. rewrite HO. cbn [bind]. rewrite HC. cbn [bind]. fold L h b. rewrite HG. cbn [bind].
  rewrite simulate_overflow; [reflexivity|exact HSh|exact HOdd|exact HLong|exact HAl|unfold L; lia|discriminate|discriminate|discriminate
    |intros X; rewrite X in LA; cbn [length] in LA; lia|intros X; rewrite X in LB; cbn [length] in LB; lia|].
  rewrite !EQ by assumption. exact HF.
Qed.
Print Assumptions C71_overflow_exits.
(** capacity 1 is not enough for this data *)
Example C71_overflow_nonvacuous : ~ (fits ex_algo 2 1 (padded_data 61 3 [1; 4; 6]) /\ fits ex_algo 2 1 (padded_data 61 3 [1; 4; 3])) /\
  simul_main (ex_rb2 99) ex_sha ex_rand 10 61 ex_factor ex_factor 4 ex_algo [OptB 3; OptP 6; OptN 3; OptR 2; OptK 2; OptL 1] 0 = Exit 1.
Proof.
  assert (H : ~ (fits ex_algo 2 1 (padded_data 61 3 [1; 4; 6]) /\ fits ex_algo 2 1 (padded_data 61 3 [1; 4; 3]))).
  { intros [X Y]. pose proof (X 0%nat ltac:(lia)) as X0. pose proof (X 1%nat ltac:(lia)) as X1. vm_compute in X0, X1. lia. }
  split; [exact H|].
  eapply (C71_overflow_exits (ex_rb2 99) ex_sha ex_rand 10 61 ex_factor ex_factor 4 ex_algo _ (mkOptions 3 6 3 2 2 1 0) 0 [1; 4; 6] [1; 4; 3] 4);
    [apply ex_rb2_ok|reflexivity|reflexivity|reflexivity|reflexivity|reflexivity|exact ex_is_sha|lia|reflexivity|exact ex_algo_valid|split; [discriminate|reflexivity]|vm_compute; reflexivity|exact H].
Qed.

(** *** C07 in the simulator: data as wide as the field *)
(** main accepts plain-set bits equal to the field bits; the run then ends with
    an empty result, and the verdict is "correct" only if nothing was common. *)
Theorem C07_simulator : forall rb sha rand fuel p canzass berlekamp hw al args o draws da db k key k',
  random_bits rb -> parse default_options args = Ok o -> check_options o = Ok o -> num_bits p = op_p o ->
  let L := Z.to_nat (op_k o) in let h := Z.to_nat (op_l o) in let D := (2 * h + 1)%nat in let b := op_b o in
  b = num_bits p ->
  op_l o < 2 ^ 62 -> 0 < op_n o -> 0 < op_k o -> 0 <= op_l o ->
  is_sha sha -> prime p -> 2 < p -> num_bits p < 2 ^ 63 -> algo_valid al ->
  generate rb fuel (Z.to_nat (op_n o)) (Z.to_nat (op_r o)) b draws = Ok (da, db, k) ->
  let stored raw := map (fun v => zeroPad v (w64 (num_bits p - b - 1)) mod p) raw in
  fits al L h (stored da) -> fits al L h (stored db) -> distinct_points sha p D -> factors_correctly p canzass -> factors_correctly p berlekamp ->
  draw_key (fun i => rb i 128) fuel k = Ok (key, k') ->
  exists verdict, simul_main rb sha rand fuel p canzass berlekamp hw al args draws = Ok verdict /\
    (verdict = true <-> forall v, ~ common da db v).
Proof.
  intros rb sha rand fuel p canzass berlekamp hw al args o draws da db k key k' HR HO HC HW L h D b EB HL1 HN HK HL0 HSh HPr HOdd HLong HAl HG stored FA FB ND F1 F2 HDK.
  assert (HRN : op_r o <= op_n o). { unfold check_options in HC. destruct (Z.ltb_spec (op_n o) (op_r o)); [discriminate|lia]. }
  pose proof (num_bits_nonneg p) as NBN.
  destruct (generated_reference rb fuel (Z.to_nat (op_n o)) (Z.to_nat (op_r o)) b draws da db k HR ltac:(lia) ltac:(lia) HG) as [LA [LB [_ [_ [cap [ER [IC VC]]]]]]].
  assert (KR : 0 <= key < 2 ^ 128).
  { clear - HDK HR. revert k HDK. induction fuel as [|f IH]; intros k HDK; [discriminate|]. cbn [draw_key] in HDK. destruct (_ <? _); [exact (IH _ HDK)|].
    apply Ok_inj in HDK. injection HDK as <- _. apply HR. lia. }
  destruct (simulate_session_gen sha rand fuel p canzass berlekamp hw (fun i => rb i 128) L h D al b id_alice id_bob id_cloud secret_alice secret_bob da db 1 0 k 0 key k')
    as [posB X]; [exact HSh|exact HOdd|exact HLong|exact HAl|unfold L; lia|unfold D; lia|exact FA|exact FB|discriminate|discriminate|discriminate|repeat constructor; lia|repeat constructor; lia
      |intros Y; rewrite Y in LA; cbn [length] in LA; lia|intros Y; rewrite Y in LB; cbn [length] in LB; lia|vm_compute; split; [discriminate|reflexivity]|exact HDK|exact KR|].
  destruct (C07_wide_data sha p rand fuel hw L h D al b da db secret_alice secret_bob key 1 0 posB 0 canzass berlekamp HPr HOdd HLong HSh HAl ltac:(unfold L; lia) ltac:(unfold D; lia) F1 F2 EB)
    as [_ [_ [_ [_ W]]]]. destruct (W FA FB ND) as [r E]. destruct (X r [] E) as [w' [S1 [S2 _]]].
  destruct (check_ok (Some cap) (length cap) cap [] ltac:(split; auto)) as [verdict [EV VV]]. exists verdict. split.
  { unfold simul_main. rewrite HO. cbn [bind]. rewrite HC. cbn [bind]. fold L h b. rewrite HG. cbn [bind].
    replace (Z.to_nat (w64 (2 * op_l o + 1))) with D.
    2:{ rewrite w64_small by (unfold M64; lia). unfold D, h. lia. }
    change DEFAULT_KEY_BITSIZE with 128. rewrite S1. cbn [bind]. rewrite ER. cbn [bind]. rewrite S2. cbn [bind]. exact EV. }
  rewrite VV. split.
  - intros [HL _] v Hv. apply VC in Hv. destruct cap; [contradiction|discriminate].
  - intros HX. destruct cap as [|v cap]; [split; [reflexivity|tauto]|]. exfalso. apply (HX v). apply VC. left. reflexivity.
Qed.
Print Assumptions C07_simulator.
(** 6-bit data in the 6-bit field: 10 and 40 are common, the verdict is "WRONG" *)
Example C07_simulator_nonvacuous :
  let rb k b := (if b =? 128 then 2 ^ 127 + 99 else nth k [10; 40; 6; 33] 0) mod 2 ^ b in
  let args := [OptB 6; OptP 6; OptN 3; OptR 2; OptK 3; OptL 3] in
  generate rb 10 3 2 6 0 = Ok ([10; 40; 6], [10; 40; 33], 4%nat) /\
  simul_main rb ex_sha ex_rand 10 61 ex_brute ex_brute 4 ex_algo args 0 = Ok false.
Proof. split; vm_compute; reflexivity. Qed.
