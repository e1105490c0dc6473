(** Properties C39-C42: class ZZpPolynomials. *)
From Verif Require Import Base Spec Lib NtlMiss PolyModel PolySpec PolyProofs InterpProofs FactorExists PolyObjProofs.
From Coq Require Import Znumtheory Permutation Lia.

(** C39: interpolation of the values of a polynomial of degree < n at n
    distinct points gives the polynomial back; a repeated point aborts. *)
Theorem C39_interpolation_recovers : forall p x f, prime p ->
  Forall (fun a => 0 <= a < p) x -> NoDup x -> is_poly p f -> (length f <= length x)%nat ->
  interpolate p x (map (value p f) x) = Ok f.
Proof. intros. apply interpolate_recovers; assumption. Qed.
Print Assumptions C39_interpolation_recovers.

(** ... and through the class: the j-th polynomial of the object after
    [interpolate] without monicise is the j-th one *)
Theorem C39_class_interpolates : forall p pad x fs, prime p ->
  Forall (fun a => 0 <= a < p) x -> NoDup x ->
  Forall (fun f => is_poly p f /\ (length f <= length x)%nat) fs -> fs <> [] ->
  exists o, interpolate_all p (new_polys pad) x (map (fun f => map (value p f) x) fs) (length fs) false = Ok o /\
    pl_polys o = Some fs.
Proof.
  intros p pad x fs HP F ND HF N. unfold interpolate_all. cbn [new_polys pl_n].
  destruct (Nat.eqb_spec 0 (length fs)) as [E|_]; [destruct fs; [congruence|discriminate]|].
  set (ys := map (fun f => map (value p f) x) fs).
  assert (E : for_up (length fs) 0 (fun j ps => do y <- aget ys j; do f <- interpolate p x y; do l <- pset ps j f; Ok (Some l)) (Some (repeat [] (length fs)))
    = do vs <- mapM (fun j => do y <- aget ys j; interpolate p x y) (seq 0 (length fs)); Ok (Some vs)).
  { rewrite <- (fill_loop_some _ (length fs) (repeat [] (length fs))) by apply repeat_length. apply for_up_ext. intros j ps _. destruct (aget ys j); reflexivity. }
  rewrite E.
  assert (G : mapM (fun j => do y <- aget ys j; interpolate p x y) (seq 0 (length fs)) = Ok fs).
  { rewrite (mapM_ok _ (fun j => nth j fs [])).
    - f_equal. clear. induction fs as [|f fs IH]; [reflexivity|]. cbn [length seq map]. f_equal. rewrite <- seq_shift, map_map. exact IH.
    - intros j Hj. apply in_seq in Hj. destruct (nth_error fs j) as [f|] eqn:Ef; [|apply nth_error_None in Ef; lia].
      assert (Ey : aget ys j = Ok (map (value p f) x)).
      { apply aget_ok. unfold ys. rewrite nth_error_map, Ef. reflexivity. }
      rewrite Ey. cbn [bind]. rewrite (nth_error_nth _ _ [] Ef). rewrite Forall_forall in HF.
      destruct (HF f (nth_error_In _ _ Ef)) as [Pf Lf]. apply interpolate_recovers; assumption. }
  rewrite G. cbn [bind]. eexists. split; reflexivity.
Qed.
Print Assumptions C39_class_interpolates.

Theorem C39_repeated_point_aborts : forall p x y, prime p ->
  Forall (fun a => 0 <= a < p) x -> length x = length y -> ~ NoDup x -> interpolate p x y = Abort.
Proof. intros. apply interpolate_dup; assumption. Qed.
Print Assumptions C39_repeated_point_aborts.

Lemma prime_7 : prime 7.
Proof.
  apply prime_intro; [lia|]. intros n Hn. apply Zgcd_1_rel_prime.
  assert (n = 1 \/ n = 2 \/ n = 3 \/ n = 4 \/ n = 5 \/ n = 6) as [->|[->|[->|[->|[->| ->]]]]] by lia; reflexivity.
Qed.
Example C39_nonvacuous :
  interpolate 7 [1; 2; 4] (map (value 7 [3; 0; 2]) [1; 2; 4]) = Ok [3; 0; 2] /\ interpolate 7 [1; 2; 1] [3; 4; 5] = Abort.
Proof. split; reflexivity. Qed.

(** C40: on an object that was only used through the one-shot call, for the
    values of non-zero polynomials, the result is the concatenation, polynomial
    by polynomial, of the padded roots; for every pair of correct factoring
    algorithms and every algorithm code. *)
Theorem C40_exactly_the_padded_roots : forall p canzass berlekamp pad o k0 x ys fs pfa,
  prime p -> factors_correctly p canzass -> factors_correctly p berlekamp ->
  one_shot_object p canzass berlekamp pad o -> 0 <= pad < 2 ^ 63 ->
  Forall (fun a => 0 <= a < p) x -> NoDup x ->
  Forall (fun f => is_poly p f /\ f <> [] /\ (length f <= length x)%nat) fs ->
  (forall j f, nth_error fs j = Some f -> nth_error ys j = Some (map (value p f) x)) ->
  exists o' vss, findIntersection p canzass berlekamp k0 o x ys (length fs) pfa = Ok (o', concat vss) /\
    Forall2 (padded_roots p pad) fs vss.
Proof.
  intros p cz bl pad o k0 x ys fs pfa HP HC HB HO Hpad F ND HF HY. destruct (one_shot_usable _ _ _ _ _ HO) as [<- U].
  apply find_padded; auto.
Qed.
Print Assumptions C40_exactly_the_padded_roots.

(** every value vector is the value vector of one polynomial of that degree *)
Theorem C40_every_row_is_covered : forall p x y, prime p ->
  Forall (fun a => 0 <= a < p) x -> NoDup x -> length x = length y -> Forall (fun a => 0 <= a < p) y ->
  exists f, is_poly p f /\ (length f <= length x)%nat /\ y = map (value p f) x.
Proof.
  intros p x y HP F ND L FY. destruct (interpolate_ok p HP x y L F ND) as [f [_ [Pf [Lf G]]]].
  exists f. split; [exact Pf|split; [exact Lf|]]. apply (nth_ext _ _ 0 0); [rewrite map_length; lia|]. intros i Hi.
  destruct (nth_error y i) as [b|] eqn:Eb; [|apply nth_error_None in Eb; lia].
  destruct (nth_error x i) as [a|] eqn:Ea; [|apply nth_error_None in Ea; lia].
  assert (E : nth_error (map (value p f) x) i = Some (value p f a)) by (rewrite nth_error_map, Ea; reflexivity).
  rewrite (nth_error_nth _ _ 0 Eb), (nth_error_nth _ _ 0 E). rewrite value_ev. pose proof (G i a b Ea Eb) as C. unfold cong in C. rewrite C.
  rewrite Forall_forall in FY. symmetry. apply Z.mod_small. apply FY. eapply nth_error_In. exact Eb.
Qed.
Print Assumptions C40_every_row_is_covered.

(** the excluded case: a zero row makes the call abort inside NTL *)
Theorem C40_zero_row_aborts : forall p canzass berlekamp pad o k0 x ys fs n pfa,
  prime p -> factors_correctly p canzass -> factors_correctly p berlekamp ->
  one_shot_object p canzass berlekamp pad o ->
  Forall (fun a => 0 <= a < p) x -> NoDup x -> (length fs < n)%nat ->
  Forall (fun f => is_poly p f /\ f <> [] /\ (length f <= length x)%nat) fs ->
  (forall j f, nth_error fs j = Some f -> nth_error ys j = Some (map (value p f) x)) ->
  nth_error ys (length fs) = Some (map (fun _ => 0) x) ->
  findIntersection p canzass berlekamp k0 o x ys n pfa = Abort.
Proof.
  intros p cz bl pad o k0 x ys fs n pfa HP HC HB HO F ND LN HF HY HZ. destruct (one_shot_usable _ _ _ _ _ HO) as [_ U].
  eapply find_zero_poly; eauto.
Qed.
Print Assumptions C40_zero_row_aborts.

(** The hypotheses can be met: over the integers modulo 7 a correct factoring
    function exists, and (X-4)(X-2)(X-3) with pad 1 and f = X-1. *)
Example C40_nonvacuous : exists canzass, factors_correctly 7 canzass /\
  let fs := [build_from_roots 7 [4; 2; 3; 2]; build_from_roots 7 [1]] in
  let x := [0; 1; 2; 3; 4] in let ys := map (fun f => map (value 7 f) x) fs in
  NoDup x /\ Forall (fun f => is_poly 7 f /\ f <> [] /\ (length f <= length x)%nat) fs /\
  exists o' vs1, findIntersection 7 canzass canzass 0 (new_polys 1) x ys 2 PFA_CANZASS = Ok (o', vs1) /\ Permutation vs1 [2; 1].
Proof.
  exists (factor 7 prime_7). pose proof (factor_correct 7 prime_7) as FC. split; [exact FC|]. cbv zeta.
  set (fs := [build_from_roots 7 [4; 2; 3; 2]; build_from_roots 7 [1]]). set (x := [0; 1; 2; 3; 4]).
  assert (NX : NoDup x) by (unfold x; repeat constructor; cbn; lia).
  assert (HF : Forall (fun f => is_poly 7 f /\ f <> [] /\ (length f <= length x)%nat) fs).
  { unfold fs. repeat constructor; cbn; try lia; discriminate. }
  split; [exact NX|]. split; [exact HF|].
  destruct (C40_exactly_the_padded_roots 7 (factor 7 prime_7) (factor 7 prime_7) 1 (new_polys 1) 0 x
     (map (fun f => map (value 7 f) x) fs) fs PFA_CANZASS prime_7 FC FC (oso_new _ _ _ _) ltac:(lia)) as [o' [vss [E H]]].
  { unfold x. repeat constructor; lia. }
  { exact NX. }
  { exact HF. }
  { intros j f Hj. rewrite nth_error_map, Hj. reflexivity. }
  exists o', (concat vss). split; [exact E|].
  inversion H as [|f1 vs1 r1 s1 H1 R1 X1 Y1]; subst. inversion R1 as [|f2 vs2 r2 s2 H2 R2 X2 Y2]; subst. inversion R2; subst.
  cbn [concat]. rewrite app_nil_r.
  assert (A1 : Permutation vs1 [2; 1]).
  { eapply padded_perm; [exact H1|]. exists [4; 2]. split; [repeat constructor; cbn; lia|]. split; [|reflexivity]. intros z. split.
    - intros [<-|[<-|[]]]; (split; [split; [lia|reflexivity]|]); (split; [|lia]); [exists 2|exists 1]; reflexivity.
    - intros [[Hz V] [[q Hq] _]].
      assert (z = 0 \/ z = 1 \/ z = 2 \/ z = 3 \/ z = 4 \/ z = 5 \/ z = 6) as C by lia.
      destruct C as [->|[->|[->|[->|[->|[->| ->]]]]]]; try (exfalso; lia); try (cbn; auto; fail); exfalso; vm_compute in V; discriminate V. }
  assert (A2 : Permutation vs2 []).
  { eapply padded_perm; [exact H2|]. exists []. split; [constructor|]. split; [|reflexivity]. intros z. split; [intros []|].
    intros [[Hz V] [[q Hq] _]].
    assert (z = 0 \/ z = 1 \/ z = 2 \/ z = 3 \/ z = 4 \/ z = 5 \/ z = 6) as C by lia.
    destruct C as [->|[->|[->|[->|[->|[->| ->]]]]]]; try (exfalso; lia); exfalso; vm_compute in V; discriminate V. }
  apply Permutation_sym, Permutation_nil in A2. subst vs2. rewrite app_nil_r. exact A1.
Qed.

(** C41: the three-call form and the one-shot form on a fresh object.  With
    the same results of the factoring calls, one succeeds iff the other does,
    and with the same vector. *)
Theorem C41_two_step_one_shot : forall p canzass berlekamp k0 pad x ys n pfa vs,
  (exists o1 o2 o3, interpolate_all p (new_polys pad) x ys n true = Ok o1 /\
     factorise canzass berlekamp k0 o1 pfa = Ok o2 /\ findIntersection0 p o2 = Ok (o3, vs)) <->
  (exists o, findIntersection p canzass berlekamp k0 (new_polys pad) x ys n pfa = Ok (o, vs)).
Proof.
  intros p cz bl k0 pad x ys n pfa vs. rewrite <- two_step_eq. unfold two_step. split.
  - intros [o1 [o2 [o3 [E1 [E2 E3]]]]]. exists o3. rewrite E1. cbn [bind]. rewrite E2. cbn [bind]. exact E3.
  - intros [o E]. apply bind_ok in E. destruct E as [o1 [E1 E]]. apply bind_ok in E. destruct E as [o2 [E2 E]]. exists o1, o2, o. auto.
Qed.
Print Assumptions C41_two_step_one_shot.

(** ... and with different random choices (k0, k1) or algorithm codes, both
    succeed and the vectors have the same elements. *)
Theorem C41_same_up_to_order : forall p canzass berlekamp k0 k1 pad x ys fs pfa pfa1,
  prime p -> factors_correctly p canzass -> factors_correctly p berlekamp -> 0 <= pad < 2 ^ 63 ->
  Forall (fun a => 0 <= a < p) x -> NoDup x ->
  Forall (fun f => is_poly p f /\ f <> [] /\ (length f <= length x)%nat) fs ->
  (forall j f, nth_error fs j = Some f -> nth_error ys j = Some (map (value p f) x)) ->
  exists o1 o2 o3 vs o ws,
    interpolate_all p (new_polys pad) x ys (length fs) true = Ok o1 /\
    factorise canzass berlekamp k0 o1 pfa = Ok o2 /\ findIntersection0 p o2 = Ok (o3, vs) /\
    findIntersection p canzass berlekamp k1 (new_polys pad) x ys (length fs) pfa1 = Ok (o, ws) /\
    Permutation vs ws.
Proof.
  intros p cz bl k0 k1 pad x ys fs pfa pfa1 HP HC HB Hpad F ND HF HY.
  destruct (C40_exactly_the_padded_roots p cz bl pad (new_polys pad) k0 x ys fs pfa HP HC HB (oso_new _ _ _ _) Hpad F ND HF HY) as [o [vss [E V]]].
  destruct (C40_exactly_the_padded_roots p cz bl pad (new_polys pad) k1 x ys fs pfa1 HP HC HB (oso_new _ _ _ _) Hpad F ND HF HY) as [o' [wss [E' W]]].
  destruct (proj2 (C41_two_step_one_shot p cz bl k0 pad x ys (length fs) pfa (concat vss)) (ex_intro _ o E)) as [o1 [o2 [o3 [E1 [E2 E3]]]]].
  exists o1, o2, o3, (concat vss), o', (concat wss). repeat (split; [assumption|]). eapply concat_perm; eassumption.
Qed.
Print Assumptions C41_same_up_to_order.

(** a factoring table good enough for one run, to see both forms succeed *)
Definition demo_fact (_ : nat) (_ : list Z) : list (list Z * Z) := [([3; 1], 1); ([5; 1], 2)].
Definition demo_one_shot : res (list Z) :=
  do r <- findIntersection 7 demo_fact demo_fact 0 (new_polys 1) [0; 1; 2; 3] [[5; 4; 0; 2]] 1 0; Ok (snd r).
Definition demo_three_calls : res (list Z) :=
  do o1 <- interpolate_all 7 (new_polys 1) [0; 1; 2; 3] [[5; 4; 0; 2]] 1 true; do o2 <- factorise demo_fact demo_fact 0 o1 7;
  do r <- findIntersection0 7 o2; Ok (snd r).
Example C41_nonvacuous : demo_one_shot = Ok [2; 1] /\ demo_three_calls = Ok [2; 1].
Proof. split; vm_compute; reflexivity. Qed.

(** C42: mixing the forms *)
Theorem C42_interpolate_then_one_shot : forall p canzass berlekamp k0 pad x ys n pfa o1, (0 < n)%nat ->
  interpolate_all p (new_polys pad) x ys n true = Ok o1 ->
  findIntersection p canzass berlekamp k0 o1 x ys n pfa = UB NullDeref.
Proof. intros. eapply mix_null; eassumption. Qed.
Print Assumptions C42_interpolate_then_one_shot.

Theorem C42_stale_factors : forall p canzass berlekamp k0 pad x ys n pfa o1 o2 x' ys' m o3, (0 < n)%nat ->
  interpolate_all p (new_polys pad) x ys n true = Ok o1 -> factorise canzass berlekamp k0 o1 pfa = Ok o2 ->
  interpolate_all p o2 x' ys' m true = Ok o3 -> (n < m)%nat ->
  findIntersection0 p o3 = UB OutOfBounds.
Proof. intros p cz bl k0 pad x ys n pfa o1 o2 x' ys' m o3 N E1 E2 E3 L. apply (mix_stale p cz bl k0 pad x ys n pfa o1 o2 x' ys' m o3 N E1 E2 E3). exact L. Qed.
Print Assumptions C42_stale_factors.

(** ... and with m <= n the vector is the one of the first m of the OLD
    polynomials: for m = n exactly the answer to the previous question *)
Theorem C42_stale_result : forall p canzass berlekamp k0 pad x ys n pfa o1 o2 x' ys' o3 o4 vs, (0 < n)%nat ->
  interpolate_all p (new_polys pad) x ys n true = Ok o1 -> factorise canzass berlekamp k0 o1 pfa = Ok o2 ->
  findIntersection0 p o2 = Ok (o4, vs) ->
  interpolate_all p o2 x' ys' n true = Ok o3 ->
  exists o5, findIntersection0 p o3 = Ok (o5, vs).
Proof.
  intros p cz bl k0 pad x ys n pfa o1 o2 x' ys' o3 o4 vs N E1 E2 E0 E3.
  destruct (mix_stale p cz bl k0 pad x ys n pfa o1 o2 x' ys' n o3 N E1 E2 E3) as [_ H]. destruct (H ltac:(lia)) as [ds [D [o5 E]]].
  assert (P : pl_n o2 = n /\ pl_padsize o2 = pad).
  { unfold interpolate_all in E1. apply bind_ok in E1. destruct E1 as [ps [_ E1]]. unfold makeMonic in E1. apply bind_ok in E1. destruct E1 as [ps' [_ E1]].
    apply Ok_inj in E1. subst o1. unfold factorise in E2. cbn [pl_polys pl_n pl_padsize] in E2. destruct ps'; [|apply Ok_inj in E2; subst o2; discriminate].
    apply bind_ok in E2. destruct E2 as [fl [_ E2]]. apply Ok_inj in E2. subst o2. cbn. auto. }
  destruct P as [P1 P2].
  exists o5. rewrite E. f_equal. f_equal. unfold findIntersection0 in E0. rewrite D, P1, P2 in E0.
  apply bind_ok in E0. destruct E0 as [roots [L E0]]. apply Ok_inj in E0. assert (roots = vs) by congruence. subst roots.
  destruct (Nat.le_gt_cases n (length ds)) as [Le|Gt].
  - rewrite (find0_loop p cz bl pad ds n 0 []) in L by (cbn [Nat.add]; exact Le). apply Ok_inj in L. rewrite <- L. rewrite fold_select. reflexivity.
  - exfalso. replace n with (length ds + S (n - length ds - 1))%nat in L by lia. rewrite for_up_app, (find0_loop p cz bl pad ds (length ds) 0 []) in L by (cbn [Nat.add]; apply le_n). cbn [bind for_up] in L.
    unfold aget in L. replace (nth_error ds (0 + length ds)) with (@None (list (list Z * Z))) in L by (symmetry; apply nth_error_None; lia). discriminate.
Qed.
Print Assumptions C42_stale_result.

Definition demo_stale : res zzppoly :=
  do o1 <- interpolate_all 7 (new_polys 1) [0; 1] [[3; 4]] 1 true; do o2 <- factorise demo_fact demo_fact 0 o1 0;
  interpolate_all 7 o2 [0; 1] [[3; 4]; [1; 2]] 2 true.
Definition demo_mixed : res (zzppoly * list Z) :=
  do o1 <- interpolate_all 7 (new_polys 1) [0; 1] [[3; 4]] 1 true;
  findIntersection 7 demo_fact demo_fact 0 o1 [0; 1] [[3; 4]] 1 0.
Example C42_nonvacuous : (exists o3, demo_stale = Ok o3 /\ findIntersection0 7 o3 = UB OutOfBounds) /\ demo_mixed = UB NullDeref.
Proof. split; [exists (match demo_stale with Ok o => o | _ => new_polys 0 end); split; vm_compute; reflexivity|vm_compute; reflexivity]. Qed.

(** *** C82: the routine the caller names is the one that is used.  Nothing is
    assumed about the routines. *)
Definition named_routine (canzass berlekamp : nat -> list Z -> list (list Z * Z)) (pfa : Z) : nat -> list Z -> list (list Z * Z) :=
  if Z.eq_dec pfa 1 then berlekamp else canzass.
Theorem C82_named_routine : forall p canzass berlekamp k0 o x ys n pfa,
  let fact := named_routine canzass berlekamp pfa in
  findIntersection p canzass berlekamp k0 o x ys n pfa = findIntersection p fact fact k0 o x ys n pfa /\
  factorise canzass berlekamp k0 o pfa = factorise fact fact k0 o pfa.
Proof.
  intros p cz bk k0 o x ys n pfa. cbv zeta. unfold findIntersection, factorise, find_step, choose, named_routine.
  change PFA_BERLEKAMP with 1. destruct (Z.eq_dec pfa 1) as [->|N]; [split; reflexivity|].
  rewrite (proj2 (Z.eqb_neq pfa 1) N). split; reflexivity.
Qed.
Print Assumptions C82_named_routine.

(** two routines that disagree: the choice shows *)
Definition other_fact (k : nat) (f : list Z) : list (list Z * Z) := [].
Definition demo_named (pfa : Z) : list Z :=
  match findIntersection 7 demo_fact other_fact 0 (new_polys 1) [0; 1] [[3; 4]] 1 pfa with Ok (_, vs) => vs | _ => [-1] end.
Example C82_nonvacuous : demo_named 1 = [] /\ demo_named 0 = demo_named 5 /\ demo_named 0 <> [].
Proof. vm_compute. repeat split; discriminate. Qed.
