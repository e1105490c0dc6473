(** Proofs about generators with failing allocations. *)
From Verif Require Import Base Spec Lib NtlMiss PRFModel PRFSpec PRFProofs PrfAllocModel PrfAllocSpec.

Lemma granted_0 ok t : granted ok t 0. Proof. intros k H. lia. Qed.
Lemma granted_split ok t a b : granted ok t (a + b) <-> granted ok t a /\ granted ok (t + a) b.
Proof.
  unfold granted. split.
  - intros H. split; intros k Hk; apply H; lia.
  - intros [H1 H2] k Hk. destruct (le_lt_dec (t + a) k); [apply H2|apply H1]; lia.
Qed.
Lemma granted_1 ok t : granted ok t 1 <-> ok t = true.
Proof.
  unfold granted. split; intros H; [apply H; lia|]. intros k Hk. replace k with t by lia. exact H.
Qed.
Lemma granted_dec ok t n : {granted ok t n} + {~ granted ok t n}.
Proof.
  induction n as [|n IH]; [left; apply granted_0|].
  destruct (ok (t + n)%nat) eqn:E.
  - destruct IH as [G|G].
    + left. replace (S n) with (n + 1)%nat by lia. apply granted_split. split; [exact G|]. apply granted_1, E.
    + right. intros X. apply G. intros k Hk. apply X. lia.
  - right. intros X. rewrite X in E by lia. discriminate.
Qed.
Lemma request_yes ok t : granted ok t 1 -> request ok t = Ok (S t).
Proof. intros G. apply granted_1 in G. unfold request. rewrite G. reflexivity. Qed.
Lemma request_no ok t : ~ granted ok t 1 -> request ok t = Exit 2.
Proof. intros G. unfold request. destruct (ok t) eqn:E; [exfalso; apply G, granted_1, E|reflexivity]. Qed.

Section One.
Variable ok : nat -> bool.
Variable sha : list Z -> list Z.
Hypothesis HS : is_sha sha.
Variable rand : nat -> Z.

Definition need (b : bool) : nat := if b then 1%nat else 0%nat.
Definition needs (st : prf) (seed bits : Z) : nat :=
  (need (p_genLength st <? out_bytes bits)%Z + need (p_hashInputSize st <? in_bytes seed)%Z)%nat.
(** the input buffer never has a size between 1 and 19 *)
Definition sized (st : prf) : Prop := p_hashInputSize st = 0 \/ 20 <= p_hashInputSize st.

Lemma in_bytes_ltb st seed : sized st -> (p_hashInputSize st <? bytes_of_zz seed + 8) = (p_hashInputSize st <? in_bytes seed).
Proof.
  intros H. unfold in_bytes. rewrite byte_count_eq.
  assert (0 <= bytes_of_zz seed) by (rewrite <- byte_count_eq; lia).
  destruct H as [H|H]; apply eq_true_iff_eq; rewrite !Z.ltb_lt; lia.
Qed.
Lemma in_bytes_size seed : (if bytes_of_zz seed + 8 <? hash_size then hash_size else bytes_of_zz seed + 8) = in_bytes seed.
Proof. unfold in_bytes, hash_size. rewrite byte_count_eq. destruct (Z.ltb_spec (bytes_of_zz seed + 8) 20); lia. Qed.

(** what the requests of a call do, and what follows them *)
Lemma generate_a_split fuel st t seed index bits : bits_ok bits -> sized st ->
  generate_a ok sha rand fuel st t seed index bits =
  do t <- (if p_genLength st <? out_bytes bits then request ok t else Ok t);
  do t <- (if p_hashInputSize st <? in_bytes seed then request ok t else Ok t);
  do (st', v) <- generate sha rand fuel st seed index bits;
  Ok (st', v, t).
Proof.
  intros [B0 B1] SZ. rewrite generate_split. unfold generate_a, after_n. cbv zeta.
  destruct (Z.eqb_spec bits 0) as [C|_]; [lia|]. rewrite bytes_of_bits_val by lia. cbn [bind].
  fold (out_bytes bits). rewrite (in_bytes_ltb st seed SZ), in_bytes_size.
  destruct (p_genLength st <? out_bytes bits).
  - destruct (request ok t) as [t1| | | |]; cbn [bind]; try reflexivity.
    destruct (p_hashInputSize st <? in_bytes seed).
    + destruct (request ok t1) as [t2| | | |]; cbn [bind]; try reflexivity.
      repeat (match goal with |- bind ?x _ = bind (bind ?x _) _ => destruct x; cbn [bind]; try reflexivity end).
    + cbn [bind].
      repeat (match goal with |- bind ?x _ = bind (bind ?x _) _ => destruct x; cbn [bind]; try reflexivity end).
  - cbn [bind]. destruct (p_hashInputSize st <? in_bytes seed).
    + destruct (request ok t) as [t2| | | |]; cbn [bind]; try reflexivity.
      repeat (match goal with |- bind ?x _ = bind (bind ?x _) _ => destruct x; cbn [bind]; try reflexivity end).
    + cbn [bind].
      repeat (match goal with |- bind ?x _ = bind (bind ?x _) _ => destruct x; cbn [bind]; try reflexivity end).
Qed.

(** the sizes after a call *)
Lemma generate_sizes fuel st seed index bits st' v : bits_ok bits -> sized st ->
  generate sha rand fuel st seed index bits = Ok (st', v) ->
  p_genLength st' = Z.max (p_genLength st) (out_bytes bits) /\
  p_hashInputSize st' = Z.max (p_hashInputSize st) (in_bytes seed).
Proof.
  intros [B0 B1] SZ E. rewrite generate_split in E. unfold after_n in E. cbv zeta in E.
  destruct (Z.eqb_spec bits 0) as [C|_]; [lia|]. rewrite bytes_of_bits_val in E by lia. cbn [bind] in E.
  fold (out_bytes bits) in E. rewrite (in_bytes_ltb st seed SZ), in_bytes_size in E.
  repeat (match type of E with bind ?x _ = Ok _ => destruct x; cbn [bind] in E; try discriminate E end).
  apply Ok_inj in E. injection E as <- _. cbn [p_genLength p_hashInputSize].
  destruct (Z.ltb_spec (p_genLength st) (out_bytes bits)); destruct (Z.ltb_spec (p_hashInputSize st) (in_bytes seed)); lia.
Qed.

Lemma generate_a_cases fuel st t seed index bits : wf st -> sized st -> bits_ok bits ->
  (granted ok t (needs st seed bits) /\
   exists st', generate_a ok sha rand fuel st t seed index bits =
                 Ok (st', prf_value sha seed index bits, (t + needs st seed bits)%nat) /\
     wf st' /\ sized st' /\ p_autoSeed st' = p_autoSeed st /\ p_pos st' = p_pos st /\
     p_genLength st' = Z.max (p_genLength st) (out_bytes bits) /\
     p_hashInputSize st' = Z.max (p_hashInputSize st) (in_bytes seed)) \/
  (~ granted ok t (needs st seed bits) /\ generate_a ok sha rand fuel st t seed index bits = Exit 2).
Proof.
  intros W SZ B. rewrite (generate_a_split fuel st t seed index bits B SZ).
  destruct (generate_pos sha HS rand fuel st seed index bits W B) as [st' [E [W' [A1 [A2 A3]]]]].
  destruct (generate_sizes fuel st seed index bits st' _ B SZ E) as [S1 S2].
  assert (SZ' : sized st').
  { unfold sized. rewrite S2. unfold in_bytes. right. lia. }
  rewrite E. unfold needs.
  assert (X : forall b t0, (granted ok t0 (need b) /\ (if b then request ok t0 else Ok t0) = Ok (t0 + need b)%nat) \/
                           (~ granted ok t0 (need b) /\ (if b then request ok t0 else Ok t0) = Exit 2)).
  { intros b t0. destruct b; cbn [need].
    - destruct (granted_dec ok t0 1) as [G|G].
      + left. split; [exact G|]. rewrite (request_yes _ _ G). f_equal. lia.
      + right. split; [exact G|]. apply request_no, G.
    - left. split; [apply granted_0|]. f_equal. lia. }
  destruct (X (p_genLength st <? out_bytes bits) t) as [[G1 E1]|[G1 E1]]; rewrite E1; cbn [bind].
  - destruct (X (p_hashInputSize st <? in_bytes seed) (t + need (p_genLength st <? out_bytes bits)%Z)%nat) as [[G2 E2]|[G2 E2]];
      rewrite E2; cbn [bind].
    + left. split; [apply granted_split; auto|]. exists st'. split; [do 2 f_equal; lia|]. auto 10.
    + right. split; [|reflexivity]. intros G. apply granted_split in G. apply G2, G.
  - right. split; [|reflexivity]. intros G. apply granted_split in G. apply G1, G.
Qed.

(** the seed an Auto call would use *)
Definition auto_of (st : prf) : Z := match p_autoSeed st with Some s => s | None => rand (p_pos st) end.

Lemma exec_a_cases fuel st t c : wf st -> sized st -> wide c ->
  let k := needs st (call_seed (auto_of st) c) (call_bits c) in
  (granted ok t k /\
   exists st', exec_a ok sha rand fuel st t c =
                 Ok (st', prf_value sha (call_seed (auto_of st) c) (call_index c) (call_bits c), (t + k)%nat) /\
     wf st' /\ sized st' /\ auto_of st' = auto_of st /\
     p_genLength st' = Z.max (p_genLength st) (out_bytes (call_bits c)) /\
     p_hashInputSize st' = Z.max (p_hashInputSize st) (in_bytes (call_seed (auto_of st) c))) \/
  (~ granted ok t k /\ exec_a ok sha rand fuel st t c = Exit 2).
Proof.
  intros W SZ Hc k. subst k. destruct c as [s i b|i b|]; [| |contradiction];
    cbn [wide call_bits call_seed call_index exec_a] in *.
  - destruct (generate_a_cases fuel st t s i b W SZ Hc) as [[G [st' [E [W' [SZ' [A1 [A2 [S1 S2]]]]]]]]|H]; [left|right; exact H].
    split; [exact G|]. exists st'. split; [exact E|]. split; [exact W'|]. split; [exact SZ'|]. split; [|auto].
    unfold auto_of. rewrite A1, A2. reflexivity.
  - unfold generate_auto_a. unfold auto_of. destruct (p_autoSeed st) as [s|] eqn:Es.
    + destruct (generate_a_cases fuel st t s i b W SZ Hc) as [[G [st' [E [W' [SZ' [A1 [A2 [S1 S2]]]]]]]]|H]; [left|right; exact H].
      split; [exact G|]. exists st'. split; [exact E|]. split; [exact W'|]. split; [exact SZ'|]. split; [|auto].
      rewrite A1, Es. reflexivity.
    + cbn [randomSeed p_gen p_genLength p_hashInput p_hashInputSize p_autoIndex p_autoSeed p_pos].
      match goal with |- context [generate_a _ _ _ _ ?st0 _ _ _ _] =>
        destruct (generate_a_cases fuel st0 t (rand (p_pos st)) i b W SZ Hc) as [[G [st' [E [W' [SZ' [A1 [A2 [S1 S2]]]]]]]]|H] end.
      * left. split; [exact G|]. exists st'. split; [exact E|]. split; [exact W'|]. split; [exact SZ'|]. split; [|auto].
        rewrite A1. reflexivity.
      * right; exact H.
Qed.

Definition reqs (st : prf) (l : list call) : nat :=
  (peaks (p_genLength st) (map (fun c => out_bytes (call_bits c)) l) +
   peaks (p_hashInputSize st) (map (fun c => in_bytes (call_seed (auto_of st) c)) l))%nat.

Lemma peaks_cons top x r : peaks top (x :: r) = (need (top <? x)%Z + peaks (Z.max top x) r)%nat.
Proof.
  cbn [peaks]. destruct (Z.ltb_spec top x); cbn [need].
  - rewrite Z.max_r by lia. reflexivity.
  - rewrite Z.max_l by lia. reflexivity.
Qed.
Lemma reqs_cons st st' c l : auto_of st' = auto_of st ->
  p_genLength st' = Z.max (p_genLength st) (out_bytes (call_bits c)) ->
  p_hashInputSize st' = Z.max (p_hashInputSize st) (in_bytes (call_seed (auto_of st) c)) ->
  reqs st (c :: l) = (needs st (call_seed (auto_of st) c) (call_bits c) + reqs st' l)%nat.
Proof.
  intros A S1 S2. unfold reqs, needs. cbn [map]. rewrite !peaks_cons, A, S1, S2. lia.
Qed.

Lemma run_a_cases fuel : forall l st t, wf st -> sized st -> Forall wide l ->
  (granted ok t (reqs st l) /\
   exists st', run_a ok sha rand fuel st t l = (values sha (auto_of st) l, Ok (st', (t + reqs st l)%nat)) /\
     wf st' /\ sized st' /\ auto_of st' = auto_of st /\
     p_genLength st' = fold_left Z.max (map (fun c => out_bytes (call_bits c)) l) (p_genLength st) /\
     p_hashInputSize st' = fold_left Z.max (map (fun c => in_bytes (call_seed (auto_of st) c)) l) (p_hashInputSize st)) \/
  (~ granted ok t (reqs st l) /\
   exists j, (j < length l)%nat /\ run_a ok sha rand fuel st t l = (firstn j (values sha (auto_of st) l), Exit 2) /\
     granted ok t (reqs st (firstn j l)) /\ ~ granted ok t (reqs st (firstn (S j) l))).
Proof.
  induction l as [|c l IH]; intros st t W SZ F.
  - left. split; [apply granted_0|]. exists st. cbn [run_a values map fold_left]. unfold reqs. cbn [map peaks].
    split; [do 3 f_equal; lia|]. auto 10.
  - inversion F as [|? ? Hc F']; subst. cbn [run_a].
    destruct (exec_a_cases fuel st t c W SZ Hc) as [[G [st1 [E [W1 [SZ1 [A1 [S1 S2]]]]]]]|[G E]].
    + rewrite E. destruct (IH st1 (t + needs st (call_seed (auto_of st) c) (call_bits c))%nat W1 SZ1 F')
        as [[G' [st2 [E' [W2 [SZ2 [A2 [L1 L2]]]]]]]|[G' [j [Lj [E' [G1 G2]]]]]]; rewrite E'.
      * left. rewrite (reqs_cons st st1 c l A1 S1 S2). split; [apply granted_split; auto|].
        exists st2. rewrite A1. split; [cbn [values map]; do 3 f_equal; lia|].
        split; [exact W2|]. split; [exact SZ2|]. split; [congruence|].
        cbn [map fold_left]. rewrite <- S1, <- S2. rewrite A1 in L2. auto.
      * right. rewrite (reqs_cons st st1 c l A1 S1 S2). split; [rewrite granted_split; tauto|].
        exists (S j). split; [cbn [length]; lia|]. rewrite A1. split; [reflexivity|].
        cbn [firstn]. rewrite (reqs_cons st st1 c (firstn j l) A1 S1 S2).
        assert (EQ : match l with [] => [] | a :: l0 => a :: firstn j l0 end = firstn (S j) l) by reflexivity.
        rewrite EQ. rewrite (reqs_cons st st1 c (firstn (S j) l) A1 S1 S2), !granted_split. tauto.
    + rewrite E. right.
      assert (N1 : ~ granted ok t (reqs st [c])).
      { unfold reqs. cbn [map]. rewrite !peaks_cons. cbn [peaks]. rewrite !Nat.add_0_r. exact G. }
      split.
      * intros X. apply N1. revert X. unfold reqs. cbn [map]. rewrite !peaks_cons. cbn [peaks].
        intros X k Hk. apply X. lia.
      * exists 0%nat. split; [cbn [length]; lia|]. split; [reflexivity|]. split; [apply granted_0|exact N1].
Qed.
End One.

Lemma max_ge l : forall a, a <= fold_left Z.max l a.
Proof. induction l as [|x l IH]; intros a; cbn [fold_left]; [lia|]. pose proof (IH (Z.max a x)). lia. Qed.
Lemma max_in l : forall a x, In x l -> x <= fold_left Z.max l a.
Proof.
  induction l as [|y l IH]; intros a x H; [destruct H|]. cbn [fold_left]. destruct H as [->|H].
  - pose proof (max_ge l (Z.max a x)). lia.
  - apply IH, H.
Qed.

Lemma new_sized pos : sized (new_prf pos). Proof. left. reflexivity. Qed.
Lemma reqs_new rand pos l : reqs rand (new_prf pos) l = requests (rand pos) l. Proof. reflexivity. Qed.

(** a history on a new generator *)
Lemma history_l ok sha rand fuel pos t l : is_sha sha -> Forall wide l ->
  (granted ok t (requests (rand pos) l) ->
   exists st, run_a ok sha rand fuel (new_prf pos) t l = (values sha (rand pos) l, Ok (st, (t + requests (rand pos) l)%nat))) /\
  (~ granted ok t (requests (rand pos) l) ->
   exists j, (j < length l)%nat /\ run_a ok sha rand fuel (new_prf pos) t l = (firstn j (values sha (rand pos) l), Exit 2) /\
     granted ok t (requests (rand pos) (firstn j l)) /\ ~ granted ok t (requests (rand pos) (firstn (S j) l))).
Proof.
  intros HS F.
  destruct (run_a_cases ok sha HS rand fuel l (new_prf pos) t (new_prf_wf pos) (new_sized pos) F)
    as [[G [st [E _]]]|[G [j [L [E [G1 G2]]]]]]; rewrite !reqs_new in *; (split; [|]); intros X; try contradiction.
  - exists st. exact E.
  - exists j. auto.
Qed.

(** a call no larger than earlier ones *)
Lemma steady_l ok ok2 sha rand fuel pos t t2 l vs st t1 c : is_sha sha -> Forall wide l -> wide c ->
  run_a ok sha rand fuel (new_prf pos) t l = (vs, Ok (st, t1)) ->
  (exists c1, In c1 l /\ out_bytes (call_bits c) <= out_bytes (call_bits c1)) ->
  (exists c2, In c2 l /\ in_bytes (call_seed (rand pos) c) <= in_bytes (call_seed (rand pos) c2)) ->
  exists st', exec_a ok2 sha rand fuel st t2 c =
    Ok (st', prf_value sha (call_seed (rand pos) c) (call_index c) (call_bits c), t2).
Proof.
  intros HS F Hc E [c1 [I1 L1]] [c2 [I2 L2]].
  destruct (run_a_cases ok sha HS rand fuel l (new_prf pos) t (new_prf_wf pos) (new_sized pos) F)
    as [[G [st' [E' [W [SZ [A [S1 S2]]]]]]]|[G [j [_ [E' _]]]]]; rewrite E' in E; [|discriminate].
  injection E as _ <- _.
  change (auto_of rand (new_prf pos)) with (rand pos) in *.
  assert (N : needs st' (call_seed (rand pos) c) (call_bits c) = 0%nat).
  { unfold needs.
    assert (X1 : (p_genLength st' <? out_bytes (call_bits c)) = false).
    { apply Z.ltb_ge. rewrite S1. etransitivity; [exact L1|]. apply max_in.
      apply (in_map (fun c => out_bytes (call_bits c))), I1. }
    assert (X2 : (p_hashInputSize st' <? in_bytes (call_seed (rand pos) c)) = false).
    { apply Z.ltb_ge. rewrite S2. etransitivity; [exact L2|]. apply max_in.
      apply (in_map (fun c => in_bytes (call_seed (rand pos) c))), I2. }
    rewrite X1, X2. reflexivity. }
  destruct (exec_a_cases ok2 sha HS rand fuel st' t2 c W SZ Hc) as [[_ [st2 [E2 _]]]|[G2 _]];
    rewrite A, N in *.
  - exists st2. rewrite E2. rewrite Nat.add_0_r. reflexivity.
  - exfalso. apply G2, granted_0.
Qed.

(** no more requests than twice the calls; few for calls of one size *)
Lemma peaks_le : forall l top, (peaks top l <= length l)%nat.
Proof. induction l as [|x l IH]; intros top; cbn [peaks length]; [lia|]. destruct (top <? x); [specialize (IH x)|specialize (IH top)]; lia. Qed.
Lemma peaks_flat m : forall l, Forall (fun x => x = m) l -> peaks m l = 0%nat.
Proof.
  induction l as [|y l IH]; intros F; [reflexivity|]. apply Forall_cons_iff in F. destruct F as [Ey F]. cbn [peaks].
  rewrite Ey. destruct (Z.ltb_spec m m); [lia|]. apply IH, F.
Qed.
Lemma peaks_one m : forall l top, top < m -> Forall (fun x => x = m) l -> l <> [] -> peaks top l = 1%nat.
Proof.
  intros l top H F N. destruct l as [|x l]; [contradiction|]. apply Forall_cons_iff in F. destruct F as [Ex F]. cbn [peaks].
  rewrite Ex. destruct (Z.ltb_spec top m); [|lia]. f_equal. apply peaks_flat, F.
Qed.

(** *** constructors *)
Lemma new_prf_a_l ok t pos :
  (granted ok t 2 -> new_prf_a ok t pos = Ok (new_prf pos, (t + 2)%nat)) /\
  (~ granted ok t 2 -> new_prf_a ok t pos = Exit 2).
Proof.
  unfold new_prf_a, new_sha_a. change 2%nat with (1 + 1)%nat. rewrite granted_split.
  destruct (granted_dec ok t 1) as [G|G].
  - rewrite (request_yes _ _ G). cbn [bind]. replace (t + 1)%nat with (S t) by lia.
    destruct (granted_dec ok (S t) 1) as [G2|G2].
    + rewrite (request_yes _ _ G2). cbn [bind]. split; intros H; [do 2 f_equal; lia|tauto].
    + rewrite (request_no _ _ G2). split; intros H; [tauto|reflexivity].
  - rewrite (request_no _ _ G). split; intros H; [tauto|reflexivity].
Qed.
Lemma client_prf_a_l ok t fieldsize pos :
  (granted ok t 5 -> client_prf_a ok t fieldsize pos = Ok (new_zpprf fieldsize pos, (t + 5)%nat)) /\
  (~ granted ok t 5 -> client_prf_a ok t fieldsize pos = Exit 2).
Proof.
  unfold client_prf_a, new_zpprf_a, new_sha_a.
  change 5%nat with (1 + (1 + (1 + 2)))%nat. rewrite !granted_split.
  destruct (granted_dec ok t 1) as [G|G].
  2:{ rewrite (request_no _ _ G). split; intros H; [tauto|reflexivity]. }
  rewrite (request_yes _ _ G). cbn [bind]. replace (t + 1)%nat with (S t) by lia.
  destruct (granted_dec ok (S t) 1) as [G1|G1].
  2:{ rewrite (request_no _ _ G1). split; intros H; [tauto|reflexivity]. }
  rewrite (request_yes _ _ G1). cbn [bind]. replace (S t + 1)%nat with (S (S t)) by lia.
  destruct (granted_dec ok (S (S t)) 1) as [G2|G2].
  2:{ rewrite (request_no _ _ G2). split; intros H; [tauto|reflexivity]. }
  rewrite (request_yes _ _ G2). cbn [bind]. replace (S (S t) + 1)%nat with (S (S (S t))) by lia.
  destruct (new_prf_a_l ok (S (S (S t))) pos) as [Y N].
  destruct (granted_dec ok (S (S (S t))) 2) as [G3|G3].
  - rewrite (Y G3). cbn [bind]. split; intros H; [|tauto]. unfold new_zpprf. do 2 f_equal. lia.
  - rewrite (N G3). split; intros H; [tauto|reflexivity].
Qed.

(** *** ZZpPRF: the same calls on the embedded generator *)
Definition seeded (modulo : Z) (c : Z * Z * Z) : call :=
  let '(s, i, b) := c in Seeded s i (gen_bits modulo b).
Lemma run_zp_a_eq ok sha rand p fuel : forall l st t,
  run_zp_a ok sha rand p fuel st t l =
  (map (fun v => v mod p) (fst (run_a ok sha rand fuel (zp_prf st) t (map (seeded (zp_modulo st)) l))),
   match snd (run_a ok sha rand fuel (zp_prf st) t (map (seeded (zp_modulo st)) l)) with
   | Ok (st1, t1) => Ok ({| zp_modulo := zp_modulo st; zp_prf := st1; zp_autoIndex := zp_autoIndex st; zp_autoSeed := zp_autoSeed st |}, t1)
   | Exit k => Exit k | UB w => UB w | Abort => Abort | NoFuel => NoFuel
   end).
Proof.
  induction l as [|[[s i] b] l IH]; intros st t.
  - destruct st. reflexivity.
  - cbn [map run_zp_a run_a seeded exec_a]. unfold zp_generate_a.
    destruct (generate_a ok sha rand fuel (zp_prf st) t s i (gen_bits (zp_modulo st) b)) as [[[st1 v] t1]| | | |];
      cbn [bind]; try reflexivity.
    rewrite IH. cbn [zp_prf zp_modulo zp_autoIndex zp_autoSeed].
    destruct (run_a ok sha rand fuel st1 t1 (map (seeded (zp_modulo st)) l)) as [vs e]. reflexivity.
Qed.

Lemma byte_count_small z k : Z.abs z < 2 ^ (8 * Z.of_nat k) -> (byte_count z <= k)%nat.
Proof.
  intros H. unfold byte_count. pose proof (num_bits_le z (8 * Z.of_nat k) ltac:(lia) H).
  pose proof (num_bits_nonneg z). lia.
Qed.

(** *** any call, of any width *)
Definition noexit {A} (r : res A) : Prop := match r with Exit _ => False | _ => True end.
Lemma noexit_bind {A B} (r : res A) (f : A -> res B) : noexit r -> (forall x, noexit (f x)) -> noexit (bind r f).
Proof. destruct r; cbn [bind noexit]; auto. Qed.
Lemma noexit_zget {A} (l : list A) i : noexit (zget l i).
Proof. unfold zget, aget. destruct (i <? 0); [exact I|]. destruct (nth_error l (Z.to_nat i)); exact I. Qed.
Lemma noexit_zset {A} (l : list A) i v : noexit (zset l i v).
Proof. unfold zset, aset. destruct (i <? 0); [exact I|]. destruct (_ <? _)%nat; exact I. Qed.
Lemma noexit_write : forall bs buf off, noexit (write_at buf off bs).
Proof.
  induction bs as [|b bs IH]; intros buf off; cbn [write_at]; [exact I|].
  apply noexit_bind; [apply noexit_zset|intros; apply IH].
Qed.
Lemma noexit_cell buf i : noexit (read_cell buf i).
Proof. unfold read_cell. apply noexit_bind; [apply noexit_zget|]. intros [b|]; exact I. Qed.
Lemma noexit_mapM {A B} (f : A -> res B) : (forall x, noexit (f x)) -> forall l, noexit (mapM f l).
Proof.
  intros H. induction l as [|x l IH]; cbn [mapM]; [exact I|].
  apply noexit_bind; [apply H|]. intros y. apply noexit_bind; [exact IH|]. intros; exact I.
Qed.
Lemma noexit_prefix buf n : noexit (read_prefix buf n).
Proof. unfold read_prefix. apply noexit_mapM. intros i. apply noexit_cell. Qed.
Lemma noexit_fill sha : forall f gen n r d, noexit (fill sha f gen n r d).
Proof.
  induction f as [|f IH]; intros gen n r d; cbn [fill]; [exact I|].
  apply noexit_bind; [unfold sha_bytes; destruct d; exact I|]. intros dg.
  apply noexit_bind; [apply noexit_write|]. intros g1. destruct (0 <? _); [apply IH|exact I].
Qed.
Lemma noexit_bytes bits : noexit (bytes_of_bits bits).
Proof. unfold bytes_of_bits, blocks. repeat match goal with |- noexit (if ?b then _ else _) => destruct b end; exact I. Qed.
Lemma noexit_rand rand : forall f q, noexit (rand_nonzero rand f q).
Proof. induction f as [|f IH]; intros q; cbn [rand_nonzero]; [exact I|]. destruct (rand q =? 0); [apply IH|exact I]. Qed.
Lemma noexit_cut b r : noexit (cut_bits b r).
Proof. unfold cut_bits. destruct (r <? 32); exact I. Qed.

Lemma request_cases ok t : request ok t = Ok (S t) \/ (request ok t = Exit 2 /\ ok t = false).
Proof. unfold request. destruct (ok t); auto. Qed.

Section AnyCall.
Variable ok : nat -> bool.
Variable sha : list Z -> list Z.
Variable rand : nat -> Z.
Variable fuel : nat.

Definition agrees {A} (t : nat) (r : res (A * nat)) (r0 : res A) : Prop :=
  match r with
  | Ok (x, t') => r0 = Ok x /\ (t <= t')%nat
  | Exit k => k = 2 /\ exists i, (t <= i)%nat /\ ok i = false
  | UB w => r0 = UB w
  | Abort => r0 = Abort
  | NoFuel => r0 = NoFuel
  end.
Lemma agrees_mono {A} t t1 (r : res (A * nat)) r0 : (t <= t1)%nat -> agrees t1 r r0 -> agrees t r r0.
Proof.
  intros L. unfold agrees. destruct r as [[x t']| | | |]; auto.
  - intros [E L2]. split; [exact E|lia].
  - intros [E [i [L2 O1]]]. split; [exact E|]. exists i. split; [lia|exact O1].
Qed.
Lemma agrees_refl {A} t (r : res A) : noexit r -> agrees t (bind r (fun x => Ok (x, t))) r.
Proof. destruct r; cbn [bind agrees noexit]; auto. intros []. Qed.

Definition tail (st : prf) (seed index bits n : Z) (pos : nat) (gen : list cell) (gl : Z) (hin : list cell) (hs : Z) : res (prf * Z) :=
  do hin <- write_at hin 0 (le_bytes (Z.to_nat (bytes_of_zz seed)) (Z.abs seed));
  do hin <- write_at hin (bytes_of_zz seed) (le_bytes 8 index);
  do input <- read_prefix hin (bytes_of_zz seed + 8);
  do gen <- fill sha (S (Z.to_nat n)) gen n n input;
  do b <- read_cell gen (n - 1);
  do b <- cut_bits b (w64 (n * 8 - bits));
  do gen <- zset gen (n - 1) (Some b);
  do bs <- read_prefix gen n;
  Ok ({| p_gen := gen; p_genLength := gl; p_hashInput := hin; p_hashInputSize := hs;
         p_autoIndex := p_autoIndex st; p_autoSeed := p_autoSeed st; p_pos := pos |}, le_val bs).
Lemma noexit_tail st seed index bits n pos gen gl hin hs : noexit (tail st seed index bits n pos gen gl hin hs).
Proof.
  unfold tail. do 2 (apply noexit_bind; [apply noexit_write|intros ?]). apply noexit_bind; [apply noexit_prefix|intros ?].
  apply noexit_bind; [apply noexit_fill|intros ?]. apply noexit_bind; [apply noexit_cell|intros ?].
  apply noexit_bind; [apply noexit_cut|intros ?]. apply noexit_bind; [apply noexit_zset|intros ?].
  apply noexit_bind; [apply noexit_prefix|intros ?]. exact I.
Qed.
Lemma bind_assoc {A B C} (r : res A) (f : A -> res B) (g : B -> res C) :
  bind (bind r f) g = bind r (fun x => bind (f x) g).
Proof. destruct r; reflexivity. Qed.

Lemma generate_a_any st t seed index bits :
  agrees t (generate_a ok sha rand fuel st t seed index bits) (generate sha rand fuel st seed index bits).
Proof.
  rewrite generate_split. unfold generate_a.
  match goal with |- agrees _ (bind ?x _) (bind ?x _) => assert (NX : noexit x) end.
  { destruct (bits =? 0).
    - apply noexit_bind; [apply noexit_rand|]. intros [q1 q2]. apply noexit_bind; [apply noexit_bytes|]. intros; exact I.
    - apply noexit_bind; [apply noexit_bytes|]. intros; exact I. }
  match goal with |- agrees _ (bind ?x _) (bind ?x _) => destruct x as [[n pos]| | | |] end.
  2:{ destruct NX. }
  2-4: reflexivity.
  cbn [bind]. unfold after_n. cbv zeta.
  assert (T : forall t1 gen gl hin hs, (t <= t1)%nat ->
    agrees t (bind (tail st seed index bits n pos gen gl hin hs) (fun x => Ok (x, t1))) (tail st seed index bits n pos gen gl hin hs)).
  { intros t1 gen gl hin hs L. apply (agrees_mono t t1); [exact L|]. apply agrees_refl, noexit_tail. }
  assert (TT : forall (t1 : nat) gen gl hin hs,
    bind (tail st seed index bits n pos gen gl hin hs) (fun x => Ok (x, t1)) =
    do hin <- write_at hin 0 (le_bytes (Z.to_nat (bytes_of_zz seed)) (Z.abs seed));
    do hin <- write_at hin (bytes_of_zz seed) (le_bytes 8 index);
    do input <- read_prefix hin (bytes_of_zz seed + 8);
    do gen <- fill sha (S (Z.to_nat n)) gen n n input;
    do b <- read_cell gen (n - 1);
    do b <- cut_bits b (w64 (n * 8 - bits));
    do gen <- zset gen (n - 1) (Some b);
    do bs <- read_prefix gen n;
    Ok ({| p_gen := gen; p_genLength := gl; p_hashInput := hin; p_hashInputSize := hs;
           p_autoIndex := p_autoIndex st; p_autoSeed := p_autoSeed st; p_pos := pos |}, le_val bs, t1)).
  { intros. unfold tail.
    repeat (match goal with |- bind (bind ?x _) _ = bind ?x _ => destruct x; cbn [bind]; try reflexivity end). }
  assert (REF : forall t0 (r0 : res (prf * Z)) , (t <= t0)%nat -> ok t0 = false -> agrees t (@Exit (prf * Z * nat) 2) r0).
  { intros t0 r0 L O1. split; [reflexivity|]. exists t0. auto. }
  destruct (p_genLength st <? n); cbn [bind].
  - destruct (request_cases ok t) as [E|[E O1]]; rewrite E; cbn [bind]; [|apply (REF t); [lia|exact O1]].
    destruct (p_hashInputSize st <? bytes_of_zz seed + 8); cbn [bind].
    + destruct (request_cases ok (S t)) as [E2|[E2 O1]]; rewrite E2; cbn [bind]; [|apply (REF (S t)); [lia|exact O1]].
      rewrite <- TT. apply T. lia.
    + rewrite <- TT. apply T. lia.
  - destruct (p_hashInputSize st <? bytes_of_zz seed + 8); cbn [bind].
    + destruct (request_cases ok t) as [E2|[E2 O1]]; rewrite E2; cbn [bind]; [|apply (REF t); [lia|exact O1]].
      rewrite <- TT. apply T. lia.
    + rewrite <- TT. apply T. lia.
Qed.
Lemma generate_auto_a_any st t index bits :
  agrees t (generate_auto_a ok sha rand fuel st t index bits) (generate_auto sha rand fuel st index bits).
Proof.
  unfold generate_auto_a, generate_auto. destruct (p_autoSeed st); [apply generate_a_any|].
  destruct (randomSeed rand st). apply generate_a_any.
Qed.
Lemma exec_a_any st t c : agrees t (exec_a ok sha rand fuel st t c) (exec_call sha rand fuel st c).
Proof.
  destruct c; cbn [exec_a exec_call]; [apply generate_a_any|apply generate_auto_a_any|].
  unfold generate_next_a, generate_next. apply generate_auto_a_any.
Qed.

(** the run without failures stopped after [k] calls *)
Lemma run_a_any : forall l st t,
  let '(vs, e) := run_a ok sha rand fuel st t l in
  (length vs <= length l)%nat /\
  (exists st1, run_prf sha rand fuel st (firstn (length vs) l) = Ok (st1, vs)) /\
  agrees t (bind e (fun x => Ok (fst x, vs, snd x))) (run_prf sha rand fuel st l).
Proof.
  induction l as [|c l IH]; intros st t.
  - cbn [run_a length firstn run_prf bind fst snd agrees]. split; [lia|]. split; [exists st; reflexivity|]. auto.
  - cbn [run_a run_prf]. pose proof (exec_a_any st t c) as A.
    destruct (exec_a ok sha rand fuel st t c) as [[[st1 v] t1]| | | |]; cbn [agrees] in A.
    + destruct A as [E L]. rewrite E. cbn [bind]. specialize (IH st1 t1).
      destruct (run_a ok sha rand fuel st1 t1 l) as [vs e]. destruct IH as [L1 [[st2 E2] A2]].
      split; [cbn [length]; lia|]. split.
      * exists st2. cbn [length firstn run_prf]. rewrite E. cbn [bind]. rewrite E2. reflexivity.
      * destruct e as [[st3 t3]| | | |]; cbn [bind fst snd agrees] in *.
        -- destruct A2 as [-> L2]. cbn [bind]. split; [reflexivity|lia].
        -- destruct A2 as [-> [i [L2 O1]]]. split; [reflexivity|]. exists i. split; [lia|exact O1].
        -- rewrite A2. reflexivity.
        -- rewrite A2. reflexivity.
        -- rewrite A2. reflexivity.
    + cbn [length firstn run_prf bind agrees]. split; [lia|]. split; [exists st; reflexivity|exact A].
    + rewrite A. cbn [length firstn run_prf bind agrees]. split; [lia|]. split; [exists st; reflexivity|reflexivity].
    + rewrite A. cbn [length firstn run_prf bind agrees]. split; [lia|]. split; [exists st; reflexivity|reflexivity].
    + rewrite A. cbn [length firstn run_prf bind agrees]. split; [lia|]. split; [exists st; reflexivity|reflexivity].
Qed.
End AnyCall.
