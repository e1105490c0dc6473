From Verif Require Import Base Lib SimulModel SimulSpec.
From Coq Require Import Lia Sorted Permutation.

Lemma occ_app v a b : occurrences v (a ++ b) = (occurrences v a + occurrences v b)%nat.
Proof. apply count_occ_app. Qed.
Lemma occ_cons v a l : occurrences v (a :: l) = ((if Z.eqb a v then 1 else 0) + occurrences v l)%nat.
Proof. unfold occurrences. cbn. destruct (Z.eq_dec a v), (Z.eqb_spec a v); lia. Qed.
Lemma occ_in v l : In v l <-> (1 <= occurrences v l)%nat.
Proof. unfold occurrences. rewrite (count_occ_In Z.eq_dec). lia. Qed.
Lemma occ_nodup v l : NoDup l -> (occurrences v l <= 1)%nat.
Proof. intros H. apply (NoDup_count_occ Z.eq_dec). exact H. Qed.
Lemma occ_perm v a b : Permutation a b -> occurrences v a = occurrences v b.
Proof. intros H. apply (Permutation_count_occ Z.eq_dec). exact H. Qed.

Lemma firstn_snoc {A} m (l : list A) v : nth_error l m = Some v -> firstn (S m) l = firstn m l ++ [v].
Proof. revert l. induction m; intros [|a l] H; try discriminate; cbn in *; [congruence|]. f_equal. apply IHm. exact H. Qed.

(** *** sorting *)
Lemma qinsert_perm x l : Permutation (qinsert x l) (x :: l).
Proof. induction l; cbn; [constructor; constructor|]. destruct (Z.leb_spec x a); [reflexivity|]. rewrite IHl. apply perm_swap. Qed.
Lemma qsort_perm l : Permutation (qsort l) l.
Proof. induction l; cbn; [reflexivity|]. rewrite qinsert_perm. constructor. exact IHl. Qed.
Lemma qinsert_sorted x l : StronglySorted Z.le l -> StronglySorted Z.le (qinsert x l).
Proof.
  induction l; cbn; intros H; [repeat constructor|]. inversion H; subst.
  destruct (Z.leb_spec x a). { constructor; [exact H|]. constructor; [exact H0|]. eapply Forall_impl; [|exact H3]. cbn. intros; lia. }
  constructor; [apply IHl; assumption|]. rewrite qinsert_perm. constructor; [lia|assumption].
Qed.
Lemma qsort_sorted l : StronglySorted Z.le (qsort l).
Proof. induction l; cbn; [constructor|]. apply qinsert_sorted. exact IHl. Qed.

(** *** join *)
Lemma copy_loop (src : list Z) off (dst : list Z) : (off + length src <= length dst)%nat ->
  for_up (length src) 0 (fun i r => do v <- pget (Some src) i; aset r (off + i) v) dst
    = Ok (firstn off dst ++ src ++ skipn (off + length src) dst).
Proof.
  intros H. cbn [pget].
  assert (G : forall m, (m <= length src)%nat -> for_up m 0 (fun i r => do v <- aget src i; aset r (off + i) v) dst
     = Ok (firstn off dst ++ firstn m src ++ skipn (off + m) dst)).
  { induction m; intros Hm.
    - cbn. rewrite Nat.add_0_r, firstn_skipn. reflexivity.
    - replace (S m) with (m + 1)%nat by lia. rewrite for_up_app, IHm by lia. cbn [bind for_up Nat.add].
      destruct (aget_lt src m ltac:(lia)) as [v [E N]]. rewrite E. cbn [bind].
      rewrite aset_ok by (rewrite !app_length, !firstn_length, skipn_length; lia). cbn [bind]. f_equal.
      destruct (skipn (off + m) dst) as [|y t] eqn:ES. { apply (f_equal (@length Z)) in ES. rewrite skipn_length in ES. cbn in ES. lia. }
      rewrite (app_assoc (firstn off dst)).
      replace (off + m)%nat with (length (firstn off dst ++ firstn m src)) at 1 by (rewrite app_length, !firstn_length; lia).
      rewrite upd_mid. replace (m + 1)%nat with (S m) by lia.
      assert (F : firstn (S m) src = firstn m src ++ [v]) by (apply firstn_snoc; exact N).
      assert (T : skipn (off + S m) dst = t).
      { replace (off + S m)%nat with (S (off + m)) by lia. rewrite <- (firstn_skipn (off + m) dst) at 1. rewrite ES.
        rewrite skipn_app, skipn_all2 by (rewrite firstn_length; lia). rewrite firstn_length.
        replace (S (off + m) - Nat.min (off + m) (length dst))%nat with 1%nat by lia. reflexivity. }
      rewrite F, T, <- !app_assoc. reflexivity. }
  rewrite (G (length src)) by lia. rewrite firstn_all. reflexivity.
Qed.
(** the array [set] of [card] elements; a null pointer has none *)
Definition holds (set : option (list Z)) (card : nat) (l : list Z) : Prop :=
  card = length l /\ (set = Some l \/ l = []).
Lemma join_ok s1 c1 l1 s2 c2 l2 : holds s1 c1 l1 -> holds s2 c2 l2 -> join s1 c1 s2 c2 = Ok (l1 ++ l2).
Proof.
  intros [-> H1] [-> H2]. unfold join.
  assert (E1 : for_up (length l1) 0 (fun i r => do v <- pget s1 i; aset r i v) (repeat 0 (length l1 + length l2))
     = Ok (l1 ++ repeat 0 (length l2))).
  { destruct H1 as [->| ->]; [|reflexivity]. pose proof (copy_loop l1 0 (repeat 0 (length l1 + length l2))) as X. cbn [Nat.add firstn app] in X.
    rewrite X by (rewrite repeat_length; lia). rewrite repeat_app, skipn_app, skipn_all2 by (rewrite repeat_length; lia).
    rewrite repeat_length, Nat.sub_diag. reflexivity. }
  rewrite E1. cbn [bind]. destruct H2 as [->| ->]; [|reflexivity].
  rewrite copy_loop by (rewrite app_length, repeat_length; lia).
  rewrite firstn_app, firstn_all, Nat.sub_diag. cbn [firstn]. rewrite app_nil_r, skipn_all2 by (rewrite app_length, repeat_length; lia).
  rewrite app_nil_r. reflexivity.
Qed.

(** *** the two loops of intersect *)
Fixpoint reported (last : option Z) (l : list Z) {struct l} : list Z :=
  match l with
  | [] => []
  | a :: t =>
      match t with
      | [] => []
      | b :: _ =>
          if (b =? a) && match last with None => true | Some c => negb (b =? c) end
          then b :: reported (Some b) t else reported last t
      end
  end.
Lemma reported_cons last a b l : reported last (a :: b :: l) =
  if (b =? a) && match last with None => true | Some c => negb (b =? c) end
  then b :: reported (Some b) (b :: l) else reported last (b :: l).
Proof. reflexivity. Qed.
Definition last_of (lu : list Z) (tmp : option nat) (last : option Z) : Prop :=
  match tmp, last with None, None => True | Some t, Some c => nth_error lu t = Some c | _, _ => False end.
Lemma count_loop l : forall pre x c tmp last lu, lu = pre ++ x :: l -> last_of lu tmp last ->
  exists tmp', for_up (length l) (S (length pre)) (count_step lu) (c, tmp) = Ok ((c + length (reported last (x :: l)))%nat, tmp').
Proof.
  induction l as [|y l IH]; intros pre x c tmp last lu HL HT; cbn [for_up length].
  - exists tmp. cbn. rewrite Nat.add_0_r. reflexivity.
  - assert (A1 : aget lu (S (length pre)) = Ok y). { subst lu. apply aget_ok. rewrite nth_error_app2 by lia. replace (S (length pre) - length pre)%nat with 1%nat by lia. reflexivity. }
    assert (A0 : aget lu (S (length pre) - 1) = Ok x). { subst lu. apply aget_ok. rewrite nth_error_app2 by lia. replace (S (length pre) - 1 - length pre)%nat with 0%nat by lia. reflexivity. }
    assert (HL' : lu = (pre ++ [x]) ++ y :: l) by (rewrite <- app_assoc; exact HL).
    assert (LP : S (length pre) = length (pre ++ [x])) by (rewrite app_length; cbn; lia).
    unfold count_step at 1. rewrite A1, A0. cbn [bind]. rewrite reported_cons.
    destruct (Z.eqb_spec y x); cbn [andb].
    + destruct tmp as [t|], last as [cc|]; cbn in HT; try contradiction.
      * rewrite (proj2 (aget_ok lu t cc) HT). cbn [bind]. destruct (Z.eqb_spec y cc); cbn [negb bind].
        -- rewrite LP. apply (IH (pre ++ [x]) y c (Some t) (Some cc) lu HL' HT).
        -- rewrite LP. destruct (IH (pre ++ [x]) y (S c) (Some (length (pre ++ [x]))) (Some y) lu HL') as [t' E]. { cbn. rewrite <- LP. apply aget_ok. exact A1. }
           exists t'. rewrite E. cbn [length]. do 2 f_equal. lia.
      * cbn [bind]. rewrite LP. destruct (IH (pre ++ [x]) y (S c) (Some (length (pre ++ [x]))) (Some y) lu HL') as [t' E]. { cbn. rewrite <- LP. apply aget_ok. exact A1. }
        exists t'. rewrite E. cbn [length]. do 2 f_equal. lia.
    + cbn [bind]. rewrite LP. apply (IH (pre ++ [x]) y c tmp last lu HL' HT).
Qed.
Definition last_done (d : list Z) : option Z := match rev d with [] => None | c :: _ => Some c end.
Lemma collect_loop l : forall pre x d lu n, lu = pre ++ x :: l -> (length l < n)%nat ->
  let rest := reported (last_done d) (x :: l) in
  collect n lu (length d + length rest) (S (length pre)) (length d) (d ++ repeat 0 (length rest)) = Ok (d ++ rest).
Proof.
  induction l as [|y l IH]; intros pre x d lu n HL HN rest; (destruct n as [|n]; [lia|]); cbn [collect].
  - subst rest. cbn [reported length]. rewrite Nat.add_0_r, Nat.ltb_irrefl. reflexivity.
  - destruct (Nat.ltb_spec (length d) (length d + length rest)) as [HB|HB].
    2:{ destruct rest; [|cbn in HB; lia]. cbn. reflexivity. }
    assert (A1 : aget lu (S (length pre)) = Ok y). { subst lu. apply aget_ok. rewrite nth_error_app2 by lia. replace (S (length pre) - length pre)%nat with 1%nat by lia. reflexivity. }
    assert (A0 : aget lu (S (length pre) - 1) = Ok x). { subst lu. apply aget_ok. rewrite nth_error_app2 by lia. replace (S (length pre) - 1 - length pre)%nat with 0%nat by lia. reflexivity. }
    assert (HL' : lu = (pre ++ [x]) ++ y :: l) by (rewrite <- app_assoc; exact HL).
    assert (LP : S (length pre) = length (pre ++ [x])) by (rewrite app_length; cbn; lia).
    rewrite A1, A0. cbn [bind].
    assert (CK : (if y =? x then if Nat.eqb (length d) 0 then Ok true else do c <- aget (d ++ repeat 0 (length rest)) (length d - 1); Ok (negb (y =? c)) else Ok false)
      = Ok ((y =? x) && match last_done d with None => true | Some c => negb (y =? c) end)).
    { destruct (y =? x); [|reflexivity]. cbn [andb]. unfold last_done. destruct (rev d) eqn:ER.
      - apply (f_equal (@rev Z)) in ER. rewrite rev_involutive in ER. subst d. reflexivity.
      - apply (f_equal (@rev Z)) in ER. rewrite rev_involutive in ER. cbn in ER. subst d. rewrite app_length. cbn [length].
        destruct (Nat.eqb_spec (length (rev l0) + 1) 0); [lia|]. rewrite (proj2 (aget_ok _ _ z)); [reflexivity|].
        rewrite <- app_assoc, nth_error_app2 by lia. replace (length (rev l0) + 1 - 1 - length (rev l0))%nat with 0%nat by lia. reflexivity. }
    rewrite CK. cbn [bind]. subst rest. revert HB. rewrite reported_cons.
    destruct ((y =? x) && match last_done d with None => true | Some c => negb (y =? c) end) eqn:EB; intros HB.
    + cbn [length repeat] in *. rewrite aset_ok by (rewrite app_length; cbn; lia). cbn [bind]. rewrite upd_mid.
      pose proof (IH (pre ++ [x]) y (d ++ [y]) lu n HL' ltac:(cbn in HN; lia)) as X. cbv zeta in X.
      assert (LD : last_done (d ++ [y]) = Some y) by (unfold last_done; rewrite rev_app_distr; reflexivity).
      rewrite LD in X. rewrite app_length in X. cbn [length] in X. rewrite <- LP in X. rewrite <- !app_assoc in X. cbn [app] in X.
      rewrite <- Nat.add_assoc in X. cbn [Nat.add] in X. rewrite Nat.add_1_r in X. exact X.
    + pose proof (IH (pre ++ [x]) y d lu n HL' ltac:(cbn in HN; lia)) as X. cbv zeta in X. rewrite <- LP in X. exact X.
Qed.

Lemma reported_in l : forall last v, StronglySorted Z.le l -> (forall c, last = Some c -> Forall (Z.le c) l) ->
  In v (reported last l) <-> (2 <= occurrences v l)%nat /\ last <> Some v.
Proof.
  induction l as [|x l IH]; intros last v HS HL. { cbn. split; [contradiction|lia]. }
  destruct l as [|y l]. { cbn [reported]. rewrite occ_cons. cbn. destruct (x =? v); split; try contradiction; lia. }
  inversion HS as [|? ? HS' HX]; subst. inversion HS' as [|? ? _ HY]; subst. inversion HX; subst.
  rewrite reported_cons.
  assert (LT : forall c, last = Some c -> Forall (Z.le c) (y :: l)). { intros c Hc. specialize (HL c Hc). inversion HL; assumption. }
  assert (LY : forall c, Some y = Some c -> Forall (Z.le c) (y :: l)). { intros c Hc. injection Hc as <-. constructor; [lia|assumption]. }
  destruct (Z.eqb_spec y x) as [->|Hyx]; cbn [andb].
  - destruct last as [c|].
    + destruct (Z.eqb_spec x c) as [->|Hc]; cbn [negb].
      * rewrite IH by assumption. rewrite !occ_cons. destruct (Z.eqb_spec c v).
        -- subst. split; intros [_ X]; exfalso; apply X; reflexivity.
        -- reflexivity.
      * cbn [In]. rewrite IH by assumption. rewrite !occ_cons. destruct (Z.eqb_spec x v).
        -- subst. split; [intros _; split; [lia|congruence]|auto].
        -- assert (Some x <> Some v) by congruence. split; [intros [X|[X _]]; [lia|]; split; [lia|]|intros [X _]; right; split; [lia|assumption]].
           intros HC. injection HC as HC. subst c. specialize (HL v eq_refl). inversion HL as [|? ? L1 L2]; subst.
           assert (2 <= occurrences v l)%nat by (revert X; rewrite ?occ_cons; destruct (Z.eqb_spec x v); lia).
           assert (HIn : In v l) by (apply occ_in; lia). rewrite Forall_forall in HY. specialize (HY v HIn). lia.
    + cbn [In]. rewrite IH by assumption. rewrite !occ_cons. destruct (Z.eqb_spec x v).
      * subst. split; [intros _; split; [lia|congruence]|auto].
      * assert (Some x <> Some v) by congruence. split; [intros [X|[X _]]; [lia|]; split; [lia|discriminate]|intros [X _]; right; split; [lia|assumption]].
  - rewrite IH by assumption. rewrite (occ_cons v x). destruct (Z.eqb_spec x v); [|reflexivity]. subst v.
    assert (occurrences x (y :: l) = 0)%nat.
    { assert (NI : ~ In x (y :: l)). { intros [X|X]; [congruence|]. rewrite Forall_forall in HY. specialize (HY x X). lia. }
      rewrite occ_in in NI. lia. }
    split; intros [X _]; exfalso; lia.
Qed.
Lemma reported_increasing l : forall last, StronglySorted Z.le l -> (forall c, last = Some c -> Forall (Z.le c) l) ->
  StronglySorted Z.lt (reported last l).
Proof.
  induction l as [|x l IH]; intros last HS HL; [constructor|]. destruct l as [|y l]; [constructor|].
  inversion HS as [|? ? HS' HX]; subst. inversion HS' as [|? ? _ HY]; subst.
  rewrite reported_cons.
  assert (LT : forall c, last = Some c -> Forall (Z.le c) (y :: l)). { intros c Hc. specialize (HL c Hc). inversion HL; assumption. }
  assert (LY : forall c, Some y = Some c -> Forall (Z.le c) (y :: l)). { intros c Hc. injection Hc as <-. constructor; [lia|assumption]. }
  destruct (_ && _); [|apply IH; assumption].
  constructor; [apply IH; assumption|]. apply Forall_forall. intros v Hv. apply reported_in in Hv; [|assumption|assumption].
  destruct Hv as [Hv Hn]. assert (In v (y :: l)) by (apply occ_in; lia). specialize (LY y eq_refl). rewrite Forall_forall in LY. specialize (LY v H).
  assert (v <> y) by congruence. lia.
Qed.

Lemma plain_intersect_ok s1 c1 A s2 c2 B : holds s1 c1 A -> holds s2 c2 B ->
  exists r, plain_intersect s1 c1 s2 c2 = Ok (r, length r) /\ increasing r /\
    forall v, In v r <-> (2 <= occurrences v A + occurrences v B)%nat.
Proof.
  intros H1 H2. unfold plain_intersect. rewrite (join_ok _ _ _ _ _ _ H1 H2). cbn [bind].
  set (lu := qsort (A ++ B)). exists (reported None lu).
  assert (LL : length lu = (c1 + c2)%nat). { destruct H1 as [-> _], H2 as [-> _]. unfold lu. rewrite (Permutation_length (qsort_perm _)). apply app_length. }
  assert (E : exists t, for_up (c1 + c2 - 1) 1 (count_step lu) (0%nat, None) = Ok (length (reported None lu), t) /\
     collect (S (length lu)) lu (length (reported None lu)) 1 0 (repeat 0 (length (reported None lu))) = Ok (reported None lu)).
  { destruct lu as [|x l] eqn:EL.
    - exists None. rewrite <- LL. split; reflexivity.
    - destruct (count_loop l [] x 0%nat None None (x :: l) eq_refl I) as [t E]. exists t. rewrite <- LL. cbn [length Nat.sub]. rewrite Nat.sub_0_r. split; [exact E|].
      exact (collect_loop l [] x [] (x :: l) (S (S (length l))) eq_refl ltac:(lia)). }
  destruct E as [t [E1 E2]]. rewrite E1. cbn [bind]. rewrite E2. cbn [bind]. split; [reflexivity|].
  assert (HS : StronglySorted Z.le lu) by apply qsort_sorted.
  split; [apply reported_increasing; [exact HS|discriminate]|].
  intros v. rewrite reported_in; [|exact HS|discriminate]. unfold lu. rewrite (occ_perm v _ _ (qsort_perm _)), occ_app. split; [intros [X _]; exact X|intros X; split; [exact X|discriminate]].
Qed.

(** *** std::set *)
Lemma set_insert_spec x s : increasing s -> increasing (set_insert x s) /\ (forall v, In v (set_insert x s) <-> v = x \/ In v s).
Proof.
  unfold increasing. induction s as [|y s IH]; intros H; cbn [set_insert].
  - split; [repeat constructor|]. cbn. intuition.
  - inversion H as [|? ? Hs Hy]; subst. destruct (Z.compare_spec x y).
    + subst. split; [exact H|]. cbn. intuition.
    + split; [constructor; [exact H|constructor; [lia|eapply Forall_impl; [|exact Hy]; cbn; intros; lia]]|]. cbn. intuition.
    + destruct (IH Hs) as [I1 I2]. split.
      * constructor; [exact I1|]. apply Forall_forall. intros v Hv. apply I2 in Hv. destruct Hv as [->|Hv]; [lia|]. rewrite Forall_forall in Hy. apply Hy. exact Hv.
      * intros v. cbn. rewrite I2. intuition.
Qed.
Lemma increasing_nodup s : increasing s -> NoDup s.
Proof. unfold increasing. induction 1; constructor; [|assumption]. rewrite Forall_forall in H0. intros X. specialize (H0 _ X). lia. Qed.
Lemma increasing_unique s : forall t, increasing s -> increasing t -> (forall v, In v s <-> In v t) -> s = t.
Proof.
  unfold increasing. induction s as [|x s IH]; intros [|y t] H1 H2 E.
  - reflexivity. - specialize (E y). cbn in E. tauto. - specialize (E x). cbn in E. tauto.
  - inversion H1 as [|? ? S1 F1]; subst. inversion H2 as [|? ? S2 F2]; subst. rewrite Forall_forall in F1, F2.
    assert (x = y). { pose proof (proj1 (E x) (or_introl eq_refl)) as [X|X]; [congruence|]. pose proof (proj2 (E y) (or_introl eq_refl)) as [Y|Y]; [congruence|].
      specialize (F1 _ Y). specialize (F2 _ X). lia. }
    subst y. f_equal. apply IH; [assumption|assumption|]. intros v. split; intros Hv.
    + pose proof (proj1 (E v) (or_intror Hv)) as [X|X]; [|exact X]. subst v. specialize (F1 _ Hv). lia.
    + pose proof (proj2 (E v) (or_intror Hv)) as [X|X]; [|exact X]. subst v. specialize (F2 _ Hv). lia.
Qed.
Lemma set_eqb_eq s : forall t, set_eqb s t = true <-> s = t.
Proof.
  induction s as [|x s IH]; intros [|y t]; cbn; try (split; [discriminate|discriminate]); [tauto|].
  rewrite andb_true_iff, Z.eqb_eq, IH. split; [intros [-> ->]; reflexivity|intros X; injection X; auto].
Qed.

Lemma check_ok a n A b : holds a n A -> exists ans, checkIntersectionCorrectness a n b = Ok ans /\
  (ans = true <-> length A = length b /\ (forall v, In v A <-> In v b)).
Proof.
  intros [-> HA]. unfold checkIntersectionCorrectness. destruct (Nat.eqb_spec (length A) (length b)) as [HL|HL]; cbn [negb].
  2:{ exists false. split; [reflexivity|]. split; [discriminate|intros [X _]; contradiction]. }
  assert (G : for_up (length A) 0 (fun i s => do a' <- pget a i; do b' <- aget b i; Ok (set_insert a' (fst s), set_insert b' (snd s))) (@nil Z, @nil Z)
     = for_up (length A) 0 (fun i s => do a' <- aget A i; do b' <- aget b i; Ok (set_insert a' (fst s), set_insert b' (snd s))) ([], [])).
  { destruct HA as [->| ->]; reflexivity. }
  rewrite G. clear G.
  assert (P : exists s1 s2, for_up (length A) 0 (fun i s => do a' <- aget A i; do b' <- aget b i; Ok (set_insert a' (fst s), set_insert b' (snd s))) (@nil Z, @nil Z) = Ok (s1, s2)
     /\ increasing s1 /\ increasing s2 /\ (forall v, In v s1 <-> In v A) /\ (forall v, In v s2 <-> In v b)).
  { assert (Q : forall m, (m <= length A)%nat -> exists s1 s2, for_up m 0 (fun i s => do a' <- aget A i; do b' <- aget b i; Ok (set_insert a' (fst s), set_insert b' (snd s))) (@nil Z, @nil Z) = Ok (s1, s2)
     /\ increasing s1 /\ increasing s2 /\ (forall v, In v s1 <-> In v (firstn m A)) /\ (forall v, In v s2 <-> In v (firstn m b))).
    { induction m; intros Hm. { exists [], []. repeat split; try constructor; cbn; tauto. }
      destruct IHm as [s1 [s2 [E [I1 [I2 [V1 V2]]]]]]; [lia|]. replace (S m) with (m + 1)%nat by lia. rewrite for_up_app, E. cbn [bind for_up Nat.add].
      destruct (aget_lt A m ltac:(lia)) as [x [EX NX]]. destruct (aget_lt b m ltac:(lia)) as [y [EY NY]]. rewrite EX, EY. cbn [bind fst snd].
      destruct (set_insert_spec x s1 I1) as [J1 W1]. destruct (set_insert_spec y s2 I2) as [J2 W2].
      assert (F : forall (l : list Z) z, nth_error l m = Some z -> forall v, In v (firstn (m + 1) l) <-> v = z \/ In v (firstn m l)).
      { intros l z N v. replace (m + 1)%nat with (S m) by lia. rewrite (firstn_snoc _ _ _ N), in_app_iff. cbn. intuition. }
      eexists _, _. split; [reflexivity|]. split; [exact J1|]. split; [exact J2|].
      split; intros v; [rewrite W1, (F A x NX), V1|rewrite W2, (F b y NY), V2]; reflexivity. }
    destruct (Q (length A) (le_n _)) as [s1 [s2 [E [I1 [I2 [V1 V2]]]]]]. rewrite HL in V2. rewrite !firstn_all in V1, V2. exists s1, s2. auto. }
  destruct P as [s1 [s2 [E [I1 [I2 [V1 V2]]]]]]. rewrite E. cbn [bind]. eexists. split; [reflexivity|]. rewrite set_eqb_eq. split.
  - intros ->. split; [exact HL|]. intros v. rewrite <- V1, V2. reflexivity.
  - intros [_ X]. apply increasing_unique; [assumption|assumption|]. intros v. rewrite V1, V2. apply X.
Qed.

(** *** randomData *)
Lemma nodup_len (l : list Z) s : increasing s -> (forall v, In v s <-> In v l) -> length s = length (nodup Z.eq_dec l).
Proof.
  intros H E. apply Permutation_length. apply NoDup_Permutation; [apply increasing_nodup; exact H|apply NoDup_nodup|].
  intros v. rewrite nodup_In. apply E.
Qed.
Lemma copy_set s n : length s = n -> for_up (length s) 0 (fun i d => do v <- aget s i; aset d i v) (repeat 0 n) = Ok s.
Proof.
  intros H. pose proof (copy_loop s 0 (repeat 0 n)) as X. cbn [Nat.add pget firstn app] in X. rewrite X by (rewrite repeat_length; lia).
  rewrite skipn_all2 by (rewrite repeat_length; lia). rewrite app_nil_r. reflexivity.
Qed.
Section R.
Variable rb : nat -> Z -> Z.
Lemma fill_set_ok fuel n bits k0 : forall m s, increasing s -> (forall v, In v s <-> In v (map (fun k => rb k bits) (seq k0 m))) ->
  (m = 0 \/ length s < n)%nat ->
  forall r k', fill_set rb fuel n bits (k0 + m) s = Ok (r, k') ->
  exists m', k' = (k0 + m')%nat /\ (m < m')%nat /\ increasing r /\ (forall v, In v r <-> In v (map (fun k => rb k bits) (seq k0 m'))) /\ (n <= length r)%nat /\
    (1 <= n -> length r = n)%nat.
Proof.
  induction fuel as [|f IH]; intros m s HI HV HM r k' H; [discriminate|]. cbn [fill_set] in H.
  destruct (set_insert_spec (rb (k0 + m) bits) s HI) as [J W].
  assert (V' : forall v, In v (set_insert (rb (k0 + m) bits) s) <-> In v (map (fun k => rb k bits) (seq k0 (S m)))).
  { intros v. rewrite W, HV. rewrite seq_S, map_app, in_app_iff. cbn. intuition. }
  assert (LE : (length (set_insert (rb (k0 + m) bits) s) <= S (length s))%nat).
  { clear. induction s; cbn; [lia|]. destruct (_ ?= _); cbn; lia. }
  destruct (Nat.ltb_spec (length (set_insert (rb (k0 + m) bits) s)) n) as [HB|HB].
  - replace (S (k0 + m)) with (k0 + S m)%nat in H by lia. destruct (IH (S m) _ J V' (or_intror HB) r k' H) as [m' X]. exists m'. intuition lia.
  - apply Ok_inj in H. injection H as <- <-. exists (S m). split; [lia|]. split; [lia|]. split; [exact J|]. split; [exact V'|]. split; [exact HB|].
    intros Hn. destruct HM as [->|HM]; [|lia]. cbn [seq map] in HV.
    assert (s = []) by (destruct s as [|z s]; [reflexivity|]; exfalso; apply (HV z); left; reflexivity). subst s. cbn in *. lia.
Qed.
Lemma fill_set_enough n bits k0 : forall fuel m s M, increasing s -> (forall v, In v s <-> In v (map (fun k => rb k bits) (seq k0 m))) ->
  (m < M)%nat -> (n <= length (distinct_values (fun k => rb k bits) k0 M))%nat -> (M - m <= fuel)%nat ->
  exists r k', fill_set rb fuel n bits (k0 + m) s = Ok (r, k') /\ (k' <= k0 + M)%nat.
Proof.
  induction fuel as [|f IH]; intros m s M HI HV HM HD HF; [lia|]. cbn [fill_set].
  destruct (set_insert_spec (rb (k0 + m) bits) s HI) as [J W].
  assert (V' : forall v, In v (set_insert (rb (k0 + m) bits) s) <-> In v (map (fun k => rb k bits) (seq k0 (S m)))).
  { intros v. rewrite W, HV. rewrite seq_S, map_app, in_app_iff. cbn. intuition. }
  destruct (Nat.ltb_spec (length (set_insert (rb (k0 + m) bits) s)) n) as [HB|HB].
  - assert (S m <> M). { intros <-. unfold distinct_values in HD. rewrite <- (nodup_len _ _ J V') in HD. lia. }
    replace (S (k0 + m)) with (k0 + S m)%nat by lia. apply IH; try assumption; lia.
  - eexists _, _. split; [reflexivity|lia].
Qed.
Lemma randomData_ok fuel n bits k d k' : randomData rb fuel n bits k = Ok (d, k') ->
  exists m l, k' = (k + m)%nat /\ holds d n l /\ increasing l /\ (n = 0 -> m = 0)%nat /\
    (forall v, In v l <-> In v (map (fun i => rb i (s64 bits)) (seq k m))).
Proof.
  unfold randomData. destruct n as [|n]; intros H.
  - apply Ok_inj in H. injection H as <- <-. exists 0%nat, []. split; [lia|]. split; [split; [reflexivity|right; reflexivity]|]. split; [constructor|]. split; [lia|]. cbn. tauto.
  - apply bind_ok in H. destruct H as [[s k1] [H1 H]]. 
    replace k with (k + 0)%nat in H1 by lia. apply (fill_set_ok fuel (S n) (s64 bits) k 0 []) in H1; [|constructor|cbn; tauto|left; reflexivity].
    destruct H1 as [m [-> [_ [I1 [V [_ L]]]]]]. specialize (L ltac:(lia)). rewrite copy_set in H by exact L. cbn [bind] in H. apply Ok_inj in H. injection H as <- <-.
    exists m, s. split; [reflexivity|]. split; [split; [lia|left; reflexivity]|]. split; [exact I1|]. split; [discriminate|exact V].
Qed.
Lemma randomData_enough fuel n bits k M : (1 <= n)%nat -> (n <= length (distinct_values (fun i => rb i (s64 bits)) k M))%nat -> (M <= fuel)%nat ->
  exists l k', randomData rb fuel n bits k = Ok (Some l, k') /\ (k' <= k + M)%nat.
Proof.
  intros Hn HD HF. assert (0 < M)%nat. { destruct M; [|lia]. cbn in HD. lia. }
  destruct (fill_set_enough n (s64 bits) k fuel 0 [] M) as [r [k' [E HK]]]; [constructor|cbn; tauto|lia|exact HD|lia|].
  rewrite Nat.add_0_r in E. unfold randomData. destruct n as [|n]; [lia|]. rewrite E. cbn [bind].
  replace k with (k + 0)%nat in E by lia. apply fill_set_ok in E; [|constructor|cbn; tauto|left; reflexivity]. destruct E as [m [-> [_ [_ [_ [_ L]]]]]]. specialize (L ltac:(lia)).
  rewrite copy_set by exact L. cbn [bind]. exists r, (k + m)%nat. split; [reflexivity|lia].
Qed.
End R.
