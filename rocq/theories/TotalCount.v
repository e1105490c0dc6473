(** Counting placings, for C130. *)
From Coq Require Import Reals Lra Lia Znumtheory Permutation.
From Verif Require Import Base Spec Lib NtlMiss HashBucketsModel HashBucketsSpec HashBucketsProofs PRFModel PRFSpec PolySpec InterpProofs EopsiSpec EopsiFacts CountSpec CountProofs DummySpec CherparsModel CherparsSpec CherparsProofs TotalSpec TotalProofs.
Open Scope nat_scope.

Lemma filter_cons_all {A} (P : list A -> bool) (bs : list A) (As : list (list A)) :
  length (filter P (flat_map (fun a => map (fun b => b :: a) bs) As)) = list_sum (map (fun b => length (filter (fun a => P (b :: a)) As)) bs).
Proof.
  unfold list_sum. induction As as [|a As IH]; cbn [flat_map].
  - cbn [filter length]. induction bs as [|b bs IH]; [reflexivity|]. cbn [map fold_right]. exact IH.
  - rewrite filter_app, app_length, IH. clear IH. induction bs as [|b bs IH]; [reflexivity|].
    cbn [map fold_right filter] in *. destruct (P (b :: a)); cbn [length]; lia.
Qed.
Lemma cnt_S P h k : length (filter P (assignments h (S k))) = list_sum (map (fun b => length (filter (fun a => P (b :: a)) (assignments h k))) (seq 0 h)).
Proof. cbn [assignments]. apply filter_cons_all. Qed.
Lemma sum_const {A} (l : list A) f c : (forall b, In b l -> f b = c) -> list_sum (map f l) = length l * c.
Proof.
  unfold list_sum. intros H. induction l as [|b l IH]; [reflexivity|]. cbn [map fold_right length].
  rewrite H by (left; reflexivity). rewrite IH by (intros x Hx; apply H; now right). lia.
Qed.
(** fixing the last entries, or the first ones *)
Lemma cnt_suffix P h m k : length (filter (fun a => P (skipn k a)) (assignments h (k + m))) = h ^ k * length (filter P (assignments h m)).
Proof.
  revert P. induction k as [|k IH]; intros P; [cbn [skipn Nat.add Nat.pow]; rewrite Nat.mul_1_l; reflexivity|].
  cbn [Nat.add]. rewrite cnt_S. cbn [skipn]. rewrite (sum_const _ _ (h ^ k * length (filter P (assignments h m)))) by (intros b _; apply IH).
  rewrite seq_length. cbn [Nat.pow]. lia.
Qed.
Lemma all_length h n : length (assignments h n) = h ^ n.
Proof.
  apply INR_eq. rewrite assignments_count. rewrite <- pow_INR. reflexivity.
Qed.
Lemma cnt_prefix P h m k : length (filter (fun a => P (firstn k a)) (assignments h (k + m))) = length (filter P (assignments h k)) * h ^ m.
Proof.
  revert P. induction k as [|k IH]; intros P.
  - cbn [firstn Nat.add assignments filter]. rewrite <- all_length. destruct (P []); cbn [length].
    + replace (filter (fun _ : list nat => true) (assignments h m)) with (assignments h m); [lia|].
      induction (assignments h m) as [|x l IHl]; [reflexivity|]. cbn [filter]. now f_equal.
    + replace (filter (fun _ : list nat => false) (assignments h m)) with (@nil (list nat)); [reflexivity|].
      induction (assignments h m) as [|x l IHl]; [reflexivity|]. exact IHl.
  - cbn [Nat.add]. rewrite !cnt_S. cbn [firstn].
    unfold list_sum. induction (seq 0 h) as [|b l IHl]; [reflexivity|]. cbn [map fold_right].
    rewrite (IH (fun a => P (b :: a))). lia.
Qed.
Lemma filter_mono {A} (f g : A -> bool) l : (forall x, f x = true -> g x = true) -> length (filter f l) <= length (filter g l).
Proof.
  intros H. induction l as [|x l IH]; [apply le_n|]. cbn [filter]. specialize (H x). destruct (f x); [rewrite (H eq_refl); cbn [length]; lia|].
  destruct (g x); cbn [length]; lia.
Qed.
Lemma filter_length_le_all {A} (f : A -> bool) l : length (filter f l) <= length l.
Proof. induction l as [|x l IH]; [apply le_n|]. cbn [filter]. destruct (f x); cbn [length]; lia. Qed.
Lemma load_app a b i : load (a ++ b) i = load a i + load b i.
Proof. unfold load. apply count_occ_app. Qed.
Lemma crowded_true h l a : crowded h l a = true <-> exists i, i < h /\ l <= load a i.
Proof.
  unfold crowded. rewrite existsb_exists. split; intros [i [I Q]]; exists i.
  - apply in_seq in I. apply Nat.leb_le in Q. lia.
  - split; [apply in_seq; lia|]. apply Nat.leb_le. lia.
Qed.
Lemma crowded_perm h l a b : Permutation a b -> crowded h l a = crowded h l b.
Proof.
  intros P. unfold crowded. replace (fun i => Nat.leb l (load b i)) with (fun i => Nat.leb l (load b i)) by reflexivity.
  induction (seq 0 h) as [|i s IH]; [reflexivity|]. cbn [existsb]. rewrite IH. f_equal. unfold load.
  rewrite (proj1 (Permutation_count_occ Nat.eq_dec a b) P i). reflexivity.
Qed.

Open Scope R_scope.
Lemma pow_pos_nat h n : (0 < h)%nat -> (0 < h ^ n)%nat.
Proof. intros H. apply Nat.neq_0_lt_0. apply Nat.pow_nonzero. lia. Qed.
Lemma probability_of h n l : (0 < h)%nat -> INR (length (filter (crowded h l) (assignments h n))) = probability h n l * INR (h ^ n).
Proof.
  intros H. unfold probability. rewrite all_length. field. apply not_0_INR. pose proof (pow_pos_nat h n H). lia.
Qed.
(** more numbers, or a smaller capacity: more crowded *)
Lemma probability_mono h m n l l' : (0 < h)%nat -> (m <= n)%nat -> (l' <= l)%nat -> probability h m l <= probability h n l'.
Proof.
  intros H Hm Hl. replace n with (m + (n - m))%nat by lia. set (d := (n - m)%nat).
  assert (P1 := pow_pos_nat h m H). assert (P2 := pow_pos_nat h d H).
  assert (A : (length (filter (crowded h l) (assignments h m)) * h ^ d <= length (filter (crowded h l') (assignments h (m + d))))%nat).
  { rewrite <- cnt_prefix. apply filter_mono. intros a Q. apply crowded_true in Q. apply crowded_true. destruct Q as [i [I Q]]. exists i. split; [exact I|].
    rewrite <- (firstn_skipn m a), load_app. lia. }
  apply le_INR in A. rewrite mult_INR in A. rewrite !probability_of in A by exact H. rewrite Nat.pow_add_r, !mult_INR in A.
  apply lt_INR in P1, P2. cbn [INR] in P1, P2.
  apply (Rmult_le_reg_r (INR (h ^ m) * INR (h ^ d))); [apply Rmult_lt_0_compat; assumption|]. lra.
Qed.

(** pairs *)
Lemma pairs_bound {A B} (c1 c2 : A -> bool) (g : A -> B -> bool) (eps : R) (As : list A) (Vs : list B) :
  0 <= eps ->
  (forall a, In a As -> c1 a = false -> c2 a = false -> INR (length (filter (g a) Vs)) <= eps * INR (length Vs)) ->
  INR (length (filter (fun ax => c1 (fst ax) || c2 (fst ax) || g (fst ax) (snd ax)) (list_prod As Vs))) <=
    (INR (length (filter c1 As)) + INR (length (filter c2 As)) + eps * INR (length As)) * INR (length Vs).
Proof.
  intros He H. set (bad := fun ax : A * B => c1 (fst ax) || c2 (fst ax) || g (fst ax) (snd ax)).
  assert (V0 : 0 <= INR (length Vs)) by apply pos_INR.
  induction As as [|a As IH]; [cbn; lra|].
  assert (IH' : INR (length (filter bad (list_prod As Vs))) <= (INR (length (filter c1 As)) + INR (length (filter c2 As)) + eps * INR (length As)) * INR (length Vs))
    by (apply IH; intros x Hx; apply H; now right). clear IH.
  cbn [list_prod]. rewrite filter_app, app_length, plus_INR. cbn [length]. rewrite S_INR.
  assert (E : length (filter bad (map (fun y => (a, y)) Vs)) = length (filter (fun y => c1 a || c2 a || g a y) Vs)).
  { clear. unfold bad. induction Vs as [|y Vs IH]; [reflexivity|]. cbn [map filter fst snd]. destruct (c1 a || c2 a || g a y); cbn [length]; lia. }
  rewrite E. assert (U : (length (filter (fun y => (c1 a || c2 a || g a y)%bool) Vs) <= length Vs)%nat) by (apply filter_length_le_all).
  apply le_INR in U. specialize (H a (or_introl eq_refl)). cbn [filter].
  assert (EV : 0 <= eps * INR (length Vs)) by (apply Rmult_le_pos; lra).
  destruct (c1 a) eqn:E1; destruct (c2 a) eqn:E2; cbn [orb length] in *; rewrite ?S_INR; try nra.
  specialize (H eq_refl eq_refl). change (filter (fun y => g a y) Vs) with (filter (g a) Vs). nra.
Qed.

(** * A hash algorithm for every placing *)
Open Scope Z_scope.
Fixpoint assigned (zs : list Z) (a : list nat) (z : Z) : nat :=
  match zs, a with z' :: zs', b :: a' => if z =? z' then b else assigned zs' a' z | _, _ => 0%nat end.
Definition al_of (L : nat) (zs : list Z) (a : list nat) : halgo Z :=
  {| ha_size := S L; ha_hash := fun z => le_bytes (S L) (Z.of_nat (assigned zs a z)) |}.
Lemma assigned_map (f : Z -> nat) zs z : In z zs -> assigned zs (map f zs) z = f z.
Proof. induction zs as [|x zs IH]; intros H; [destruct H|]. cbn [map assigned]. destruct (Z.eqb_spec z x); [now subst|]. destruct H as [->|H]; [contradiction|now apply IH]. Qed.
Lemma assigned_all zs a : NoDup zs -> length a = length zs -> map (assigned zs a) zs = a.
Proof.
  intros ND. revert a. induction ND as [|x zs Hx ND IH]; intros [|b a] HL; try discriminate; [reflexivity|].
  cbn [map assigned]. rewrite Z.eqb_refl. f_equal. transitivity (map (assigned zs a) zs); [|apply IH; cbn in HL; lia]. apply map_ext_in. intros z Hz.
  destruct (Z.eqb_spec z x); [subst; contradiction|reflexivity].
Qed.
Lemma assigned_lt L zs a z : (0 < L)%nat -> Forall (fun b => (b < L)%nat) a -> (assigned zs a z < L)%nat.
Proof.
  intros HL. revert a. induction zs as [|x zs IH]; intros a F; [destruct a; exact HL|]. destruct F as [|b a Hb F]; [exact HL|]. cbn [assigned].
  destruct (z =? x); [exact Hb|]. now apply IH.
Qed.
Lemma big_base L : Z.of_nat L < 256 ^ Z.of_nat L.
Proof. induction L as [|L IH]; [reflexivity|]. rewrite Nat2Z.inj_succ, Z.pow_succ_r by lia. lia. Qed.
Lemma al_of_index L zs a z : (0 < L)%nat -> Forall (fun b => (b < L)%nat) a -> index_of (al_of L zs a) L z = assigned zs a z.
Proof.
  intros HL F. unfold index_of, al_of. cbn [ha_size ha_hash]. rewrite firstn_all2 by (rewrite le_bytes_length; lia).
  rewrite LE_le_val, le_val_le_bytes. assert (H := assigned_lt L zs a z HL F). assert (B := big_base L). assert (256 ^ Z.of_nat L <= 256 ^ Z.of_nat (S L)) by (apply Z.pow_le_mono_r; lia).
  rewrite (Z.mod_small _ (256 ^ _)) by lia. rewrite Z.mod_small by lia. apply Nat2Z.id.
Qed.
Lemma in_assignments_iff h n a : In a (assignments h n) <-> length a = n /\ Forall (fun b => (b < h)%nat) a.
Proof.
  split.
  - revert a. induction n as [|n IH]; intros a H; cbn [assignments] in H.
    + destruct H as [<-|[]]. auto.
    + apply in_flat_map in H. destruct H as [x [Hx H]]. apply in_map_iff in H. destruct H as [b [<- Hb]]. apply in_seq in Hb. destruct (IH x Hx) as [H1 H2].
      split; [cbn; lia|]. constructor; [lia|exact H2].
  - intros [<- F]. apply in_assignments. exact F.
Qed.

(** * everyone *)
Lemma among_in l v : among l v = true <-> In v l.
Proof. unfold among. rewrite existsb_exists. split; [intros [x [Hx E]]; apply Z.eqb_eq in E; now subst|]. intros H. exists v. split; [exact H|apply Z.eqb_refl]. Qed.
Lemma among_not l v : negb (among l v) = true <-> ~ In v l.
Proof. rewrite negb_true_iff, <- not_true_iff_false, among_in. reflexivity. Qed.
Lemma split_perm (f : Z -> bool) l : Permutation (filter (fun v => negb (f v)) l ++ filter f l) l.
Proof.
  induction l as [|x l IH]; [constructor|]. cbn [filter]. destruct (f x); cbn [negb].
  - apply Permutation_sym, Permutation_cons_app, Permutation_sym. exact IH.
  - cbn [app]. now constructor.
Qed.
Definition only rawA rawB := filter (fun v => negb (among rawB v)) rawA.
Lemma partA rawA rawB : Permutation (firstn (length rawA) (everyone rawA rawB)) rawA.
Proof.
  unfold everyone. assert (P := split_perm (among rawB) rawA). rewrite app_assoc. rewrite <- (Permutation_length P) at 1.
  rewrite firstn_app, firstn_all, Nat.sub_diag. cbn [firstn]. rewrite app_nil_r. exact P.
Qed.
Lemma partB rawA rawB : NoDup rawA -> NoDup rawB -> Permutation (skipn (length (only rawA rawB)) (everyone rawA rawB)) rawB.
Proof.
  intros NA NB. unfold everyone, only. rewrite skipn_app, skipn_all, Nat.sub_diag. cbn [skipn app].
  eapply perm_trans; [|apply (split_perm (among rawA))]. eapply perm_trans; [apply Permutation_app_comm|]. apply Permutation_app_head.
  apply NoDup_Permutation; [now apply NoDup_filter|now apply NoDup_filter|]. intros v. rewrite !filter_In, !among_in. tauto.
Qed.
Lemma nodup_app {A} (l m : list A) : NoDup l -> NoDup m -> (forall x, In x l -> ~ In x m) -> NoDup (l ++ m).
Proof.
  intros NL NM H. induction NL as [|x l Hx NL IH]; [exact NM|]. cbn [app]. constructor.
  - intros I. apply in_app_or in I. destruct I as [I|I]; [contradiction|]. apply (H x); [now left|exact I].
  - apply IH. intros y Hy. apply H. now right.
Qed.
Lemma everyone_nodup rawA rawB : NoDup rawA -> NoDup rawB -> NoDup (everyone rawA rawB).
Proof.
  intros NA NB. unfold everyone. rewrite app_assoc. assert (P := split_perm (among rawB) rawA). apply nodup_app.
  - apply (Permutation_NoDup (Permutation_sym P) NA).
  - now apply NoDup_filter.
  - intros x Hx. apply (Permutation_in _ P) in Hx. rewrite filter_In, among_not. tauto.
Qed.
Lemma everyone_in rawA rawB v : In v (everyone rawA rawB) <-> In v rawA \/ In v rawB.
Proof.
  unfold everyone. rewrite !in_app_iff, !filter_In, !among_not, among_in. destruct (in_dec Z.eq_dec v rawA); destruct (in_dec Z.eq_dec v rawB); tauto.
Qed.
Lemma padded_inj w v v' : 0 <= w -> padded w v = padded w v' -> v = v'.
Proof. intros Hw. unfold padded. assert (0 < 2 ^ w) by (apply Z.pow_pos_nonneg; lia). nia. Qed.

(** * Not crowded is fitting *)
Lemma crowded_fits al L h zs a : Permutation a (map (index_of al L) zs) -> crowded L (S h) a = false -> fits al L h zs.
Proof.
  intros P Q j Hj. rewrite <- load_belonging. destruct (Nat.le_gt_cases (load (map (index_of al L) zs) j) h) as [G|G]; [exact G|exfalso].
  rewrite (crowded_perm _ _ _ _ P) in Q. assert (crowded L (S h) (map (index_of al L) zs) = true) by (apply crowded_true; exists j; lia). congruence.
Qed.
Lemma placing_A al L w rawA rawB :
  Permutation (firstn (length rawA) (placing al L w rawA rawB)) (map (index_of al L) (map (padded w) rawA)).
Proof. unfold placing. rewrite map_map, firstn_map. apply Permutation_map. apply partA. Qed.
Lemma placing_B al L w rawA rawB : NoDup rawA -> NoDup rawB ->
  Permutation (skipn (length (only rawA rawB)) (placing al L w rawA rawB)) (map (index_of al L) (map (padded w) rawB)).
Proof. intros NA NB. unfold placing. rewrite map_map, skipn_map. apply Permutation_map. now apply partB. Qed.
Lemma only_length rawA rawB : NoDup rawA -> NoDup rawB -> (length (only rawA rawB) + length rawB = length (everyone rawA rawB))%nat.
Proof.
  intros NA NB. rewrite <- (Permutation_length (partB rawA rawB NA NB)), skipn_length. unfold everyone, only. rewrite app_length. lia.
Qed.
Lemma length_A rawA rawB : (length rawA <= length (everyone rawA rawB))%nat.
Proof. rewrite <- (Permutation_length (partA rawA rawB)) at 1. rewrite firstn_length. lia. Qed.

(** * The bad outcomes *)
Definition bad_outcome (p pad : Z) (L h : nat) (rawA rawB : list Z) (ax : list nat * list Z) : bool :=
  let zs := map (padded pad) (everyone rawA rawB) in
  crowded L (S h) (firstn (length rawA) (fst ax)) || crowded L (S h) (skipn (length (only rawA rawB)) (fst ax)) ||
  spoiled p pad L h (al_of L zs (fst ax)) (map (padded pad) rawA) (map (padded pad) rawB) (snd ax).

Lemma al_of_placing L w rawA rawB a : (0 < L)%nat -> 0 <= w -> NoDup rawA -> NoDup rawB ->
  In a (assignments L (length (everyone rawA rawB))) -> placing (al_of L (map (padded w) (everyone rawA rawB)) a) L w rawA rawB = a.
Proof.
  intros HL Hw NA NB H. apply in_assignments_iff in H. destruct H as [H F]. unfold placing.
  rewrite <- (map_map (padded w) (index_of _ L)). erewrite map_ext; [|intros z; apply al_of_index; assumption].
  apply assigned_all; [|rewrite map_length; exact H].
  apply FinFun.Injective_map_NoDup; [intros v v' E; apply (padded_inj w v v' Hw E)|]. now apply everyone_nodup.
Qed.
Lemma al_of_same al L w rawA rawB raw : (0 < L)%nat -> (forall v, In v raw -> In v rawA \/ In v rawB) ->
  same_places (al_of L (map (padded w) (everyone rawA rawB)) (placing al L w rawA rawB)) al L (map (padded w) raw).
Proof.
  intros HL H z Hz. assert (I : In z (map (padded w) (everyone rawA rawB))).
  { apply in_map_iff in Hz. destruct Hz as [v [<- Hv]]. apply in_map. apply everyone_in. now apply H. }
  rewrite al_of_index; [|exact HL|].
  - unfold placing. rewrite <- (map_map (padded w) (index_of al L)). symmetry. now apply assigned_map.
  - apply Forall_forall. intros b Hb. unfold placing in Hb. apply in_map_iff in Hb. destruct Hb as [v [<- _]]. apply index_of_lt. exact HL.
Qed.

Open Scope R_scope.
Lemma bad_count p b L h rawA rawB :
  prime p -> (2 < p)%Z -> (0 < L)%nat -> (0 <= b < num_bits p)%Z -> NoDup rawA -> NoDup rawB ->
  Forall (in_field p) (padded_data p b rawA) -> Forall (in_field p) (padded_data p b rawB) ->
  let pad := pad_width p b in
  let m := ((L * h - length rawA) + (L * h - length rawB))%nat in
  let N := (m + 2 * h * L)%nat in
  INR (length (filter (bad_outcome p pad L h rawA rawB) (outcomes p L N rawA rawB))) <=
    (probability L (length rawA) (S h) + probability L (length rawB) (S h) + INR L / IZR (2 ^ pad) + INR (m * h) / IZR p) *
    INR (length (outcomes p L N rawA rawB)).
Proof.
  intros HPr HOdd HL HW NA NB FA FB pad m N.
  assert (W0 : (0 <= pad)%Z) by (unfold pad, pad_width; lia).
  assert (P2 : (0 < 2 ^ pad)%Z) by (apply Z.pow_pos_nonneg; lia).
  set (M := length (everyone rawA rawB)). set (eps := INR L / IZR (2 ^ pad) + INR (m * h) / IZR p).
  assert (R2 : 0 < IZR (2 ^ pad)) by (apply IZR_lt; lia). assert (RP : 0 < IZR p) by (apply IZR_lt; lia).
  assert (E0 : 0 <= eps) by (apply Rplus_le_le_0_compat; apply Rmult_le_pos; try apply pos_INR; left; now apply Rinv_0_lt_compat).
  set (c1 := fun a => crowded L (S h) (firstn (length rawA) a)). set (c2 := fun a => crowded L (S h) (skipn (length (only rawA rawB)) a)).
  set (g := fun a x => spoiled p pad L h (al_of L (map (padded pad) (everyone rawA rawB)) a) (map (padded pad) rawA) (map (padded pad) rawB) x).
  assert (PB := pairs_bound c1 c2 g eps (assignments L M) (vectors p N) E0).
  eapply Rle_trans; [apply PB|].
  - intros a Ha Q1 Q2. unfold c1 in Q1. unfold c2 in Q2. unfold g. set (al := al_of L (map (padded pad) (everyone rawA rawB)) a).
    assert (EP : placing al L pad rawA rawB = a) by (apply al_of_placing; assumption).
    assert (fA : fits al L h (map (padded pad) rawA)) by (apply (crowded_fits _ _ _ _ _ (placing_A al L pad rawA rawB)); rewrite EP; exact Q1).
    assert (fB : fits al L h (map (padded pad) rawB)) by (apply (crowded_fits _ _ _ _ _ (placing_B al L pad rawA rawB NA NB)); rewrite EP; exact Q2).
    assert (C := spoiled_count p pad L h al (map (padded pad) rawA) (map (padded pad) rawB) HPr HOdd HL W0 FA FB fA fB).
    rewrite !map_length in C. fold m in C. fold N in C. rewrite <- (vectors_length p N) in C by lia.
    change (filter (fun x => spoiled p pad L h al (map (padded pad) rawA) (map (padded pad) rawB) x) (vectors p N)) with
      (filter (spoiled p pad L h al (map (padded pad) rawA) (map (padded pad) rawB)) (vectors p N)).
    apply IZR_le in C. rewrite !mult_IZR, plus_IZR, !mult_IZR, <- !INR_IZR_INZ in C.
    apply (Rmult_le_reg_r (IZR (2 ^ pad) * IZR p)); [now apply Rmult_lt_0_compat|]. eapply Rle_trans; [exact C|]. apply Req_le. unfold eps. field. lra.
  - unfold outcomes. fold M. rewrite prod_length, (mult_INR (length (assignments L M))), <- Rmult_assoc. apply Rmult_le_compat_r; [apply pos_INR|]. rewrite all_length.
    assert (LA : (length rawA <= M)%nat) by apply length_A.
    assert (LB : (length (only rawA rawB) + length rawB = M)%nat) by (apply only_length; assumption).
    assert (X1 : INR (length (filter c1 (assignments L M))) = probability L (length rawA) (S h) * INR (L ^ M)).
    { unfold c1. replace M with (length rawA + (M - length rawA))%nat by lia. rewrite cnt_prefix, mult_INR, probability_of by exact HL.
      rewrite (Nat.pow_add_r L (length rawA)), mult_INR. ring. }
    assert (X2 : INR (length (filter c2 (assignments L M))) = probability L (length rawB) (S h) * INR (L ^ M)).
    { unfold c2. rewrite <- LB, cnt_suffix, mult_INR, probability_of by exact HL. rewrite (Nat.pow_add_r L), mult_INR. ring. }
    rewrite X1, X2. apply Req_le. unfold eps. ring.
Qed.
