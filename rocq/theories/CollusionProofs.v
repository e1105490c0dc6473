(** What the server and one of the clients know together (for C118). *)
From Verif Require Import Base Spec Lib NtlMiss StrIntModel HashBucketsModel HashBucketsSpec HashBucketsProofs.
From Verif Require Import PRFModel PRFSpec PolyModel PolySpec PolyProofs InterpProofs PolyObjProofs FactorExists EopsiModel EopsiSpec EopsiProofs EopsiBlind EopsiRun EopsiFacts.
From Verif Require Import PrivacyAlg PrivacySpec PrivacyProofs PrivacyRun.
From Coq Require Import Znumtheory Permutation Setoid Lia.

Section C.
Variable p : Z.
Hypothesis HP : prime p.
#[local] Infix "==" := (cong p) (at level 70).
Lemma Hp1 : 1 < p. Proof. destruct HP; assumption. Qed.

(** more values of a bucket polynomial than the bucket has elements give the
    elements *)
Lemma values_give_bucket xs R : Forall (in_field p) xs -> NoDup xs -> Forall (in_field p) R -> (length R < length xs)%nat ->
  exists f, interpolate p xs (map (prod_value p R) xs) = Ok f /\ forall z, 0 <= z < p -> (value p f z = 0 <-> In z R).
Proof.
  intros FX ND FR L. destruct (build_shape p R Hp1) as [[IP _] SL]. exists (build_from_roots p R).
  assert (V : forall x, value p (build_from_roots p R) x = prod_value p R x).
  { intros x. rewrite value_ev. unfold prod_value. apply (build_from_roots_ev p R x). }
  split.
  - rewrite <- (map_ext _ _ V). apply (interpolate_recovers p HP); try assumption. rewrite SL. lia.
  - intros z Hz. rewrite V. apply prod_value_zero; assumption.
Qed.

(** the points where the first random polynomial does not vanish *)
Definition usable (w : list Z) (xs : list Z) : list nat :=
  filter (fun i => negb (omega_value p w (nth i xs 0) =? 0)) (seq 0 (length xs)).
Lemma NoDup_map_nth (xs : list Z) l : NoDup xs -> NoDup l -> (forall i, In i l -> (i < length xs)%nat) -> NoDup (map (fun i => nth i xs 0) l).
Proof.
  intros ND. induction 1 as [|a l N NDl IH]; intros B; [constructor|]. cbn [map]. constructor.
  - intros X. apply in_map_iff in X. destruct X as [b [E Hb]]. apply N.
    assert (b = a); [|subst; exact Hb]. apply (proj1 (NoDup_nth xs 0) ND); [apply B; right; exact Hb|apply B; left; reflexivity|exact E].
  - apply IH. intros i Hi. apply B. right. exact Hi.
Qed.
Lemma filter_split {A} (f : A -> bool) l : (length (filter f l) + length (filter (fun x => negb (f x)) l) = length l)%nat.
Proof. induction l as [|a l IH]; [reflexivity|]. cbn [filter]. destruct (f a); cbn [negb length]; lia. Qed.
Lemma usable_many w xs : Forall (in_field p) xs -> NoDup xs -> (length xs <= length (usable w xs) + length w)%nat.
Proof.
  intros FX ND. unfold usable. set (t := fun i => omega_value p w (nth i xs 0) =? 0).
  pose proof (filter_split t (seq 0 (length xs))) as E. rewrite seq_length in E.
  change (filter (fun i => negb (omega_value p w (nth i xs 0) =? 0)) (seq 0 (length xs))) with (filter (fun i => negb (t i)) (seq 0 (length xs))).
  assert (B : (length (filter t (seq 0 (length xs))) <= length w)%nat); [|lia].
  destruct (Nat.le_gt_cases (length (filter t (seq 0 (length xs)))) (length w)) as [|G]; [assumption|exfalso].
  set (rs := map (fun i => nth i xs 0) (filter t (seq 0 (length xs)))).
  assert (IN : forall i, In i (filter t (seq 0 (length xs))) -> (i < length xs)%nat) by (intros i Hi; apply filter_In in Hi; destruct Hi as [Hi _]; apply in_seq in Hi; lia).
  assert (FR : Forall (in_field p) rs).
  { apply Forall_forall. intros x Hx. apply in_map_iff in Hx. destruct Hx as [i [<- Hi]]. rewrite Forall_forall in FX. apply FX. apply nth_In. apply IN. exact Hi. }
  assert (Z0 : coef (w ++ [1]) (length w) == 0).
  { apply (too_many_roots p HP rs).
    - assert (EM : map (fun x => x mod p) rs = rs).
      { rewrite <- (map_id rs) at 2. apply map_ext_in. intros x Hx. rewrite Forall_forall in FR. apply Z.mod_small. apply FR. exact Hx. }
      rewrite EM. apply NoDup_map_nth; [exact ND|apply NoDup_filter, seq_NoDup|exact IN].
    - rewrite app_length. unfold rs. rewrite map_length. cbn [length]. lia.
    - intros x Hx. apply in_map_iff in Hx. destruct Hx as [i [<- Hi]]. apply filter_In in Hi. destruct Hi as [_ Hi]. unfold t in Hi. apply Z.eqb_eq in Hi.
      rewrite <- omega_ev. rewrite Hi. reflexivity. }
  unfold coef in Z0. rewrite app_nth2, Nat.sub_diag in Z0 by lia. cbn [nth] in Z0. unfold cong in Z0. rewrite Z.mod_1_l, Z.mod_0_l in Z0 by (pose proof Hp1; lia). discriminate.
Qed.

(** at a usable point there is one value that explains what is known *)
Lemma explained v a k zA zB b y q : in_field p y -> v == y + zA -> q == k + zA * a + zB * b -> a mod p <> 0 ->
  forall y', explains p v q k zB a b y' <-> y' = y.
Proof.
  intros Hy Hv Hq Ha y'. unfold explains. split.
  - intros [Hy' E]. assert (E' : (v - y') * a + k + zB * b - q == 0) by (unfold cong; rewrite E, Z.mod_0_l by (pose proof Hp1; lia); reflexivity).
    rewrite Hq, Hv in E'.
    assert (E2 : (y - y') * a == 0) by (rewrite <- E'; apply cong_refl'; ring).
    unfold cong in E2. rewrite Z.mod_0_l in E2 by (pose proof Hp1; lia).
    apply (prime_prod_zero p _ _ HP) in E2. destruct E2 as [E2|E2]; [|contradiction].
    symmetry. apply (cong_eq (p := p)); [exact Hy|exact Hy'|].
    assert (E3 : y - y' == 0) by (unfold cong; rewrite E2, Z.mod_0_l by (pose proof Hp1; lia); reflexivity).
    transitivity (y - y' + y'); [apply cong_refl'; ring|]. rewrite E3. apply cong_refl'. ring.
  - intros ->. split; [exact Hy|].
    assert (E : (v - y) * a + k + zB * b - q == 0); [|unfold cong in E; rewrite Z.mod_0_l in E by (pose proof Hp1; lia); exact E].
    rewrite Hq, Hv. apply cong_refl'. ring.
Qed.
End C.
