(** Polynomials modulo p as a ring, division by products of linear factors,
    and a change of the random polynomials that hides one factor (for C110). *)
From Verif Require Import Base Spec Lib NtlMiss PolyModel PolySpec PolyProofs InterpProofs FactorExists.
From Coq Require Import Znumtheory Setoid Morphisms Permutation Ring.

Definition oppP (f : list Z) : list Z := map (Z.mul (-1)) f.
Definition subP (f g : list Z) : list Z := addZ f (oppP g).
Lemma ev_oppP f x : ev (oppP f) x = - ev f x.
Proof. unfold oppP. rewrite ev_mapmul. ring. Qed.
Lemma coef_oppP f i : coef (oppP f) i = - coef f i.
Proof. unfold oppP. rewrite coef_mapmul. ring. Qed.

(** X - s times f *)
Definition timesX (s : Z) (f : list Z) : list Z := addZ (0 :: f) (map (Z.mul (- s)) f).
Definition linP (s : Z) : list Z := [- s; 1].
Fixpoint prodP (rs : list Z) : list Z := match rs with [] => [1] | r :: t => mulZ (linP r) (prodP t) end.
(** quotient and remainder of f by prodP bs *)
Fixpoint divP (bs f : list Z) : list Z * list Z :=
  match bs with
  | [] => (f, [])
  | s :: t => let f1 := fst (syn s f) in let c := snd (syn s f) in
      (fst (divP t f1), addZ (timesX s (snd (divP t f1))) [c])
  end.

Lemma ev_timesX s f x : ev (timesX s f) x = (x - s) * ev f x.
Proof. unfold timesX. rewrite ev_addZ, ev_mapmul. cbn [ev]. ring. Qed.
Lemma ev_prodP rs x : ev (prodP rs) x = roots_product rs x.
Proof. induction rs as [|r t IH]; [cbn [prodP ev roots_product fold_right]; unfold roots_product; cbn [fold_right]; ring|]. cbn [prodP]. rewrite ev_mulZ, IH. unfold linP. cbn [ev]. unfold roots_product. cbn [fold_right]. ring. Qed.
Lemma divP_ev bs : forall f x, ev f x = ev (fst (divP bs f)) x * ev (prodP bs) x + ev (snd (divP bs f)) x.
Proof.
  induction bs as [|s t IH]; intros f x; [cbn [divP fst snd prodP ev]; ring|].
  cbn [divP fst snd prodP]. rewrite ev_addZ, ev_timesX, ev_mulZ, (syn_ev s f x), (IH (fst (syn s f)) x), syn_rem. unfold linP. cbn [ev]. ring.
Qed.
Lemma length_addZ f g : length (addZ f g) = Nat.max (length f) (length g).
Proof. revert g. induction f as [|a f IH]; intros [|b g]; cbn [addZ length]; try reflexivity. rewrite IH. reflexivity. Qed.
Lemma divP_length bs : forall f, (length (snd (divP bs f)) <= length bs)%nat.
Proof.
  induction bs as [|s t IH]; intros f; [cbn; lia|]. cbn [divP snd]. unfold timesX. rewrite !length_addZ, map_length. cbn [length].
  specialize (IH (fst (syn s f))). lia.
Qed.

Section A.
Variable p : Z.
Hypothesis HP : prime p.
#[local] Notation "a == b" := (cong p a b) (at level 70).
#[local] Notation "f ~ g" := (peq p f g) (at level 70).

#[local] Instance peq_equiv : Equivalence (peq p).
Proof. split; [intros f; apply peq_refl|intros f g; apply peq_sym|intros f g h; apply peq_trans]. Qed.
#[local] Instance addZ_proper : Proper (peq p ==> peq p ==> peq p) addZ.
Proof. intros f f' E g g' E' i. rewrite !coef_addZ, (E i), (E' i). reflexivity. Qed.
#[local] Instance mulZ_proper : Proper (peq p ==> peq p ==> peq p) mulZ.
Proof. intros f f' E g g' E'. apply mulZ_peq; assumption. Qed.
#[local] Instance oppP_proper : Proper (peq p ==> peq p) oppP.
Proof. intros f f' E i. rewrite !coef_oppP, (E i). reflexivity. Qed.
#[local] Instance subP_proper : Proper (peq p ==> peq p ==> peq p) subP.
Proof. intros f f' E g g' E'. unfold subP. rewrite E, E'. reflexivity. Qed.
Lemma by_ev f g : (forall x, ev f x = ev g x) -> f ~ g.
Proof. intros H i. rewrite (ev_inj_Z f g H i). reflexivity. Qed.
Lemma polyP_th : ring_theory [] [1] addZ mulZ subP oppP (peq p).
Proof.
  constructor; intros; try (apply by_ev; intros; rewrite ?ev_addZ, ?ev_mulZ, ?ev_oppP, ?ev_addZ, ?ev_mulZ; cbn [ev]; ring).
  reflexivity.
Qed.
Lemma polyP_ext : ring_eq_ext addZ mulZ oppP (peq p).
Proof. constructor; [exact addZ_proper|exact mulZ_proper|exact oppP_proper]. Qed.
Add Ring polyP : polyP_th (setoid peq_equiv polyP_ext).

Lemma peq_ev f g x : f ~ g -> ev f x == ev g x.
Proof. intros E. apply ev_cong. exact E. Qed.

(** degree below n *)
Definition dlt (n : nat) (f : list Z) : Prop := forall i, (n <= i)%nat -> coef f i == 0.
#[local] Instance dlt_proper n : Proper (peq p ==> iff) (dlt n).
Proof. intros f g E. split; intros H i Hi; [rewrite <- (E i)|rewrite (E i)]; apply H; exact Hi. Qed.
Lemma dlt_len f : dlt (length f) f.
Proof. intros i Hi. rewrite coef_over by exact Hi. reflexivity. Qed.
Lemma dlt_mono m n f : (m <= n)%nat -> dlt m f -> dlt n f.
Proof. intros H D i Hi. apply D. lia. Qed.
Lemma dlt_add n f g : dlt n f -> dlt n g -> dlt n (addZ f g).
Proof. intros A B i Hi. rewrite coef_addZ, (A i Hi), (B i Hi). reflexivity. Qed.
Lemma dlt_opp n f : dlt n f -> dlt n (oppP f).
Proof. intros A i Hi. rewrite coef_oppP, (A i Hi). reflexivity. Qed.
Lemma dlt_sub n f g : dlt n f -> dlt n g -> dlt n (subP f g).
Proof. intros A B. apply dlt_add; [exact A|apply dlt_opp; exact B]. Qed.
Lemma dlt_0 f : dlt 0 f <-> f ~ [].
Proof. split; intros H i; [intros; rewrite coef_nil; apply H; lia|intros _; rewrite (H i), coef_nil; reflexivity]. Qed.
Lemma sum_zero l : (forall x, In x l -> x == 0) -> sum_z l == 0.
Proof.
  induction l as [|x l IH]; intros H; [reflexivity|]. change (sum_z (x :: l)) with (x + sum_z l).
  rewrite (H x (or_introl eq_refl)), IH; [reflexivity|]. intros y Hy. apply H. right. exact Hy.
Qed.
Lemma dlt_mul m n f g : dlt m f -> dlt (S n) g -> dlt (m + n) (mulZ f g).
Proof.
  intros A B k Hk. rewrite coef_mulZ. unfold conv. apply sum_zero. intros y Hy. apply in_map_iff in Hy. destruct Hy as [i [<- Hi]]. apply in_seq in Hi.
  destruct (Nat.le_gt_cases m i) as [H|H].
  - rewrite (A i H). apply cong_refl'. ring.
  - rewrite (B (k - i)%nat) by lia. apply cong_refl'. ring.
Qed.
Lemma coef_lin s f i : coef (mulZ (linP s) f) (S i) == coef f i - s * coef f (S i).
Proof.
  assert (E : mulZ (linP s) f ~ timesX s f) by (apply by_ev; intros x; rewrite ev_mulZ, ev_timesX; unfold linP; cbn [ev]; ring).
  rewrite (E (S i)). unfold timesX. rewrite coef_addZ, coef_cons_S, coef_mapmul. apply cong_refl'. ring.
Qed.
Lemma dlt_lin_inv m s f : dlt (S m) (mulZ (linP s) f) -> dlt m f.
Proof.
  intros H. assert (G : forall k i, (length f <= i + k)%nat -> (m <= i)%nat -> coef f i == 0).
  { induction k as [|k IH]; intros i Hk Hi; [rewrite coef_over by lia; reflexivity|].
    pose proof (H (S i) ltac:(lia)) as X. rewrite coef_lin in X. rewrite (IH (S i)) in X by lia.
    transitivity (coef f i - s * 0); [apply cong_refl'; ring|exact X]. }
  intros i Hi. apply (G (length f)); lia.
Qed.
Lemma dlt_prod_inv bs : forall m f, dlt (length bs + m) (mulZ (prodP bs) f) -> dlt m f.
Proof.
  induction bs as [|s t IH]; intros m f H; cbn [prodP length Nat.add] in H.
  - assert (E : mulZ [1] f ~ f) by ring. rewrite E in H. exact H.
  - assert (E : mulZ (mulZ (linP s) (prodP t)) f ~ mulZ (linP s) (mulZ (prodP t) f)) by ring. rewrite E in H.
    apply IH. apply (dlt_lin_inv _ s). exact H.
Qed.
Lemma prod_dlt rs : dlt (S (length rs)) (prodP rs).
Proof.
  induction rs as [|r t IH]; [exact (dlt_len [1])|]. cbn [prodP length]. intros i Hi. destruct i as [|i]; [lia|]. rewrite coef_lin, (IH i), (IH (S i)) by lia.
  apply cong_refl'. ring.
Qed.
Lemma prod_lead rs : coef (prodP rs) (length rs) == 1.
Proof.
  induction rs as [|r t IH]; [reflexivity|]. cbn [prodP length]. rewrite coef_lin, IH, (prod_dlt t (S (length t))) by lia. apply cong_refl'. ring.
Qed.
Lemma prod_diff rs rs' : length rs = length rs' -> dlt (length rs) (subP (prodP rs) (prodP rs')).
Proof.
  intros E i Hi. unfold subP. rewrite coef_addZ, coef_oppP. destruct (Nat.eq_dec i (length rs)) as [->|].
  - rewrite prod_lead. rewrite E, prod_lead. reflexivity.
  - rewrite (prod_dlt rs i), (prod_dlt rs' i) by lia. reflexivity.
Qed.
Lemma no_quotient bs q r : mulZ (prodP bs) q ~ r -> dlt (length bs) r -> q ~ [] /\ r ~ [].
Proof.
  intros E D. assert (Q : q ~ []).
  { apply dlt_0. apply (dlt_prod_inv bs). rewrite Nat.add_0_r, E. exact D. }
  split; [exact Q|]. rewrite <- E, Q. ring.
Qed.
Lemma div_unique bs q r q' r' : addZ (mulZ (prodP bs) q) r ~ addZ (mulZ (prodP bs) q') r' -> dlt (length bs) r -> dlt (length bs) r' ->
  q ~ q' /\ r ~ r'.
Proof.
  intros E D D'. destruct (no_quotient bs (subP q q') (subP r' r)) as [Q R].
  - transitivity (subP (addZ (mulZ (prodP bs) q) r) (addZ (mulZ (prodP bs) q') r)); [ring|]. rewrite E. ring.
  - apply dlt_sub; assumption.
  - split; [transitivity (addZ (subP q q') q'); [ring|rewrite Q; ring]|].
    transitivity (subP r' (subP r' r)); [ring|rewrite R; ring].
Qed.
Lemma divP_ok bs f : f ~ addZ (mulZ (prodP bs) (fst (divP bs f))) (snd (divP bs f)) /\ dlt (length bs) (snd (divP bs f)).
Proof.
  split; [apply by_ev; intros x; rewrite ev_addZ, ev_mulZ, (divP_ev bs f x); ring|].
  apply (dlt_mono (length (snd (divP bs f)))); [apply divP_length|apply dlt_len].
Qed.

(** comaximal polynomials *)
Definition comax (f g : list Z) : Prop := exists u v, addZ (mulZ u f) (mulZ v g) ~ [1].
Lemma comax_mul f g h : comax f h -> comax g h -> comax (mulZ f g) h.
Proof.
  intros [u [v E]] [u' [v' E']]. exists (mulZ u u'), (addZ (mulZ v (mulZ u' g)) (addZ (mulZ v' (mulZ u f)) (mulZ (mulZ v v') h))).
  transitivity (mulZ (addZ (mulZ u f) (mulZ v h)) (addZ (mulZ u' g) (mulZ v' h))); [ring|]. rewrite E, E'. ring.
Qed.
Lemma comax_sym f g : comax f g -> comax g f.
Proof. intros [u [v E]]. exists v, u. rewrite <- E. ring. Qed.
Lemma comax_one f : comax [1] f.
Proof. exists [1], []. ring. Qed.
Lemma comax_lin r s : ~ r == s -> comax (linP r) (linP s).
Proof.
  intros N. assert (Hp := p_gt_1 p HP). set (d := (s - r) mod p).
  assert (Hd : 0 < d < p).
  { pose proof (Z.mod_pos_bound (s - r) p ltac:(lia)). unfold d. destruct (Z.eq_dec ((s - r) mod p) 0) as [E|]; [|lia].
    exfalso. apply N. symmetry. apply cong_sub_iff; exact E. }
  destruct (inv_mod_ok p HP d Hd) as [i [_ [_ E]]]. exists [i], [- i]. unfold linP.
  assert (X : addZ (mulZ [i] [- r; 1]) (mulZ [- i] [- s; 1]) ~ [i * (s - r)]).
  { apply by_ev. intros x. rewrite ev_addZ, !ev_mulZ. cbn [ev]. ring. }
  rewrite X. intros k. destruct k as [|k]; [|destruct k; reflexivity]. unfold coef. cbn [nth]. rewrite <- E. unfold d. rewrite cong_mod. reflexivity.
Qed.
Lemma comax_prod rs ss : (forall r s, In r rs -> In s ss -> ~ r == s) -> comax (prodP rs) (prodP ss).
Proof.
  induction rs as [|r t IH]; intros H; [apply comax_one|]. cbn [prodP]. apply comax_mul; [|apply IH; intros; apply H; [right|]; assumption].
  apply comax_sym. assert (H' : forall s, In s ss -> ~ s == r) by (intros s Hs E; apply (H r s (or_introl eq_refl) Hs); symmetry; exact E).
  clear H IH. induction ss as [|s ss IH]; [apply comax_one|]. cbn [prodP]. apply comax_mul; [apply comax_lin; apply H'; left; reflexivity|].
  apply IH. intros y Hy. apply H'. right. exact Hy.
Qed.

(** *** exchanging a for a' in a*wA + b*wB *)
(** u is an inverse of a' modulo b *)
Section Swap.
Variables la la' lb : list Z.
#[local] Notation a := (prodP la).
#[local] Notation a' := (prodP la').
#[local] Notation b := (prodP lb).
Definition swapP (u : list Z) (wA wB : list Z) : list Z * list Z :=
  let k := fst (divP lb wA) in let r := snd (divP lb wA) in
  let r' := snd (divP lb (mulZ u (mulZ a r))) in
  let s := fst (divP lb (subP (mulZ a r) (mulZ a' r'))) in
  (addZ (mulZ b k) r', addZ wB (addZ (mulZ (subP a a') k) s)).
End Swap.
Lemma fst_divP_proper lb f g : f ~ g -> fst (divP lb f) ~ fst (divP lb g).
Proof.
  intros E. destruct (divP_ok lb f) as [F1 F2]. destruct (divP_ok lb g) as [G1 G2].
  apply (div_unique lb _ (snd (divP lb f)) _ (snd (divP lb g))); [rewrite <- F1, <- G1; exact E|exact F2|exact G2].
Qed.
Lemma snd_divP_proper lb f g : f ~ g -> snd (divP lb f) ~ snd (divP lb g).
Proof.
  intros E. destruct (divP_ok lb f) as [F1 F2]. destruct (divP_ok lb g) as [G1 G2].
  apply (div_unique lb (fst (divP lb f)) _ (fst (divP lb g)) _); [rewrite <- F1, <- G1; exact E|exact F2|exact G2].
Qed.
Lemma swapP_peq la la' lb u wA wB wA' wB' : wA ~ wA' -> wB ~ wB' ->
  fst (swapP la la' lb u wA wB) ~ fst (swapP la la' lb u wA' wB') /\ snd (swapP la la' lb u wA wB) ~ snd (swapP la la' lb u wA' wB').
Proof.
  intros EA EB. pose proof (fst_divP_proper lb wA wA' EA) as K. pose proof (snd_divP_proper lb wA wA' EA) as R.
  assert (R' : snd (divP lb (mulZ u (mulZ (prodP la) (snd (divP lb wA))))) ~ snd (divP lb (mulZ u (mulZ (prodP la) (snd (divP lb wA')))))).
  { assert (X : mulZ u (mulZ (prodP la) (snd (divP lb wA))) ~ mulZ u (mulZ (prodP la) (snd (divP lb wA')))) by (setoid_rewrite R; reflexivity).
    exact (snd_divP_proper lb _ _ X). }
  unfold swapP. cbn [fst snd]. split; [apply addZ_proper; [apply mulZ_proper; [reflexivity|exact K]|exact R']|].
  assert (S' : fst (divP lb (subP (mulZ (prodP la) (snd (divP lb wA))) (mulZ (prodP la') (snd (divP lb (mulZ u (mulZ (prodP la) (snd (divP lb wA)))))))))
     ~ fst (divP lb (subP (mulZ (prodP la) (snd (divP lb wA'))) (mulZ (prodP la') (snd (divP lb (mulZ u (mulZ (prodP la) (snd (divP lb wA'))))))))))
    by (apply fst_divP_proper; apply subP_proper; apply mulZ_proper; try reflexivity; assumption).
  apply addZ_proper; [exact EB|]. apply addZ_proper; [apply mulZ_proper; [reflexivity|exact K]|exact S'].
Qed.

Section Swap2.
Variables la la' lb u u' v v' : list Z.
Hypothesis La : length la = length lb.
Hypothesis La' : length la' = length lb.
#[local] Notation a := (prodP la).
#[local] Notation a' := (prodP la').
#[local] Notation b := (prodP lb).
Hypothesis HU' : addZ (mulZ u' a') (mulZ v' b) ~ [1].

Variables wA wB : list Z.
#[local] Notation k := (fst (divP lb wA)).
#[local] Notation r := (snd (divP lb wA)).
#[local] Notation r' := (snd (divP lb (mulZ u' (mulZ a r)))).
#[local] Notation s := (fst (divP lb (subP (mulZ a r) (mulZ a' r')))).

Lemma swap_s : mulZ b s ~ subP (mulZ a r) (mulZ a' r').
Proof.
  destruct (divP_ok lb (mulZ u' (mulZ a r))) as [E1 D1].
  destruct (divP_ok lb (subP (mulZ a r) (mulZ a' r'))) as [E2 D2].
  set (q1 := fst (divP lb (mulZ u' (mulZ a r)))) in *. set (ss := s) in *. set (rr := r') in *.
  set (r2 := snd (divP lb (subP (mulZ a r) (mulZ a' rr)))) in *.
  (* a r - a' r' = b * (v' a r + a' q1) *)
  assert (E3 : subP (mulZ a r) (mulZ a' rr) ~ addZ (mulZ b (addZ (mulZ v' (mulZ a r)) (mulZ a' q1))) []).
  { transitivity (subP (mulZ (mulZ a r) (addZ (mulZ u' a') (mulZ v' b))) (mulZ a' rr)); [rewrite HU'; ring|].
    transitivity (addZ (mulZ a' (mulZ u' (mulZ a r))) (subP (mulZ (mulZ a r) (mulZ v' b)) (mulZ a' rr))); [ring|]. rewrite E1. ring. }
  destruct (div_unique lb ss r2 (addZ (mulZ v' (mulZ a r)) (mulZ a' q1)) []) as [_ R0].
  - rewrite <- E2. exact E3.
  - exact D2.
  - apply (dlt_mono 0); [lia|exact (dlt_len [])].
  - etransitivity; [|symmetry; exact E2]. rewrite R0. ring.
Qed.
Lemma swap_same : let w := swapP la la' lb u' wA wB in
  addZ (mulZ a' (fst w)) (mulZ b (snd w)) ~ addZ (mulZ a wA) (mulZ b wB).
Proof.
  cbv zeta. unfold swapP. cbn [fst snd].
  transitivity (addZ (addZ (mulZ a' r') (mulZ b s)) (addZ (mulZ b wB) (mulZ b (mulZ a k)))); [ring|]. rewrite swap_s.
  transitivity (addZ (mulZ a (addZ (mulZ b k) r)) (mulZ b wB)); [ring|].
  rewrite <- (proj1 (divP_ok lb wA)). reflexivity.
Qed.
(** the coefficients from h on do not change *)
Lemma swap_high h : (length lb <= h)%nat -> dlt (S h) wA ->
  let w := swapP la la' lb u' wA wB in dlt h (subP (fst w) wA) /\ dlt h (subP (snd w) wB).
Proof.
  intros Hh DA. cbv zeta. unfold swapP. cbn [fst snd]. destruct (divP_ok lb wA) as [E1 D1].
  assert (DR' : dlt (length lb) r') by apply divP_ok.
  split.
  - assert (E : subP (addZ (mulZ b k) r') wA ~ subP r' r).
    { transitivity (subP (addZ (mulZ b k) r') (addZ (mulZ b k) r)); [rewrite <- E1; reflexivity|ring]. }
    rewrite E. apply (dlt_mono (length lb)); [exact Hh|]. apply dlt_sub; [exact DR'|exact D1].
  - assert (E : subP (addZ wB (addZ (mulZ (subP a a') k) s)) wB ~ addZ (mulZ (subP a a') k) s) by ring. rewrite E. apply dlt_add.
    + replace h with (length lb + (h - length lb))%nat by lia. apply dlt_mul.
      * rewrite <- La. apply prod_diff. congruence.
      * apply (dlt_prod_inv lb). replace (length lb + S (h - length lb))%nat with (S h) by lia.
        assert (EK : mulZ b k ~ subP wA r) by (transitivity (subP (addZ (mulZ b k) r) r); [ring|rewrite <- E1; reflexivity]).
        rewrite EK. apply dlt_sub; [exact DA|]. apply (dlt_mono (length lb)); [lia|exact D1].
    + apply (dlt_mono (length lb)); [exact Hh|]. apply (dlt_prod_inv lb). rewrite swap_s.
      assert (G : forall l x, length l = length lb -> dlt (length lb) x -> dlt (length lb + length lb) (mulZ (prodP l) x)).
      { intros l x HL HX. assert (EC : mulZ (prodP l) x ~ mulZ x (prodP l)) by ring. rewrite EC. apply dlt_mul; [exact HX|]. rewrite <- HL. apply prod_dlt. }
      apply dlt_sub; apply G; assumption.
Qed.
(** and exchanging back gives the old polynomials *)
Hypothesis HU : addZ (mulZ u a) (mulZ v b) ~ [1].
Lemma swap_back : let w := swapP la la' lb u' wA wB in let w' := swapP la' la lb u (fst w) (snd w) in
  fst w' ~ wA /\ snd w' ~ wB.
Proof.
  cbv zeta. destruct (divP_ok lb wA) as [E1 D1]. destruct (divP_ok lb (mulZ u' (mulZ a r))) as [E2 D2].
  set (wA' := fst (swapP la la' lb u' wA wB)). set (wB' := snd (swapP la la' lb u' wA wB)).
  assert (EA' : wA' = addZ (mulZ b k) r') by reflexivity.
  assert (EB' : wB' = addZ wB (addZ (mulZ (subP a a') k) s)) by reflexivity.
  destruct (divP_ok lb wA') as [F1 F2].
  destruct (div_unique lb (fst (divP lb wA')) (snd (divP lb wA')) k r') as [K R]; [rewrite <- F1, EA'; reflexivity|exact F2|exact D2|].
  pose proof swap_s as SS. set (kk := k) in *. set (ss := s) in *. set (rr' := r') in *. set (rr := r) in *.
  unfold swapP. cbn [fst snd]. set (k2 := fst (divP lb wA')) in *. set (r2 := snd (divP lb wA')) in *.
  destruct (divP_ok lb (mulZ u (mulZ a' r2))) as [G1 G2]. set (r3 := snd (divP lb (mulZ u (mulZ a' r2)))) in *. set (q3 := fst (divP lb (mulZ u (mulZ a' r2)))) in *.
  (* u a' r' = u a r - u b s = r - b (v r + u s) *)
  assert (X : mulZ u (mulZ a' r2) ~ addZ (mulZ b (oppP (addZ (mulZ v rr) (mulZ u ss)))) rr).
  { rewrite R. transitivity (subP (mulZ u (mulZ a rr)) (mulZ u (subP (mulZ a rr) (mulZ a' rr')))); [ring|]. rewrite <- SS.
    transitivity (subP (mulZ (addZ (mulZ u a) (mulZ v b)) rr) (mulZ b (addZ (mulZ v rr) (mulZ u ss)))); [ring|]. rewrite HU. ring. }
  destruct (div_unique lb q3 r3 (oppP (addZ (mulZ v rr) (mulZ u ss))) rr) as [_ R3]; [rewrite <- G1; exact X|exact G2|exact D1|].
  split; [rewrite K, R3; symmetry; exact E1|].
  destruct (divP_ok lb (subP (mulZ a' r2) (mulZ a r3))) as [H1 H2].
  set (s3 := fst (divP lb (subP (mulZ a' r2) (mulZ a r3)))) in *.
  destruct (div_unique lb s3 (snd (divP lb (subP (mulZ a' r2) (mulZ a r3)))) (oppP ss) []) as [S3 _].
  - rewrite <- H1, R, R3. transitivity (oppP (subP (mulZ a rr) (mulZ a' rr'))); [ring|]. rewrite <- SS. ring.
  - exact H2.
  - apply (dlt_mono 0); [lia|exact (dlt_len [])].
  - rewrite S3, K, EB'. ring.
Qed.
End Swap2.
End A.
