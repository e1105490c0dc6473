(** Over a prime field every monic polynomial has a factorisation, and there is
    a function computing one: the hypothesis [factors_correctly] is
    satisfiable for every prime. *)
From Verif Require Import Base Spec Lib NtlMiss PolyModel PolySpec PolyProofs InterpProofs.
From Coq Require Import Znumtheory Setoid Morphisms.

(** integer polynomials are determined by their values *)
Lemma ev_zero_Z f : forall N, (forall x, N <= x -> ev f x = 0) -> forall i, coef f i = 0.
Proof.
  induction f as [|c f IH]; intros N H i; [apply coef_nil|].
  assert (Hx : forall x, Z.max N (Z.abs c + 1) <= x -> c = 0 /\ ev f x = 0).
  { intros x Hx. specialize (H x ltac:(lia)). cbn [ev] in H. assert (ev f x = 0); [|nia].
    destruct (Z.eq_dec (ev f x) 0) as [E|E]; [exact E|]. exfalso. nia. }
  destruct i; [apply (Hx _ (Z.le_refl _))|]. rewrite coef_cons_S. eapply IH. intros x Hx'. apply Hx. exact Hx'.
Qed.
Lemma ev_inj_Z f g : (forall x, ev f x = ev g x) -> forall i, coef f i = coef g i.
Proof.
  intros H i. assert (E : coef (addZ f (map (Z.mul (-1)) g)) i = 0).
  { apply (ev_zero_Z _ 0). intros x _. rewrite ev_addZ, ev_mapmul, H. ring. }
  rewrite coef_addZ, coef_mapmul in E. lia.
Qed.
Lemma mulZ_comm f g i : coef (mulZ f g) i = coef (mulZ g f) i.
Proof. apply ev_inj_Z. intros x. rewrite !ev_mulZ. ring. Qed.
Lemma mulZ_assoc f g h i : coef (mulZ f (mulZ g h)) i = coef (mulZ (mulZ f g) h) i.
Proof. apply ev_inj_Z. intros x. rewrite !ev_mulZ. ring. Qed.

Section P.
Variable p : Z.
Hypothesis HP : prime p.
#[local] Notation "a == b" := (cong p a b) (at level 70).
Definition peq (f g : list Z) : Prop := forall i, coef f i == coef g i.

Lemma conv_cong f f' g g' k : peq f f' -> peq g g' -> conv f g k == conv f' g' k.
Proof.
  intros Hf Hg. unfold conv. induction (seq 0 (S k)) as [|i l IH]; [reflexivity|].
  cbn [map sum_z fold_right]. change (fold_right Z.add 0) with sum_z. rewrite IH, (Hf i), (Hg (k - i)%nat). reflexivity.
Qed.
Lemma mulZ_peq f f' g g' : peq f f' -> peq g g' -> peq (mulZ f g) (mulZ f' g').
Proof. intros Hf Hg k. rewrite !coef_mulZ. apply conv_cong; assumption. Qed.
Lemma peq_sym f g : peq f g -> peq g f.
Proof. intros H i. symmetry. apply H. Qed.
Lemma peq_trans f g h : peq f g -> peq g h -> peq f h.
Proof. intros H K i. rewrite (H i). apply K. Qed.

Definition pmulp (a b : list Z) : list Z := norm (map (fun c => c mod p) (mulZ a b)).
Lemma coef_map_mod f i : coef (map (fun c => c mod p) f) i == coef f i.
Proof.
  revert i. induction f as [|c f IH]; intros i; [cbn [map]; reflexivity|]. destruct i; [cbn; apply cong_mod|]. cbn [map]. rewrite !coef_cons_S. apply IH.
Qed.
Lemma pmulp_poly a b : is_poly p (pmulp a b).
Proof.
  pose proof (p_gt_1 p HP). apply norm_is_poly. unfold reduced. rewrite Forall_map. apply Forall_forall. intros; apply Z.mod_pos_bound; lia.
Qed.
Lemma pmulp_peq a b : peq (pmulp a b) (mulZ a b).
Proof. intros i. unfold pmulp. rewrite coef_norm. apply coef_map_mod. Qed.
Lemma pmulp_product a b : is_product p a b (pmulp a b).
Proof. apply is_product_cong. apply pmulp_peq. Qed.
Lemma product_pmulp a b h : is_poly p h -> (is_product p a b h <-> pmulp a b = h).
Proof.
  intros Ph. split; [|intros <-; apply pmulp_product]. intros H. pose proof (proj1 (is_product_cong p a b h) H) as H'. clear H. rename H' into H.
  apply (is_poly_ext p); [apply p_gt_1; exact HP|apply pmulp_poly|exact Ph|]. intros i. rewrite (pmulp_peq a b i), (H i). reflexivity.
Qed.
Lemma pmulp_ext a b c d : peq (mulZ a b) (mulZ c d) -> pmulp a b = pmulp c d.
Proof.
  intros H. apply (is_poly_ext p); [apply p_gt_1; exact HP|apply pmulp_poly|apply pmulp_poly|]. intros i.
  rewrite (pmulp_peq a b i), (pmulp_peq c d i). apply H.
Qed.
Lemma peq_refl f : peq f f.
Proof. intros i. reflexivity. Qed.
Lemma pmulp_comm a b : pmulp a b = pmulp b a.
Proof. apply pmulp_ext. intros i. apply cong_refl'. apply mulZ_comm. Qed.
Lemma pmulp_assoc a b c : pmulp a (pmulp b c) = pmulp (pmulp a b) c.
Proof.
  apply pmulp_ext. eapply peq_trans; [apply mulZ_peq; [apply peq_refl|apply pmulp_peq]|].
  eapply peq_trans; [|apply mulZ_peq; [apply peq_sym, pmulp_peq|apply peq_refl]]. intros i. apply cong_refl'. apply mulZ_assoc.
Qed.
Lemma is_poly_one : is_poly p [1].
Proof. pose proof (p_gt_1 p HP). split; [constructor; [lia|constructor]|cbn; lia]. Qed.
Lemma pmulp_1_r a : is_poly p a -> pmulp a [1] = a.
Proof.
  intros Pa. apply product_pmulp; [exact Pa|]. apply is_product_cong. intros i. apply cong_refl'. apply ev_inj_Z. intros x. rewrite ev_mulZ. cbn [ev]. ring.
Qed.
Lemma pmulp_1_l a : is_poly p a -> pmulp [1] a = a.
Proof. intros Pa. rewrite pmulp_comm. apply pmulp_1_r. exact Pa. Qed.

(** degrees add *)
Lemma conv_zero_l f g k : (forall i, coef f i = 0) -> conv f g k = 0.
Proof.
  intros H. unfold conv. induction (seq 0 (S k)) as [|i l IH]; [reflexivity|]. cbn [map sum_z fold_right].
  change (fold_right Z.add 0) with sum_z. rewrite IH, H. lia.
Qed.
Lemma conv_top f g m n : (forall i, (m < i)%nat -> coef f i = 0) -> (forall j, (n < j)%nat -> coef g j = 0) ->
  conv f g (m + n) = coef f m * coef g n.
Proof.
  revert m. induction f as [|c f IH]; intros m Hf Hg; [rewrite conv_nil, coef_nil; lia|].
  rewrite conv_cons. destruct m as [|m].
  - cbn [Nat.add]. replace (match n with 0%nat => 0 | S j => conv f g j end) with 0; [cbn; lia|].
    destruct n; [reflexivity|]. symmetry. apply conv_zero_l. intros i. rewrite <- (Hf (S i)) by lia. reflexivity.
  - cbn [Nat.add]. rewrite (Hg (S (m + n))) by lia. rewrite IH; [rewrite coef_cons_S; lia| |exact Hg].
    intros i Hi. rewrite <- (Hf (S i)) by lia. reflexivity.
Qed.
Lemma product_length a b h : is_poly p a -> is_poly p b -> is_poly p h -> a <> [] -> b <> [] ->
  is_product p a b h -> coef h (length a + length b - 2) == coef a (length a - 1) * coef b (length b - 1) /\
  (length a + length b - 1 <= length h)%nat.
Proof.
  intros Pa Pb Ph Na Nb H. pose proof (p_gt_1 p HP) as Hp.
  assert (La : (1 <= length a)%nat) by (destruct a; [congruence|cbn; lia]).
  assert (Lb : (1 <= length b)%nat) by (destruct b; [congruence|cbn; lia]).
  assert (E : coef h (length a + length b - 2) == coef a (length a - 1) * coef b (length b - 1)).
  { pose proof (proj1 (is_product_cong p a b h) H (length a + length b - 2)%nat) as E. rewrite E, coef_mulZ.
    replace (length a + length b - 2)%nat with (length a - 1 + (length b - 1))%nat by lia. rewrite conv_top; [reflexivity| |].
    - intros i Hi. apply coef_over. lia.
    - intros i Hi. apply coef_over. lia. }
  split; [exact E|]. destruct (Nat.le_gt_cases (length a + length b - 1) (length h)) as [|G]; [assumption|]. exfalso.
  rewrite coef_over in E by lia. symmetry in E. apply (prime_cong_mul HP) in E.
  destruct E as [E|E]; apply (cong_eq (p := p)) in E; try lia.
  - apply (is_poly_lead p a Pa Na E).
  - apply coef_reduced; [lia|apply Pa].
  - apply (is_poly_lead p b Pb Nb E).
  - apply coef_reduced; [lia|apply Pb].
Qed.

(** all coefficient lists of a given length *)
Definition range : list Z := map Z.of_nat (seq 0 (Z.to_nat p)).
Lemma in_range c : 0 <= c < p -> In c range.
Proof. intros H. unfold range. apply in_map_iff. exists (Z.to_nat c). split; [lia|]. apply in_seq. lia. Qed.
Fixpoint all_lists (n : nat) : list (list Z) :=
  match n with O => [[]] | S m => flat_map (fun l => map (fun c => c :: l) range) (all_lists m) end.
Lemma in_all_lists f : reduced p f -> In f (all_lists (length f)).
Proof.
  intros R. induction R as [|c f Hc R IH]; [left; reflexivity|]. cbn [all_lists length]. apply in_flat_map.
  exists f. split; [exact IH|]. apply (in_map (fun c => c :: f)). apply in_range. exact Hc.
Qed.
Definition candidates (n : nat) : list (list Z) := flat_map all_lists (seq 2 n).
Lemma in_candidates f n : reduced p f -> (2 <= length f)%nat -> (length f < n + 2)%nat -> In f (candidates n).
Proof. intros R L1 L2. apply in_flat_map. exists (length f). split; [apply in_seq; lia|apply in_all_lists; exact R]. Qed.

Definition poly_eqb (f g : list Z) : bool := if list_eq_dec Z.eq_dec f g then true else false.
Definition is_polyb (f : list Z) : bool := forallb (fun c => (0 <=? c) && (c <? p)) f && negb (last f 1 =? 0).
Lemma is_polyb_ok f : is_polyb f = true <-> is_poly p f.
Proof.
  unfold is_polyb, is_poly. rewrite andb_true_iff, forallb_forall, Forall_forall, negb_true_iff, Z.eqb_neq.
  split; intros [A B]; (split; [|exact B]); intros x Hx; specialize (A x Hx); lia.
Qed.
Definition splits (f : list Z) (ab : list Z * list Z) : bool :=
  is_polyb (fst ab) && is_polyb (snd ab) && (2 <=? length (fst ab))%nat && (2 <=? length (snd ab))%nat
  && poly_eqb (pmulp (fst ab) (snd ab)) f.
Definition find_split (f : list Z) : option (list Z * list Z) :=
  find (splits f) (list_prod (candidates (length f)) (candidates (length f))).

Lemma find_split_some f a b : find_split f = Some (a, b) ->
  is_poly p a /\ is_poly p b /\ (2 <= length a)%nat /\ (2 <= length b)%nat /\ pmulp a b = f.
Proof.
  intros H. apply find_some in H. destruct H as [_ H]. unfold splits in H. cbn [fst snd] in H.
  rewrite !andb_true_iff, !is_polyb_ok, !Nat.leb_le in H. destruct H as [[[[A B] C] D] E]. unfold poly_eqb in E.
  destruct (list_eq_dec Z.eq_dec (pmulp a b) f); [|discriminate]. auto.
Qed.
Lemma find_split_none f : is_poly p f -> (2 <= length f)%nat -> find_split f = None -> irreducible p f.
Proof.
  intros Pf L H. split; [unfold degree; lia|]. intros [a [b [Pa [Pb [Da [Db PR]]]]]]. unfold degree in *.
  assert (Na : a <> []) by (intros ->; cbn in Da; lia). assert (Nb : b <> []) by (intros ->; cbn in Db; lia).
  destruct (product_length a b f Pa Pb Pf Na Nb PR) as [_ LL].
  assert (S : splits f (a, b) = true).
  { unfold splits. cbn [fst snd]. rewrite !andb_true_iff, !is_polyb_ok, !Nat.leb_le. repeat split; try apply Pa; try apply Pb; try lia.
    unfold poly_eqb. destruct (list_eq_dec Z.eq_dec (pmulp a b) f) as [|N]; [reflexivity|]. exfalso. apply N. apply product_pmulp; assumption. }
  unfold find_split in H. pose proof (find_none _ _ H (a, b)) as X. rewrite S in X. discriminate X.
  apply in_prod; apply in_candidates; try lia; [apply Pa|apply Pb].
Qed.

Definition prod_all (l : list (list Z)) : list Z := fold_right pmulp [1] l.
Lemma prod_all_poly l : is_poly p (prod_all l).
Proof. destruct l; [exact is_poly_one|apply pmulp_poly]. Qed.
Lemma prod_all_app l1 l2 : prod_all (l1 ++ l2) = pmulp (prod_all l1) (prod_all l2).
Proof.
  induction l1 as [|g l1 IH]; [symmetry; apply pmulp_1_l; apply prod_all_poly|].
  cbn [app prod_all fold_right]. fold (prod_all (l1 ++ l2)) (prod_all l1). rewrite IH. apply pmulp_assoc.
Qed.

Definition monicised (f : list Z) : list Z := match make_monic p f with Ok g => g | _ => [] end.
Lemma make_monic_peq f : is_poly p f -> f <> [] ->
  exists i, monic p (monicised f) /\ length (monicised f) = length f /\ (forall k, coef (monicised f) k == i * coef f k).
Proof.
  intros Pf N. destruct (make_monic_ok p HP f Pf N) as [g [i [E [M [L _]]]]]. unfold monicised. rewrite E.
  unfold make_monic in E. destruct f as [|c0 f0]; [congruence|]. destruct (inv_mod p (lead_coeff (c0 :: f0))) as [j| | | |]; try discriminate.
  cbn [bind] in E. apply Ok_inj in E. exists j. split; [exact M|]. split; [exact L|]. intros k. rewrite <- E. apply coef_map_mul.
Qed.
Lemma monic_product_split f a b : monic p f -> is_poly p a -> is_poly p b -> a <> [] -> b <> [] -> pmulp a b = f ->
  pmulp (monicised a) (monicised b) = f.
Proof.
  intros [Pf [Nf Lf]] Pa Pb Na Nb E. pose proof (p_gt_1 p HP) as Hp.
  destruct (make_monic_peq a Pa Na) as [i [Ma [La Ca]]]. destruct (make_monic_peq b Pb Nb) as [j [Mb [Lb Cb]]].
  assert (HL : length f = (length a + length b - 1)%nat /\ 1 == coef a (length a - 1) * coef b (length b - 1)).
  { assert (PR : is_product p a b f) by (rewrite <- E; apply pmulp_product).
    destruct (product_length a b f Pa Pb Pf Na Nb PR) as [EQ LE].
    assert (LU : (length f <= length a + length b - 1)%nat).
    { destruct (Nat.le_gt_cases (length f) (length a + length b - 1)) as [|G]; [assumption|]. exfalso.
      apply (is_poly_lead p f Pf Nf). apply (cong_eq (p := p)); [apply coef_reduced; [lia|apply Pf]|lia|].
      rewrite (proj1 (is_product_cong p a b f) PR (length f - 1)%nat), coef_mulZ.
      replace (length f - 1)%nat with (length a - 1 + (length f - length a))%nat.
      - rewrite conv_top; [rewrite (coef_over b) by lia; apply cong_refl'; lia| |].
        + intros k Hk. apply coef_over. lia.
        + intros k Hk. apply coef_over. lia.
      - assert (1 <= length a)%nat by (destruct a; [congruence|cbn; lia]). lia. }
    assert (LQ : length f = (length a + length b - 1)%nat) by lia. split; [exact LQ|].
    rewrite last_coef, LQ in Lf. replace (length a + length b - 1 - 1)%nat with (length a + length b - 2)%nat in Lf by lia.
    rewrite <- EQ, Lf. reflexivity. }
  destruct HL as [_ HL].
  assert (Ia : i * coef a (length a - 1) == 1).
  { rewrite <- Ca. destruct Ma as [_ [_ Ma]]. rewrite last_coef, La in Ma. rewrite Ma. reflexivity. }
  assert (Ib : j * coef b (length b - 1) == 1).
  { rewrite <- Cb. destruct Mb as [_ [_ Mb]]. rewrite last_coef, Lb in Mb. rewrite Mb. reflexivity. }
  assert (IJ : i * j == 1).
  { transitivity (i * j * (coef a (length a - 1) * coef b (length b - 1))); [rewrite <- HL; apply cong_refl'; ring|].
    transitivity ((i * coef a (length a - 1)) * (j * coef b (length b - 1))); [apply cong_refl'; ring|]. rewrite Ia, Ib. reflexivity. }
  rewrite <- E. apply pmulp_ext. intros k. rewrite !coef_mulZ.
  transitivity (conv (map (Z.mul i) a) (map (Z.mul j) b) k).
  - apply conv_cong; intros m; rewrite coef_mapmul; [apply Ca|apply Cb].
  - rewrite <- !coef_mulZ. transitivity (coef (map (Z.mul (i * j)) (mulZ a b)) k).
    + apply cong_refl'. apply ev_inj_Z. intros x. rewrite ev_mulZ, !ev_mapmul, ev_mulZ. ring.
    + rewrite coef_mapmul, IJ. apply cong_refl'. ring.
Qed.

Definition good (g : list Z) : Prop := monic p g /\ irreducible p g.
Lemma factor_flat n : forall f, (length f <= n)%nat -> monic p f ->
  {l : list (list Z) | Forall good l /\ prod_all l = f}.
Proof.
  induction n as [|n IH]; intros f L M.
  - exfalso. destruct M as [_ [N _]]. destruct f; [congruence|cbn in L; lia].
  - destruct (le_lt_dec 2 (length f)) as [L2|L2].
    + destruct (find_split f) as [[a b]|] eqn:E.
      * apply find_split_some in E. destruct E as [Pa [Pb [La [Lb E]]]].
        assert (Na : a <> []) by (intros ->; cbn in La; lia). assert (Nb : b <> []) by (intros ->; cbn in Lb; lia).
        assert (LL : (length a + length b - 1 <= length f)%nat).
        { apply (product_length a b f Pa Pb (proj1 M) Na Nb). rewrite <- E. apply pmulp_product. }
        assert (E' : pmulp (monicised a) (monicised b) = f) by (apply monic_product_split; assumption).
        destruct (IH (monicised a)) as [l1 [G1 P1]].
        { destruct (make_monic_peq a Pa Na) as [i [_ [-> _]]]. lia. }
        { destruct (make_monic_peq a Pa Na) as [i [Ma _]]. exact Ma. }
        destruct (IH (monicised b)) as [l2 [G2 P2]].
        { destruct (make_monic_peq b Pb Nb) as [i [_ [-> _]]]. lia. }
        { destruct (make_monic_peq b Pb Nb) as [i [Mb _]]. exact Mb. }
        exists (l1 ++ l2). split; [apply Forall_app; split; assumption|]. rewrite prod_all_app, P1, P2. exact E'.
      * exists [f]. split; [constructor; [|constructor]; split; [exact M|apply find_split_none; [apply M|exact L2|exact E]]|].
        cbn [prod_all fold_right]. apply pmulp_1_r. apply M.
    + exists []. split; [constructor|]. destruct M as [_ [N ML]]. destruct f as [|c [|d f]]; [congruence|cbn in ML; subst c; reflexivity|cbn in L2; lia].
Qed.

(** counting multiplicities *)
Fixpoint insert (g : list Z) (l : list (list Z * Z)) : list (list Z * Z) :=
  match l with
  | [] => [(g, 1)]
  | (h, e) :: t => if poly_eqb g h then (h, e + 1) :: t else (h, e) :: insert g t
  end.
Lemma insert_keys g l x : In x (map fst (insert g l)) -> x = g \/ In x (map fst l).
Proof.
  induction l as [|[h e] l IH]; cbn; [intuition|]. unfold poly_eqb. destruct (list_eq_dec Z.eq_dec g h); cbn; intuition.
Qed.
Lemma insert_nodup g l : NoDup (map fst l) -> NoDup (map fst (insert g l)).
Proof.
  induction l as [|[h e] l IH]; cbn; intros ND; [constructor; [intros []|constructor]|].
  inversion ND; subst. unfold poly_eqb. destruct (list_eq_dec Z.eq_dec g h) as [E|N]; cbn; [exact ND|].
  constructor; [|apply IH; assumption]. intros H. apply insert_keys in H. destruct H; [congruence|contradiction].
Qed.
Lemma insert_good g l : good g -> Forall (fun ge => monic p (fst ge) /\ irreducible p (fst ge) /\ 1 <= snd ge) l ->
  Forall (fun ge => monic p (fst ge) /\ irreducible p (fst ge) /\ 1 <= snd ge) (insert g l).
Proof.
  intros [G1 G2] F. induction F as [|[h e] l [H1 [H2 H3]] F IH]; cbn [insert].
  - constructor; [|constructor]. cbn. repeat split; try assumption; try apply G1; try apply G2; lia.
  - cbn [fst snd] in *. unfold poly_eqb. destruct (list_eq_dec Z.eq_dec g h); constructor; cbn [fst snd]; auto. split; [exact H1|]. split; [exact H2|lia].
Qed.
Lemma insert_product g l : Forall (fun ge => 0 <= snd ge) l -> forall b, is_poly p b ->
  is_product_of_powers p l b -> is_product_of_powers p (insert g l) (pmulp g b).
Proof.
  induction l as [|[h e] l IH]; intros F b Pb H.
  - cbn [is_product_of_powers] in H. subst b. cbn [insert is_product_of_powers].
    exists (pmulp g [1]), [1]. split; [apply pmulp_poly|]. split; [apply is_poly_one|]. split.
    + change (Z.to_nat 1) with 1%nat. cbn [is_power]. exists [1]. split; [apply is_poly_one|]. split; [reflexivity|apply pmulp_product].
    + split; [reflexivity|]. apply product_pmulp; [apply pmulp_poly|]. apply pmulp_1_r. apply pmulp_poly.
  - destruct H as [a [c [Pa [Pc [HW [HR PR]]]]]]. apply product_pmulp in PR; [|exact Pb]. subst b. inversion F as [|? ? Fe Fl]; subst. cbn [snd] in Fe.
    cbn [insert]. unfold poly_eqb. destruct (list_eq_dec Z.eq_dec g h) as [<-|N].
    + cbn [is_product_of_powers]. exists (pmulp g a), c. split; [apply pmulp_poly|]. split; [exact Pc|]. split.
      * replace (Z.to_nat (e + 1)) with (S (Z.to_nat e)) by lia. cbn [is_power]. exists a. split; [exact Pa|]. split; [exact HW|apply pmulp_product].
      * split; [exact HR|]. apply product_pmulp; [apply pmulp_poly|]. symmetry. apply pmulp_assoc.
    + cbn [is_product_of_powers]. exists a, (pmulp g c). split; [exact Pa|]. split; [apply pmulp_poly|]. split; [exact HW|]. split.
      * apply IH; assumption.
      * apply product_pmulp; [apply pmulp_poly|]. rewrite !pmulp_assoc, (pmulp_comm a g). reflexivity.
Qed.
Definition collect (l : list (list Z)) : list (list Z * Z) := fold_right insert [] l.
Lemma collect_ok l : Forall good l -> is_factorisation p (prod_all l) (collect l).
Proof.
  intros F. induction F as [|g l G F [IH1 [IH2 IH3]]]; cbn [collect prod_all fold_right].
  - split; [constructor|]. split; [constructor|reflexivity].
  - split; [apply insert_good; assumption|]. split; [apply insert_nodup; exact IH2|].
    apply insert_product; [|apply prod_all_poly|exact IH3].
    eapply Forall_impl; [|exact IH1]. cbn. intros ge [_ [_ H]]. lia.
Qed.

Definition monicb (f : list Z) : bool := is_polyb f && negb (poly_eqb f []) && (last f 0 =? 1).
Lemma monicb_ok f : monicb f = true -> monic p f.
Proof.
  unfold monicb. rewrite !andb_true_iff, is_polyb_ok, negb_true_iff, Z.eqb_eq. intros [[A B] C]. split; [exact A|]. split; [|exact C].
  intros ->. unfold poly_eqb in B. destruct (list_eq_dec Z.eq_dec [] []); [discriminate|congruence].
Qed.
Lemma monicb_complete f : monic p f -> monicb f = true.
Proof.
  intros [A [B C]]. unfold monicb. rewrite !andb_true_iff, is_polyb_ok, negb_true_iff, Z.eqb_eq. split; [split; [exact A|]|exact C].
  unfold poly_eqb. destruct (list_eq_dec Z.eq_dec f []); [contradiction|reflexivity].
Qed.
Definition factor (k : nat) (f : list Z) : list (list Z * Z) :=
  match Sumbool.sumbool_of_bool (monicb f) with
  | left E => collect (proj1_sig (factor_flat (length f) f (Nat.le_refl _) (monicb_ok f E)))
  | right _ => []
  end.
Theorem factor_correct : factors_correctly p factor.
Proof.
  intros k f M. unfold factor. destruct (Sumbool.sumbool_of_bool (monicb f)) as [E|E]; [|rewrite (monicb_complete f M) in E; discriminate].
  destruct (factor_flat (length f) f (Nat.le_refl _) (monicb_ok f E)) as [l [G P]]. cbn [proj1_sig].
  rewrite <- P at 1. apply collect_ok. exact G.
Qed.
End P.
