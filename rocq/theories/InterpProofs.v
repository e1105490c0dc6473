(** Inverses, interpolation, monic polynomials, products and factors. *)
From Verif Require Import Base Spec Lib NtlMiss PolyModel PolySpec PolyProofs.
From Coq Require Import Znumtheory Setoid Morphisms Permutation.

Section P.
Variable p : Z.
Hypothesis HP : prime p.
#[local] Notation "a == b" := (cong p a b) (at level 70).

Lemma p_gt_1 : 1 < p.
Proof. destruct HP. assumption. Qed.

(** *** inverses *)
Lemma egcd_ok fuel a b : 0 <= a -> 0 <= b < Z.of_nat fuel ->
  fst (egcd fuel a b) * a + snd (egcd fuel a b) * b = Z.gcd a b.
Proof.
  revert a b. induction fuel as [|f IH]; intros a b Ha Hb; [lia|]. cbn [egcd].
  destruct (Z.eqb_spec b 0) as [->|N].
  - cbn [fst snd]. rewrite Z.gcd_0_r. rewrite Z.abs_eq by lia. lia.
  - specialize (IH b (a mod b) ltac:(lia) ltac:(pose proof (Z.mod_pos_bound a b); lia)).
    destruct (egcd f b (a mod b)) as [x y]. cbn [fst snd] in *.
    rewrite (Z.gcd_comm a b), <- Z.gcd_mod by exact N. rewrite Z.gcd_comm, <- IH.
    pose proof (Z.div_mod a b N). rewrite H at 1. ring.
Qed.
Lemma inv_mod_ok a : 0 < a < p -> exists i, inv_mod p a = Ok i /\ 0 <= i < p /\ i * a == 1.
Proof.
  intros Ha. pose proof p_gt_1. unfold inv_mod.
  assert (G : Z.gcd a p = 1).
  { apply Zgcd_1_rel_prime. apply rel_prime_le_prime; [exact HP|lia]. }
  rewrite G. change (1 =? 1) with true. cbv iota.
  exists (fst (egcd (S (Z.to_nat p)) a p) mod p). split; [reflexivity|]. split; [apply Z.mod_pos_bound; lia|].
  rewrite cong_mod. pose proof (egcd_ok (S (Z.to_nat p)) a p ltac:(lia) ltac:(lia)) as E. rewrite G in E.
  transitivity (fst (egcd (S (Z.to_nat p)) a p) * a + snd (egcd (S (Z.to_nat p)) a p) * p).
  - unfold cong. rewrite Z_mod_plus_full. reflexivity.
  - rewrite E. reflexivity.
Qed.
Lemma inv_mod_0 : inv_mod p 0 = Abort.
Proof.
  pose proof p_gt_1. unfold inv_mod. rewrite Z.gcd_0_l, Z.abs_eq by lia.
  destruct (Z.eqb_spec p 1); [lia|reflexivity].
Qed.

Lemma roots_product_zero rs x : roots_product rs x == 0 <-> exists r, In r rs /\ x == r.
Proof.
  induction rs as [|r rs IH]; cbn [roots_product fold_right].
  - split; [intros E|intros [r [[] _]]]. exfalso. unfold cong in E. rewrite Zmod_0_l, Z.mod_small in E by (pose proof p_gt_1; lia). lia.
  - fold (roots_product rs x). split.
    + intros E. apply (prime_cong_mul HP) in E. destruct E as [E|E].
      * exists r. split; [left; reflexivity|]. apply cong_sub_iff. apply cong_0_iff. exact E.
      * apply IH in E. destruct E as [r' [A B]]. exists r'. split; [right; exact A|exact B].
    + intros [r' [[<-|A] B]].
      * assert (E : x - r == 0) by (apply cong_0_iff, cong_sub_iff; exact B). rewrite E. apply cong_refl'. lia.
      * assert (E : roots_product rs x == 0) by (apply IH; eauto). rewrite E. apply cong_refl'. lia.
Qed.

(** *** interpolation *)
Definition in_field (x : Z) : Prop := 0 <= x < p.

Record interp_inv (D : list Z) (r prod : list Z) : Prop := {
  ii_red : reduced p r;
  ii_len : (length r <= length D)%nat;
  ii_pred : reduced p prod;
  ii_plen : length prod = S (length D);
  ii_prod : forall x, ev prod x == roots_product D x
}.

Lemma interp_step_ok D r prod x y : interp_inv D r prod -> Forall in_field (x :: D) -> ~ In x D ->
  exists r' prod', interp_step p x y (r, prod) = Ok (r', prod') /\ interp_inv (x :: D) r' prod' /\
    ev r' x == y /\ (forall d, In d D -> ev r' d == ev r d).
Proof.
  intros [R1 R2 R3 R4 R5] F N. pose proof p_gt_1 as Hp. inversion F as [|? ? Fx FD]; subst. unfold interp_step.
  assert (NZ : 0 < peval p prod x < p).
  { pose proof (peval_range p prod x ltac:(lia)) as Hr. assert (peval p prod x <> 0); [|lia]. intros E.
    assert (E2 : roots_product D x == 0). { rewrite <- R5, <- peval_ev, E. reflexivity. }
    apply roots_product_zero in E2. destruct E2 as [d [Hd E2]]. apply (cong_eq x d) in E2; [|exact Fx|].
    - subst d. contradiction.
    - rewrite Forall_forall in FD. apply FD. exact Hd. }
  destruct (inv_mod_ok _ NZ) as [i [-> [Hi Ei]]]. cbn [bind].
  eexists _, _. split; [reflexivity|]. split; [|split].
  - split.
    + apply reduced_add_scaled; [lia|exact R1].
    + rewrite length_add_scaled. cbn [length]. lia.
    + apply reduced_mul_lin; [lia|exact R3].
    + rewrite length_mul_lin, R4. reflexivity.
    + intros z. rewrite ev_mul_lin, R5. reflexivity.
  - rewrite ev_add_scaled, cong_mod. rewrite peval_ev. rewrite peval_ev in Ei.
    transitivity (ev r x + (i * ev prod x) * (y - ev r x)); [apply cong_refl'; ring|]. rewrite Ei. apply cong_refl'. ring.
  - intros d Hd. rewrite ev_add_scaled, R5.
    assert (E : roots_product D d == 0) by (apply roots_product_zero; exists d; split; [exact Hd|reflexivity]).
    rewrite E. apply cong_refl'. ring.
Qed.

Lemma interp_loop_ok xs ys D r prod : length xs = length ys -> interp_inv D r prod ->
  Forall in_field (D ++ xs) -> NoDup (xs ++ D) ->
  exists r' prod', interp_loop p xs ys (r, prod) = Ok (r', prod') /\ reduced p r' /\
    (length r' <= length D + length xs)%nat /\
    (forall d, In d D -> ev r' d == ev r d) /\
    (forall i x y, nth_error xs i = Some x -> nth_error ys i = Some y -> ev r' x == y).
Proof.
  revert ys D r prod. induction xs as [|x xs IH]; intros ys D r prod L I F ND.
  - exists r, prod. cbn [interp_loop]. split; [destruct ys; reflexivity|]. destruct I as [R1 R2 R3 R4 R5].
    split; [exact R1|]. split; [cbn; lia|]. split; [reflexivity|]. intros [|i] x y E; discriminate.
  - destruct ys as [|y ys]; [discriminate|]. cbn [interp_loop].
    assert (FxD : Forall in_field (x :: D)).
    { rewrite Forall_app in F. destruct F as [FD Fx]. inversion Fx; subst. constructor; assumption. }
    assert (NxD : ~ In x D). { cbn [app] in ND. inversion ND; subst. intros H. apply H1. apply in_or_app. right. exact H. }
    destruct (interp_step_ok D r prod x y I FxD NxD) as [r1 [prod1 [-> [I1 [E1 K1]]]]]. cbn [bind].
    destruct (IH ys (x :: D) r1 prod1) as [r2 [prod2 [-> [A [B [C G]]]]]].
    + cbn in L. lia.
    + exact I1.
    + rewrite Forall_app in F. destruct F as [FD Fx]. inversion Fx; subst. cbn [app]. constructor; [assumption|]. apply Forall_app. split; assumption.
    + eapply Permutation_NoDup; [|exact ND]. cbn [app]. apply Permutation_cons_app. reflexivity.
    + exists r2, prod2. split; [reflexivity|]. split; [exact A|]. split; [cbn [length] in *; lia|]. split.
      * intros d Hd. rewrite C by (right; exact Hd). apply K1. exact Hd.
      * intros [|i] x' y' Ex Ey; cbn in Ex, Ey.
        -- injection Ex as <-. injection Ey as <-. rewrite C by (left; reflexivity). exact E1.
        -- eapply G; eassumption.
Qed.

Lemma interp_inv_init : interp_inv [] [] [1].
Proof.
  pose proof p_gt_1. split; [constructor|cbn; lia|constructor; [lia|constructor]|reflexivity|]. intros x. apply cong_refl'. cbn [ev roots_product fold_right]. lia.
Qed.

Lemma interpolate_ok xs ys : length xs = length ys -> Forall in_field xs -> NoDup xs ->
  exists f, interpolate p xs ys = Ok f /\ is_poly p f /\ (length f <= length xs)%nat /\
    (forall i x y, nth_error xs i = Some x -> nth_error ys i = Some y -> ev f x == y).
Proof.
  intros L F ND. unfold interpolate. rewrite L, Nat.eqb_refl.
  destruct (interp_loop_ok xs ys [] [] [1] L interp_inv_init F) as [r [prod [-> [A [B [_ G]]]]]]; [rewrite app_nil_r; exact ND|].
  cbn [bind fst]. exists (norm r). split; [reflexivity|]. split; [apply norm_is_poly; exact A|].
  split; [pose proof (norm_length r); cbn [length] in B; lia|]. intros i x y Ex Ey. rewrite ev_norm. eapply G; eassumption.
Qed.

(** polynomials of length at most n agreeing on n distinct points are equal *)
Lemma poly_unique xs f g : Forall in_field xs -> NoDup xs -> is_poly p f -> is_poly p g ->
  (length f <= length xs)%nat -> (length g <= length xs)%nat ->
  (forall x, In x xs -> ev f x == ev g x) -> f = g.
Proof.
  intros F ND Pf Pg Lf Lg H. apply (is_poly_ext p); [apply p_gt_1|exact Pf|exact Pg|]. intros i.
  assert (E : coef (add_scaled p (-1) f g) i == 0).
  { apply (too_many_roots p HP xs).
    - replace (map (fun x => x mod p) xs) with xs; [exact ND|]. symmetry. rewrite <- (map_id xs) at 2. apply map_ext_in.
      intros x Hx. rewrite Forall_forall in F. apply Z.mod_small. apply F. exact Hx.
    - rewrite length_add_scaled. lia.
    - intros x Hx. rewrite ev_add_scaled, (H x Hx). apply cong_refl'. ring. }
  rewrite coef_add_scaled in E. transitivity (coef f i + -1 * coef g i + coef g i); [apply cong_refl'; ring|].
  rewrite E. reflexivity.
Qed.

Lemma interpolate_recovers xs f : Forall in_field xs -> NoDup xs -> is_poly p f -> (length f <= length xs)%nat ->
  interpolate p xs (map (value p f) xs) = Ok f.
Proof.
  intros F ND Pf Lf. destruct (interpolate_ok xs (map (value p f) xs)) as [g [-> [Pg [Lg G]]]]; [rewrite map_length; reflexivity|exact F|exact ND|].
  f_equal. apply (poly_unique xs); try assumption. intros x Hx. apply In_nth_error in Hx. destruct Hx as [i Hi].
  rewrite (G i x (value p f x) Hi) by (rewrite nth_error_map, Hi; reflexivity). rewrite value_ev. apply cong_mod.
Qed.

Lemma interp_loop_dup xs ys D r prod : length xs = length ys -> interp_inv D r prod ->
  Forall in_field (D ++ xs) -> NoDup D -> ~ NoDup (xs ++ D) -> interp_loop p xs ys (r, prod) = Abort.
Proof.
  revert ys D r prod. induction xs as [|x xs IH]; intros ys D r prod L I F NDD ND; [contradiction|].
  destruct ys as [|y ys]; [discriminate|]. cbn [interp_loop].
  rewrite Forall_app in F. destruct F as [FD Fx]. inversion Fx as [|? ? Fx1 Fxs]; subst.
  destruct (in_dec Z.eq_dec x D) as [Hx|Hx].
  - unfold interp_step. replace (peval p prod x) with 0; [rewrite inv_mod_0; reflexivity|].
    symmetry. apply (cong_eq (p := p)); [apply peval_range; pose proof p_gt_1; lia|pose proof p_gt_1; lia|].
    rewrite peval_ev. destruct I as [R1 R2 R3 R4 R5]. rewrite R5. apply roots_product_zero. exists x. split; [exact Hx|reflexivity].
  - destruct (interp_step_ok D r prod x y I) as [r1 [prod1 [-> [I1 _]]]]; [constructor; assumption|exact Hx|]. cbn [bind].
    apply (IH ys (x :: D)); [cbn in L; lia|exact I1| |constructor; assumption|].
    + cbn [app]. constructor; [exact Fx1|]. apply Forall_app. split; assumption.
    + intros C. apply ND. eapply Permutation_NoDup; [|exact C]. cbn [app]. symmetry. apply Permutation_cons_app. reflexivity.
Qed.
Lemma interpolate_dup xs ys : length xs = length ys -> Forall in_field xs -> ~ NoDup xs -> interpolate p xs ys = Abort.
Proof.
  intros L F ND. unfold interpolate. rewrite L, Nat.eqb_refl.
  rewrite (interp_loop_dup xs ys [] [] [1] L interp_inv_init F); [reflexivity|constructor|rewrite app_nil_r; exact ND].
Qed.

(** *** make_monic *)
Lemma coef_map_mul i f k : coef (map (fun c => (i * c) mod p) f) k == i * coef f k.
Proof.
  revert k. induction f as [|c f IH]; intros k; [cbn [map]; rewrite !coef_nil; apply cong_refl'; lia|].
  destruct k; [cbn; apply cong_mod|]. cbn [map]. rewrite !coef_cons_S. apply IH.
Qed.
Lemma ev_map_mul i f x : ev (map (fun c => (i * c) mod p) f) x == i * ev f x.
Proof.
  induction f as [|c f IH]; [cbn; apply cong_refl'; lia|]. cbn [map ev]. rewrite cong_mod, IH. apply cong_refl'. ring.
Qed.
Lemma make_monic_ok f : is_poly p f -> f <> [] ->
  exists g i, make_monic p f = Ok g /\ monic p g /\ length g = length f /\ 0 < i < p /\
    (forall x, ev g x == i * ev f x).
Proof.
  intros Pf N. pose proof p_gt_1 as Hp. unfold make_monic. destruct f as [|c0 f0] eqn:Ef; [congruence|]. rewrite <- Ef in *.
  assert (HL : 0 < lead_coeff f < p).
  { pose proof (is_poly_lead p f Pf N) as H. rewrite <- last_coef in H. unfold lead_coeff.
    pose proof (coef_reduced p f (length f - 1) ltac:(lia) (proj1 Pf)) as R. rewrite <- last_coef in R. lia. }
  destruct (inv_mod_ok _ HL) as [i [-> [Hi Ei]]]. cbn [bind].
  set (g := map (fun c => (i * c) mod p) f).
  assert (LG : length g = length f) by apply map_length.
  assert (HLG : last g 0 = 1).
  { rewrite last_coef, LG. apply (cong_eq (p := p)); [|lia|].
    - apply coef_reduced; [lia|]. unfold reduced, g. rewrite Forall_map. apply Forall_forall. intros; apply Z.mod_pos_bound; lia.
    - unfold g. rewrite coef_map_mul, <- last_coef. exact Ei. }
  exists g, i. split; [reflexivity|].
  assert (Ng : g <> []) by (intros E; rewrite E in LG; cbn in LG; rewrite Ef in LG; discriminate).
  split; [|split; [exact LG|split]].
  - split; [|split; [exact Ng|exact HLG]]. split.
    + unfold g. rewrite Forall_map. apply Forall_forall. intros; apply Z.mod_pos_bound; lia.
    + rewrite (last_default g 1 0 Ng). lia.
  - assert (i <> 0); [|lia]. intros ->. rewrite Z.mul_0_l in Ei. unfold cong in Ei. rewrite Zmod_0_l, Z.mod_small in Ei by lia. lia.
  - intros x. apply ev_map_mul.
Qed.

(** *** products *)
Lemma sum_z_map_add {A} (f g : A -> Z) l : sum_z (map (fun i => f i + g i) l) = sum_z (map f l) + sum_z (map g l).
Proof. induction l as [|a l IH]; cbn; [reflexivity|]. unfold sum_z in IH. rewrite IH. lia. Qed.
Lemma conv_nil g k : conv [] g k = 0.
Proof.
  unfold conv. induction (seq 0 (S k)) as [|a l IH]; [reflexivity|]. cbn [map sum_z fold_right]. fold sum_z.
  rewrite coef_nil. unfold sum_z in IH. rewrite IH. lia.
Qed.
Lemma conv_cons c f g k : conv (c :: f) g k = c * coef g k + match k with O => 0 | S j => conv f g j end.
Proof.
  unfold conv. cbn [seq map sum_z fold_right]. fold sum_z. rewrite Nat.sub_0_r. f_equal.
  destruct k; [reflexivity|]. rewrite <- seq_shift, map_map. reflexivity.
Qed.
Fixpoint addZ (f g : list Z) : list Z :=
  match f, g with [], _ => g | _, [] => f | a :: f1, b :: g1 => a + b :: addZ f1 g1 end.
Fixpoint mulZ (f g : list Z) : list Z :=
  match f with [] => [] | c :: t => addZ (map (Z.mul c) g) (0 :: mulZ t g) end.
Lemma coef_addZ f g i : coef (addZ f g) i = coef f i + coef g i.
Proof.
  revert g i. induction f as [|a f IH]; intros g i; [rewrite coef_nil; reflexivity|].
  destruct g as [|b g]; [rewrite coef_nil; cbn [addZ]; lia|]. destruct i; [reflexivity|]. cbn [addZ]. rewrite !coef_cons_S. apply IH.
Qed.
Lemma ev_addZ f g x : ev (addZ f g) x = ev f x + ev g x.
Proof.
  revert g. induction f as [|a f IH]; intros g; [reflexivity|]. destruct g as [|b g]; [cbn [addZ ev]; lia|]. cbn [addZ ev]. rewrite IH. ring.
Qed.
Lemma coef_mapmul c g i : coef (map (Z.mul c) g) i = c * coef g i.
Proof. revert i. induction g as [|b g IH]; intros i; [rewrite !coef_nil; cbn [map]; rewrite ?coef_nil; lia|]. destruct i; [reflexivity|]. cbn [map]. rewrite !coef_cons_S. apply IH. Qed.
Lemma ev_mapmul c g x : ev (map (Z.mul c) g) x = c * ev g x.
Proof. induction g as [|b g IH]; [cbn; lia|]. cbn [map ev]. rewrite IH. ring. Qed.
Lemma coef_mulZ f g k : coef (mulZ f g) k = conv f g k.
Proof.
  revert k. induction f as [|c f IH]; intros k; [rewrite conv_nil; apply coef_nil|].
  cbn [mulZ]. rewrite coef_addZ, coef_mapmul, conv_cons. destruct k; [reflexivity|]. rewrite coef_cons_S, IH. reflexivity.
Qed.
Lemma ev_mulZ f g x : ev (mulZ f g) x = ev f x * ev g x.
Proof. induction f as [|c f IH]; [reflexivity|]. cbn [mulZ ev]. rewrite ev_addZ, ev_mapmul. cbn [ev]. rewrite IH. ring. Qed.

Lemma is_product_cong f g h : is_product p f g h <-> forall k, coef h k == coef (mulZ f g) k.
Proof.
  unfold is_product. split; intros H k.
  - rewrite coef_mulZ. apply cong_sub_iff. apply H.
  - apply cong_sub_iff. rewrite <- coef_mulZ. apply H.
Qed.
Lemma is_product_ev f g h x : is_product p f g h -> ev h x == ev f x * ev g x.
Proof. intros H. rewrite <- ev_mulZ. apply ev_cong. apply is_product_cong. exact H. Qed.

(** *** roots and linear factors *)
Lemma linear_factor g z : is_poly p g -> (2 <= length g)%nat -> ev g z == 0 ->
  exists q, is_poly p q /\ length q = (length g - 1)%nat /\ is_product p [(- z) mod p; 1] q g.
Proof.
  intros Pg L E. pose proof p_gt_1 as Hp.
  set (q := map (fun c => c mod p) (fst (syn z g))).
  assert (LQ : length q = (length g - 1)%nat) by (unfold q; rewrite map_length, syn_length; reflexivity).
  assert (CQ : forall i, coef q i == coef (fst (syn z g)) i).
  { intros i. unfold q. unfold coef. destruct (Nat.lt_ge_cases i (length (fst (syn z g)))) as [H|H].
    - rewrite (nth_indep _ 0 ((fun c => c mod p) 0)) by (rewrite map_length; exact H). rewrite (map_nth (fun c => c mod p)). apply cong_mod.
    - rewrite !nth_overflow by (rewrite ?map_length; exact H). reflexivity. }
  assert (RQ : reduced p q). { unfold q, reduced. rewrite Forall_map. apply Forall_forall. intros; apply Z.mod_pos_bound; lia. }
  assert (PR : is_product p [(- z) mod p; 1] q g).
  { apply is_product_cong. intros k. rewrite coef_mulZ, conv_cons.
    replace (match k with 0%nat => 0 | S j => conv [1] q j end) with (match k with 0%nat => 0 | S j => coef q j end).
    2:{ destruct k; [reflexivity|]. rewrite conv_cons. destruct k; [lia|]. rewrite conv_nil. lia. }
    rewrite (syn_coef z g k). rewrite cong_mod. destruct k as [|k].
    - rewrite E, <- CQ. apply cong_refl'. ring.
    - rewrite <- !CQ. apply cong_refl'. ring. }
  exists q. split; [|split; [exact LQ|exact PR]]. split; [exact RQ|].
  assert (NQ : q <> []) by (intros C; rewrite C in LQ; cbn in LQ; lia).
  rewrite (last_default q 1 0 NQ), last_coef. intros C.
  (* the leading coefficient of q is that of g *)
  pose proof (proj1 (is_product_cong _ _ _) PR (length g - 1)%nat) as H. rewrite coef_mulZ, conv_cons in H.
  rewrite (coef_over q (length g - 1)) in H by lia.
  destruct (length g - 1)%nat as [|k] eqn:Ek; [lia|]. rewrite conv_cons in H.
  replace (match k with 0%nat => 0 | S j => conv [] q j end) with 0 in H by (destruct k; [reflexivity|rewrite conv_nil; reflexivity]).
  rewrite LQ in C. replace (S k - 1)%nat with k in C by lia. rewrite C in H.
  apply (is_poly_lead p g Pg); [intros ->; cbn in L; lia|]. rewrite Ek.
  apply (cong_eq (p := p)); [apply coef_reduced; [lia|apply Pg]|lia|]. rewrite H. apply cong_refl'. ring.
Qed.

Lemma irreducible_root g z : monic p g -> irreducible p g -> in_field z -> (ev g z == 0 <-> g = [(- z) mod p; 1]).
Proof.
  intros [Pg [Ng Lg]] [Dg Ig] Fz. pose proof p_gt_1 as Hp. split.
  - intros E. unfold degree in Dg. destruct (linear_factor g z Pg ltac:(lia) E) as [q [Pq [Lq PR]]].
    destruct (Nat.eq_dec (length g) 2) as [L2|L2].
    + destruct g as [|g0 [|g1 [|g2 g]]]; try discriminate L2. cbn in Lg. subst g1. f_equal.
      cbn [ev] in E. apply (cong_eq (p := p)); [inversion Pg as [R _]; inversion R; assumption|apply Z.mod_pos_bound; lia|].
      rewrite cong_mod. transitivity (g0 + z * (1 + z * 0) + - z); [apply cong_refl'; ring|]. rewrite E. reflexivity.
    + exfalso. apply Ig. exists [(- z) mod p; 1], q. split; [|split; [exact Pq|split; [cbn; lia|split; [unfold degree; lia|exact PR]]]].
      split; [|cbn; lia]. constructor; [apply Z.mod_pos_bound; lia|]. constructor; [lia|constructor].
  - intros ->. cbn [ev]. rewrite cong_mod. apply cong_refl'. ring.
Qed.

Lemma is_power_ev g e h x : (1 <= e)%nat -> is_power p g e h -> (ev h x == 0 <-> ev g x == 0).
Proof.
  destruct e as [|e]; [lia|]. intros _. revert h. induction e as [|e IH]; intros h [h' [Ph' [HW PR]]].
  - cbn [is_power] in HW. subst h'. rewrite (is_product_ev _ _ _ x PR). cbn [ev]. rewrite Z.mul_0_r, Z.add_0_r, Z.mul_1_r. reflexivity.
  - rewrite (is_product_ev _ _ _ x PR). split.
    + intros E. apply (prime_cong_mul HP) in E. destruct E as [E|E]; [exact E|]. apply (IH h' HW). exact E.
    + intros E. rewrite E. apply cong_refl'. lia.
Qed.
Lemma product_of_powers_ev l h x : Forall (fun ge => 1 <= snd ge) l -> is_product_of_powers p l h ->
  (ev h x == 0 <-> exists g, In g (map fst l) /\ ev g x == 0).
Proof.
  revert h. induction l as [|[g e] l IH]; intros h F H.
  - cbn [is_product_of_powers] in H. subst h. split; [|intros [g [[] _]]]. intros E. exfalso. cbn [ev] in E. pose proof p_gt_1.
    unfold cong in E. rewrite Zmod_0_l, Z.mul_0_r, Z.add_0_r, Z.mod_small in E by lia. lia.
  - destruct H as [a [b [Pa [Pb [HW [HR PR]]]]]]. inversion F as [|? ? Fe Fl]; subst. cbn [snd] in Fe.
    rewrite (is_product_ev _ _ _ x PR). cbn [map fst]. split.
    + intros E. apply (prime_cong_mul HP) in E. destruct E as [E|E].
      * apply (is_power_ev g (Z.to_nat e) a x) in E; [|lia|exact HW]. exists g. split; [left; reflexivity|exact E].
      * apply (IH b Fl HR) in E. destruct E as [g' [A B]]. exists g'. split; [right; exact A|exact B].
    + intros [g' [[<-|A] B]].
      * apply (is_power_ev g (Z.to_nat e) a x) in B; [|lia|exact HW]. rewrite B. apply cong_refl'. lia.
      * assert (E : ev b x == 0) by (apply (IH b Fl HR); eauto). rewrite E. apply cong_refl'. lia.
Qed.
Lemma factorisation_roots f l z : is_factorisation p f l -> in_field z ->
  (ev f z == 0 <-> In [(- z) mod p; 1] (map fst l)).
Proof.
  intros [F [ND PP]] Fz. rewrite (product_of_powers_ev l f z).
  - split.
    + intros [g [Hg E]]. apply in_map_iff in Hg. destruct Hg as [[g' e] [<- Hg]]. cbn [fst] in E |- *.
      rewrite Forall_forall in F. destruct (F _ Hg) as [Mg [Ig _]]. cbn [fst] in *.
      apply (irreducible_root g' z Mg Ig Fz) in E. apply in_map_iff. exists (g', e). split; [exact E|exact Hg].
    + intros H. exists [(- z) mod p; 1]. split; [exact H|]. cbn [ev]. rewrite cong_mod. apply cong_refl'. ring.
  - eapply Forall_impl; [|exact F]. intros ge [_ [_ H]]. exact H.
  - exact PP.
Qed.
End P.
