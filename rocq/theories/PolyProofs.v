(** Elementary theory of polynomials modulo a prime, for the list
    representation of PolyModel.v. *)
From Verif Require Import Base Spec Lib NtlMiss PolyModel PolySpec.
From Coq Require Import Znumtheory Setoid Morphisms Permutation.

(** *** congruence modulo p *)
Definition cong (p a b : Z) : Prop := a mod p = b mod p.

Section Cong.
Context {p : Z}.
#[local] Notation "a == b" := (cong p a b) (at level 70).
#[global] Instance cong_equiv : Equivalence (cong p).
Proof. split; unfold cong; repeat intro; congruence. Qed.
#[global] Instance cong_add : Proper (cong p ==> cong p ==> cong p) Z.add.
Proof. unfold cong. intros a a' E b b' E'. rewrite Zplus_mod, E, E', <- Zplus_mod. reflexivity. Qed.
#[global] Instance cong_mul : Proper (cong p ==> cong p ==> cong p) Z.mul.
Proof. unfold cong. intros a a' E b b' E'. rewrite Zmult_mod, E, E', <- Zmult_mod. reflexivity. Qed.
#[global] Instance cong_sub : Proper (cong p ==> cong p ==> cong p) Z.sub.
Proof. unfold cong. intros a a' E b b' E'. rewrite Zminus_mod, E, E', <- Zminus_mod. reflexivity. Qed.
#[global] Instance cong_opp : Proper (cong p ==> cong p) Z.opp.
Proof. intros a a' E. rewrite <- !Z.sub_0_l. rewrite E. reflexivity. Qed.
Lemma cong_mod a : a mod p == a.
Proof. unfold cong. apply Zmod_mod. Qed.
Lemma cong_refl' a b : a = b -> a == b.
Proof. intros ->. reflexivity. Qed.
Lemma cong_eq a b : 0 <= a < p -> 0 <= b < p -> a == b -> a = b.
Proof. unfold cong. intros Ha Hb E. rewrite !Z.mod_small in E by assumption. exact E. Qed.
Lemma cong_0_iff a : a == 0 <-> a mod p = 0.
Proof. unfold cong. rewrite Zmod_0_l. reflexivity. Qed.
Lemma cong_sub_iff a b : a == b <-> (a - b) mod p = 0.
Proof.
  rewrite <- cong_0_iff. split; intros E.
  - rewrite E. apply cong_refl'. lia.
  - transitivity (a - b + b); [apply cong_refl'; lia|]. rewrite E. apply cong_refl'. lia.
Qed.
Lemma prime_cong_mul : prime p -> forall a b, a * b == 0 -> a == 0 \/ b == 0.
Proof.
  intros HP a b E. apply cong_0_iff in E. pose proof (prime_ge_2 p HP).
  apply Zmod_divide in E; [|lia]. apply (prime_mult p HP) in E.
  destruct E as [E|E]; [left|right]; apply cong_0_iff; apply Zdivide_mod; exact E.
Qed.
End Cong.

(** *** evaluation over Z *)
Fixpoint ev (f : list Z) (x : Z) : Z := match f with [] => 0 | c :: t => c + x * ev t x end.

Lemma ev_sum f x k : sum_z (map (fun i => coef (skipn k f) (i - k) * x ^ Z.of_nat i) (seq k (length f - k)))
  = x ^ Z.of_nat k * ev (skipn k f) x.
Proof.
  remember (length f - k)%nat as n eqn:E. revert k E.
  induction n as [|n IH]; intros k E.
  - cbn [seq map sum_z fold_right]. rewrite skipn_all2 by lia. cbn [ev]. lia.
  - cbn [seq map sum_z fold_right]. fold sum_z.
    assert (Hk : (k < length f)%nat) by lia.
    rewrite Nat.sub_diag.
    destruct (skipn k f) as [|c t] eqn:ES. { apply (f_equal (@length Z)) in ES. rewrite skipn_length in ES. cbn in ES. lia. }
    assert (ET : skipn (S k) f = t).
    { clear IH E Hk. revert k ES. induction f as [|a f IHf]; intros k ES; [destruct k; discriminate|].
      destruct k; [cbn in ES; injection ES as _ ->; reflexivity|]. apply (IHf k). exact ES. }
    specialize (IH (S k) ltac:(lia)). rewrite ET in IH.
    cbn [ev coef nth]. rewrite Z.mul_add_distr_l. f_equal; [unfold coef; cbn [nth]; lia|].
    replace (x ^ Z.of_nat k * (x * ev t x)) with (x ^ Z.of_nat (S k) * ev t x)
      by (rewrite Nat2Z.inj_succ, Z.pow_succ_r by lia; ring).
    rewrite <- IH. change (fold_right Z.add 0) with sum_z. f_equal. apply map_ext_in. intros i Hi. apply in_seq in Hi.
    replace (i - k)%nat with (S (i - S k)) by lia. reflexivity.
Qed.
Lemma value_ev p f x : value p f x = ev f x mod p.
Proof.
  unfold value. pose proof (ev_sum f x 0) as H. rewrite Nat.sub_0_r in H. cbn [skipn] in H.
  change (x ^ Z.of_nat 0) with 1 in H. rewrite Z.mul_1_l in H. rewrite <- H. f_equal. f_equal. apply map_ext. intros i.
  rewrite Nat.sub_0_r. reflexivity.
Qed.

(** *** coefficients *)
Lemma coef_nil i : coef [] i = 0.
Proof. destruct i; reflexivity. Qed.
Lemma coef_over f i : (length f <= i)%nat -> coef f i = 0.
Proof. apply nth_overflow. Qed.
Lemma coef_cons_S c f i : coef (c :: f) (S i) = coef f i.
Proof. reflexivity. Qed.

Section P.
Variable p : Z.
#[local] Notation "a == b" := (cong p a b) (at level 70).

Lemma peval_ev f x : peval p f x == ev f x.
Proof.
  induction f as [|c f IH]; [reflexivity|]. cbn [peval fold_right ev]. rewrite cong_mod.
  change (fold_right _ 0 f) with (peval p f x). rewrite IH. reflexivity.
Qed.
Lemma peval_range f x : 0 < p -> 0 <= peval p f x < p.
Proof. intros H. destruct f; cbn [peval fold_right]; [lia|]. apply Z.mod_pos_bound. exact H. Qed.
Lemma peval_value f x : peval p f x = value p f x.
Proof.
  rewrite value_ev. destruct f as [|c f]; [reflexivity|].
  pose proof (peval_ev (c :: f) x) as E. unfold cong in E. rewrite <- E.
  cbn [peval fold_right]. rewrite Zmod_mod. reflexivity.
Qed.

(** equal coefficients modulo p give equal values *)
Lemma ev_cong f g x : (forall i, coef f i == coef g i) -> ev f x == ev g x.
Proof.
  revert g. induction f as [|c f IH]; intros g H.
  - induction g as [|d g IHg]; [reflexivity|]. cbn [ev]. pose proof (H 0%nat) as H0. cbn in H0.
    rewrite <- IHg by (intros i; specialize (H (S i)); rewrite coef_nil in *; exact H).
    change (nth 0 (d :: g) 0) with d in H0. rewrite <- H0. cbn [ev]. apply cong_refl'. lia.
  - destruct g as [|d g].
    + cbn [ev]. pose proof (H 0%nat) as H0. change (c == 0) in H0. rewrite (IH []).
      * rewrite H0. cbn [ev]. apply cong_refl'. lia.
      * intros i. specialize (H (S i)). rewrite coef_nil in *. exact H.
    + cbn [ev]. pose proof (H 0%nat) as H0. change (c == d) in H0. rewrite H0.
      rewrite (IH g) by (intros i; exact (H (S i))). reflexivity.
Qed.

Lemma coef_add_scaled c f g i : coef (add_scaled p c f g) i == coef f i + c * coef g i.
Proof.
  revert g i. induction f as [|a f IH]; intros g i.
  - cbn [add_scaled]. rewrite coef_nil. revert i. induction g as [|b g IHg]; intros i.
    + cbn [map]. rewrite ?coef_nil. apply cong_refl'. lia.
    + destruct i; [cbn; rewrite cong_mod; apply cong_refl'; lia|]. cbn [map]. rewrite !coef_cons_S. apply IHg.
  - destruct g as [|b g]; [rewrite coef_nil; apply cong_refl'; cbn [add_scaled]; lia|].
    destruct i; [cbn; rewrite cong_mod; reflexivity|]. cbn [add_scaled]. rewrite !coef_cons_S. apply IH.
Qed.
Lemma ev_add_scaled c f g x : ev (add_scaled p c f g) x == ev f x + c * ev g x.
Proof.
  revert g. induction f as [|a f IH]; intros g.
  - cbn [add_scaled ev]. induction g as [|b g IHg]; [cbn; apply cong_refl'; lia|].
    cbn [map ev]. rewrite cong_mod, IHg. apply cong_refl'. lia.
  - destruct g as [|b g]; [cbn [add_scaled ev]; apply cong_refl'; lia|].
    cbn [add_scaled ev]. rewrite cong_mod, IH. apply cong_refl'. lia.
Qed.
Lemma length_add_scaled c f g : length (add_scaled p c f g) = Nat.max (length f) (length g).
Proof.
  revert g. induction f as [|a f IH]; intros g; [cbn; apply map_length|].
  destruct g; [reflexivity|]. cbn [add_scaled length Nat.max]. rewrite IH. reflexivity.
Qed.
Definition reduced (f : list Z) : Prop := Forall (fun c => 0 <= c < p) f.
Lemma reduced_add_scaled c f g : 0 < p -> reduced f -> reduced (add_scaled p c f g).
Proof.
  intros Hp. revert g. induction f as [|a f IH]; intros g R.
  - cbn. unfold reduced. rewrite Forall_map. apply Forall_forall. intros b _. apply Z.mod_pos_bound; lia.
  - destruct g; [exact R|]. inversion R; subst. cbn [add_scaled]. constructor; [apply Z.mod_pos_bound; lia|]. apply IH; assumption.
Qed.

Lemma ev_mul_lin f r x : ev (mul_lin p f r) x == (x - r) * ev f x.
Proof. unfold mul_lin. rewrite ev_add_scaled. cbn [ev]. apply cong_refl'. ring. Qed.
Lemma length_mul_lin f r : length (mul_lin p f r) = S (length f).
Proof. unfold mul_lin. rewrite length_add_scaled. cbn [length]. lia. Qed.
Lemma reduced_mul_lin f r : 0 < p -> reduced f -> reduced (mul_lin p f r).
Proof. intros Hp R. apply reduced_add_scaled; [exact Hp|]. constructor; [lia|exact R]. Qed.

Lemma last_coef f : last f 0 = coef f (length f - 1).
Proof.
  induction f as [|a f IH]; [reflexivity|]. destruct f as [|b f]; [reflexivity|].
  change (last (a :: b :: f) 0) with (last (b :: f) 0). rewrite IH. cbn [length]. replace (S (S (length f)) - 1)%nat with (S (length (b :: f) - 1)) by (cbn; lia).
  reflexivity.
Qed.
Lemma last_default f (d d' : Z) : f <> [] -> last f d = last f d'.
Proof. induction f as [|a f IH]; [congruence|]. intros _. destruct f; [reflexivity|]. apply IH. discriminate. Qed.

Lemma coef_reduced f i : 0 < p -> reduced f -> 0 <= coef f i < p.
Proof.
  intros Hp R. destruct (Nat.lt_ge_cases i (length f)) as [H|H].
  - unfold reduced in R. rewrite Forall_forall in R. apply R. apply nth_In. exact H.
  - rewrite coef_over by exact H. lia.
Qed.
Lemma mul_lin_monic f r : 1 < p -> reduced f -> f <> [] -> last f 0 = 1 -> last (mul_lin p f r) 0 = 1.
Proof.
  intros Hp R N L. rewrite last_coef, length_mul_lin. cbn [Nat.sub]. rewrite Nat.sub_0_r.
  apply (cong_eq (p := p)); [apply coef_reduced; [lia|apply reduced_mul_lin; [lia|exact R]]|lia|].
  unfold mul_lin. rewrite coef_add_scaled. rewrite (coef_over f (length f)) by lia.
  destruct f as [|a f]; [congruence|]. cbn [length]. rewrite coef_cons_S.
  rewrite last_coef in L. cbn [length Nat.sub] in L. rewrite Nat.sub_0_r in L. rewrite L. apply cong_refl'. lia.
Qed.

(** product of (x - r) *)
Definition roots_product (rs : list Z) (x : Z) : Z := fold_right (fun r acc => (x - r) * acc) 1 rs.
Lemma build_gen rs f x : ev (fold_left (mul_lin p) rs f) x == roots_product rs x * ev f x.
Proof.
  revert f. induction rs as [|r rs IH]; intros f; [cbn [fold_left roots_product fold_right]; apply cong_refl'; lia|].
  cbn [fold_left roots_product fold_right]. rewrite IH, ev_mul_lin. apply cong_refl'. fold (roots_product rs x). ring.
Qed.
Lemma build_from_roots_ev rs x : ev (build_from_roots p rs) x == roots_product rs x.
Proof. unfold build_from_roots. rewrite build_gen. cbn [ev]. apply cong_refl'. lia. Qed.
Lemma build_shape_gen rs f : 1 < p -> reduced f -> f <> [] -> last f 0 = 1 ->
  let h := fold_left (mul_lin p) rs f in
  reduced h /\ h <> [] /\ last h 0 = 1 /\ length h = (length rs + length f)%nat.
Proof.
  intros Hp. revert f. induction rs as [|r rs IH]; intros f R N L; [cbn; auto|].
  cbn [fold_left]. destruct (IH (mul_lin p f r)) as [A [B [C D]]].
  - apply reduced_mul_lin; [lia|exact R].
  - intros E. apply (f_equal (@length Z)) in E. rewrite length_mul_lin in E. discriminate.
  - apply mul_lin_monic; assumption.
  - cbv zeta. repeat split; try assumption. rewrite D, length_mul_lin. cbn [length]. lia.
Qed.
Lemma build_shape rs : 1 < p -> let h := build_from_roots p rs in
  monic p h /\ length h = S (length rs).
Proof.
  intros Hp. unfold build_from_roots. destruct (build_shape_gen rs [1] Hp) as [A [B [C D]]]; [constructor; [lia|constructor]|discriminate|reflexivity|].
  cbv zeta. split; [|rewrite D; cbn; lia]. split; [split; [exact A|]|split; [exact B|exact C]].
  rewrite (last_default _ 1 0) by exact B. lia.
Qed.

(** *** normal form *)
Lemma ev_norm f x : ev (norm f) x = ev f x.
Proof.
  induction f as [|c f IH]; [reflexivity|]. cbn [norm ev]. destruct (norm f) as [|d t] eqn:E.
  - rewrite <- IH. destruct (Z.eqb_spec c 0) as [->|]; cbn; lia.
  - rewrite <- IH. reflexivity.
Qed.
Lemma coef_norm f i : coef (norm f) i = coef f i.
Proof.
  revert i. induction f as [|c f IH]; intros i; [reflexivity|]. cbn [norm]. destruct (norm f) as [|d t] eqn:E.
  - destruct i.
    + destruct (Z.eqb_spec c 0) as [->|]; reflexivity.
    + rewrite coef_cons_S, <- IH. destruct (c =? 0); destruct i; reflexivity.
  - destruct i; [reflexivity|]. rewrite !coef_cons_S. apply IH.
Qed.
Lemma norm_length f : (length (norm f) <= length f)%nat.
Proof.
  induction f as [|c f IH]; [cbn; lia|]. cbn [norm]. destruct (norm f) as [|d t]; [destruct (c =? 0); cbn; lia|cbn in *; lia].
Qed.
Lemma norm_is_poly f : reduced f -> is_poly p (norm f).
Proof.
  intros R. induction R as [|c f Hc R IH]; [split; [constructor|cbn; lia]|].
  cbn [norm]. destruct IH as [A B]. destruct (norm f) as [|d t] eqn:E.
  - destruct (Z.eqb_spec c 0); split; repeat constructor; cbn; lia.
  - split; [constructor; assumption|]. exact B.
Qed.
Lemma is_poly_lead f : is_poly p f -> f <> [] -> coef f (length f - 1) <> 0.
Proof. intros [_ L] N. rewrite <- last_coef, (last_default f 0 1) by exact N. exact L. Qed.

Lemma is_poly_ext f g : 1 < p -> is_poly p f -> is_poly p g -> (forall i, coef f i == coef g i) -> f = g.
Proof.
  intros Hp Pf Pg H.
  assert (HE : forall i, coef f i = coef g i).
  { intros i. apply (cong_eq (p := p)); [apply coef_reduced; [lia|apply Pf]|apply coef_reduced; [lia|apply Pg]|apply H]. }
  assert (HL : length f = length g).
  { destruct (Nat.lt_trichotomy (length f) (length g)) as [L|[L|L]]; [|exact L|].
    - exfalso. apply (is_poly_lead g Pg); [intros ->; cbn in L; lia|]. rewrite <- HE. apply coef_over. lia.
    - exfalso. apply (is_poly_lead f Pf); [intros ->; cbn in L; lia|]. rewrite HE. apply coef_over. lia. }
  apply (nth_ext f g 0 0 HL). intros i _. apply HE.
Qed.
Lemma norm_id f : 1 < p -> is_poly p f -> norm f = f.
Proof.
  intros Hp P. apply is_poly_ext; [exact Hp|apply norm_is_poly; apply P|exact P|]. intros i. rewrite coef_norm. reflexivity.
Qed.

(** *** synthetic division by (X - a), over Z *)
Fixpoint syn (a : Z) (f : list Z) : list Z * Z :=
  match f with
  | [] => ([], 0)
  | c :: t => let '(q, r) := syn a t in
              (match t with [] => [] | _ => r :: q end, c + a * r)
  end.
Lemma syn_rem a f : snd (syn a f) = ev f a.
Proof.
  induction f as [|c f IH]; [reflexivity|]. cbn [syn ev]. destruct (syn a f) as [q r]. cbn [snd] in *. rewrite IH. reflexivity.
Qed.
Lemma syn_length a f : length (fst (syn a f)) = (length f - 1)%nat.
Proof.
  induction f as [|c f IH]; [reflexivity|]. cbn [syn]. destruct (syn a f) as [q r]. cbn [fst] in *.
  destruct f; cbn [length] in *; [reflexivity|]. lia.
Qed.
Lemma syn_ev a f x : ev f x = (x - a) * ev (fst (syn a f)) x + ev f a.
Proof.
  induction f as [|c f IH]; [cbn; lia|]. destruct f as [|d f]; [cbn; ring|]. remember (d :: f) as t eqn:ET.
  cbn [syn ev]. pose proof (syn_rem a t) as HR. destruct (syn a t) as [q r]. cbn [fst snd] in *.
  subst r. rewrite IH. subst t. cbn [ev]. ring.
Qed.
(** f_0 = r - a*q_0, f_(i+1) = q_i - a*q_(i+1) *)
Lemma syn_coef a f i : coef f i = (match i with O => ev f a | S j => coef (fst (syn a f)) j end) - a * coef (fst (syn a f)) i.
Proof.
  revert i. induction f as [|c f IH]; intros i.
  - cbn [syn fst ev]. rewrite !coef_nil. destruct i; rewrite ?coef_nil; lia.
  - destruct f as [|d f].
    + cbn [syn fst ev]. rewrite Z.mul_0_r, Z.add_0_r. destruct i; [cbn; lia|]. rewrite coef_cons_S, !coef_nil. lia.
    + remember (d :: f) as t eqn:ET. cbn [syn]. pose proof (syn_rem a t) as HR. destruct (syn a t) as [q r]. cbn [fst snd] in *. subst r.
      replace (match t with [] => [] | _ :: _ => ev t a :: q end) with (ev t a :: q) by (subst t; reflexivity).
      destruct i as [|j]; [cbn; lia|]. rewrite !coef_cons_S, IH. destruct j; reflexivity.
Qed.

(** *** a polynomial with more distinct roots than its degree is zero *)
Lemma too_many_roots : prime p -> forall xs f, NoDup (map (fun x => x mod p) xs) -> (length f <= length xs)%nat ->
  (forall x, In x xs -> ev f x == 0) -> forall i, coef f i == 0.
Proof.
  intros HP xs. induction xs as [|a xs IH]; intros f ND L HR i.
  - destruct f; [rewrite coef_nil; reflexivity|cbn in L; lia].
  - cbn [map] in ND. inversion ND as [|y l Hna ND']; subst.
    set (q := fst (syn a f)).
    assert (Hq : forall i, coef q i == 0).
    { apply IH; [exact ND'|unfold q; rewrite syn_length; cbn in L; lia|].
      intros x Hx. pose proof (HR x (or_intror Hx)) as E. rewrite (syn_ev a f x) in E.
      rewrite (HR a (or_introl eq_refl)) in E. fold q in E. rewrite Z.add_0_r in E.
      apply (prime_cong_mul HP) in E. destruct E as [E|E]; [|exact E].
      exfalso. apply Hna. apply in_map_iff. exists x. split; [|exact Hx].
      unfold cong in E. rewrite Zmod_0_l in E. apply cong_sub_iff in E. exact E. }
    rewrite (syn_coef a f i). fold q. rewrite Hq. destruct i; [rewrite (HR a (or_introl eq_refl))|rewrite Hq]; apply cong_refl'; lia.
Qed.
End P.
