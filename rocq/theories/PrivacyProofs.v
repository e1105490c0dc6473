(** Lemmas for C110. *)
From Verif Require Import Base Spec Lib NtlMiss NtlMissProofs PolyModel PolySpec PolyProofs InterpProofs FactorExists PrivacyAlg
  StrIntModel HashBucketsModel HashBucketsSpec PRFSpec EopsiSpec PrivacySpec.
From Coq Require Import Znumtheory Setoid Morphisms Permutation.

Lemma split_common (l m : list Z) : exists C a b, Permutation l (C ++ a) /\ Permutation m (C ++ b) /\ (forall r s, In r a -> In s b -> r <> s) /\
  forall z, count_occ Z.eq_dec C z = common l m z.
Proof.
  assert (G : exists C a b, Permutation l (C ++ a) /\ Permutation m (C ++ b) /\ (forall r s, In r a -> In s b -> r <> s)).
  { induction l as [|r l [C [a [b [P1 [P2 DJ]]]]]].
    - exists [], [], m. split; [constructor|]. split; [reflexivity|]. intros r s [].
    - destruct (in_dec Z.eq_dec r b) as [I|N].
      + apply in_split in I. destruct I as [b1 [b2 ->]]. exists (r :: C), a, (b1 ++ b2). split; [cbn; constructor; exact P1|]. split.
        * rewrite P2. cbn [app]. rewrite <- !Permutation_middle. reflexivity.
        * intros x y Hx Hy. apply DJ; [exact Hx|]. apply in_app_iff in Hy. apply in_app_iff. cbn. tauto.
      + exists C, (r :: a), b. split; [rewrite P1; apply Permutation_middle|]. split; [exact P2|].
        intros x y [<-|Hx] Hy; [intros ->; contradiction|]. apply DJ; assumption. }
  destruct G as [C [a [b [P1 [P2 DJ]]]]]. exists C, a, b. repeat split; try assumption.
  intros z. unfold common. rewrite (proj1 (Permutation_count_occ Z.eq_dec l _) P1 z), (proj1 (Permutation_count_occ Z.eq_dec m _) P2 z), !count_occ_app.
  assert (X : count_occ Z.eq_dec a z = 0%nat \/ count_occ Z.eq_dec b z = 0%nat).
  { destruct (in_dec Z.eq_dec z a) as [I|N]; [|left; apply count_occ_not_In; exact N]. right. apply count_occ_not_In. intros I'. exact (DJ z z I I' eq_refl). }
  lia.
Qed.
Lemma roots_product_perm l m x : Permutation l m -> roots_product l x = roots_product m x.
Proof.
  unfold roots_product. induction 1 as [|r l m _ IH|r s l|l m n _ IH1 _ IH2]; cbn [fold_right]; [reflexivity|rewrite IH; reflexivity|ring|congruence].
Qed.
Lemma roots_product_app l m x : roots_product (l ++ m) x = roots_product l x * roots_product m x.
Proof. unfold roots_product. induction l as [|r l IH]; cbn [app fold_right]; [ring|]. rewrite IH. ring. Qed.

Section V.
Variable p : Z.
Hypothesis HP : prime p.
#[local] Notation "a == b" := (cong p a b) (at level 70).
#[local] Notation "f ~ g" := (peq p f g) (at level 70).
Lemma Hp1 : 1 < p.
Proof. destruct HP. assumption. Qed.

Definition low (h : nat) (w : list Z) : list Z := map (fun i => coef w i mod p) (seq 0 h).
Lemma low_field h w : field_list p h (low h w).
Proof.
  pose proof Hp1. unfold low. split; [rewrite map_length, seq_length; reflexivity|]. apply Forall_forall. intros c Hc. apply in_map_iff in Hc.
  destruct Hc as [i [<- _]]. apply Z.mod_pos_bound. lia.
Qed.
Lemma coef_low h w i : (i < h)%nat -> coef (low h w) i = coef w i mod p.
Proof.
  intros Hi. unfold coef at 1, low. rewrite (nth_indep _ 0 (coef w 0 mod p)) by (rewrite map_length, seq_length; exact Hi).
  rewrite (map_nth (fun i => coef w i mod p)), seq_nth by exact Hi. reflexivity.
Qed.
Lemma coef_snoc c i : coef (c ++ [1]) i = if Nat.ltb i (length c) then coef c i else if Nat.eqb i (length c) then 1 else 0.
Proof.
  unfold coef. destruct (Nat.ltb_spec i (length c)); [apply app_nth1; assumption|]. rewrite app_nth2 by assumption.
  destruct (Nat.eqb_spec i (length c)) as [->|]; [rewrite Nat.sub_diag; reflexivity|].
  destruct (i - length c)%nat as [|[|k]] eqn:E; [lia|reflexivity|reflexivity].
Qed.
Lemma low_peq h c w : length c = h -> dlt p h (subP w (c ++ [1])) -> low h w ++ [1] ~ w.
Proof.
  intros L D i. rewrite coef_snoc. destruct (low_field h w) as [-> _]. destruct (Nat.ltb_spec i h) as [H|H].
  - rewrite coef_low by exact H. apply cong_mod.
  - specialize (D i H). unfold subP in D. rewrite coef_addZ, coef_oppP, coef_snoc, L in D.
    destruct (Nat.ltb_spec i h); [lia|]. destruct (Nat.eqb_spec i h).
    + transitivity (coef w i + - 1 + 1); [rewrite D; reflexivity|apply cong_refl'; ring].
    + transitivity (coef w i + - 0); [rewrite D; reflexivity|apply cong_refl'; ring].
Qed.
Lemma low_id h c w : field_list p h c -> w ~ c ++ [1] -> low h w = c.
Proof.
  pose proof Hp1. intros [L F] E. apply nth_ext with (d := 0) (d' := 0); [rewrite L; apply low_field|]. destruct (low_field h w) as [LL _]. intros i Hi. rewrite LL in Hi.
  change (coef (low h w) i = coef c i). rewrite coef_low by exact Hi. rewrite Forall_forall in F.
  assert (R : 0 <= coef c i < p) by (apply F; apply nth_In; lia).
  apply (cong_eq (p := p)); [apply Z.mod_pos_bound; lia|exact R|]. rewrite cong_mod, (E i), coef_snoc, L. destruct (Nat.ltb_spec i h); [reflexivity|lia].
Qed.
Lemma monic_dlt c h : length c = h -> dlt p (S h) (c ++ [1]).
Proof. intros L. pose proof (dlt_len p (c ++ [1])) as D. rewrite app_length, L in D. cbn [length] in D. rewrite Nat.add_1_r in D. exact D. Qed.
Lemma omega_ev c x : omega_value p c x == ev (c ++ [1]) x.
Proof. unfold omega_value. rewrite value_ev. apply cong_mod. Qed.
Lemma prod_value_ev R x : prod_value p R x == ev (prodP R) x.
Proof. rewrite ev_prodP. unfold prod_value. apply cong_mod. Qed.

Section Two.
Variables la la' lb u u' v v' : list Z.
Hypothesis La : length la = length lb.
Hypothesis La' : length la' = length lb.
Hypothesis HU : addZ (mulZ u (prodP la)) (mulZ v (prodP lb)) ~ [1].
Hypothesis HU' : addZ (mulZ u' (prodP la')) (mulZ v' (prodP lb)) ~ [1].
Variable h : nat.
Hypothesis Hh : (length lb <= h)%nat.

Definition swapC (la la' lb u : list Z) (c : list Z * list Z) : list Z * list Z :=
  let w := swapP la la' lb u (fst c ++ [1]) (snd c ++ [1]) in (low h (fst w), low h (snd w)).
Lemma swapC_ok c : field_list p h (fst c) -> field_list p h (snd c) ->
  let c' := swapC la la' lb u' c in
  field_list p h (fst c') /\ field_list p h (snd c') /\ swapC la' la lb u c' = c /\
  forall x, ev (prodP la') x * omega_value p (fst c') x + ev (prodP lb) x * omega_value p (snd c') x ==
            ev (prodP la) x * omega_value p (fst c) x + ev (prodP lb) x * omega_value p (snd c) x.
Proof.
  intros FA FB. cbv zeta. unfold swapC at 1 2. cbn [fst snd]. split; [apply low_field|]. split; [apply low_field|].
  set (w := swapP la la' lb u' (fst c ++ [1]) (snd c ++ [1])).
  destruct (swap_high p la la' lb u' v' La La' HU' (fst c ++ [1]) (snd c ++ [1]) h Hh (monic_dlt _ _ (proj1 FA))) as [D1 D2]. fold w in D1, D2.
  pose proof (low_peq h (fst c) (fst w) (proj1 FA) D1) as E1. pose proof (low_peq h (snd c) (snd w) (proj1 FB) D2) as E2.
  assert (EC : swapC la la' lb u' c = (low h (fst w), low h (snd w))) by reflexivity.
  split.
  - rewrite EC. unfold swapC. cbn [fst snd].
    destruct (swapP_peq p la' la lb u _ _ _ _ E1 E2) as [G1 G2].
    destruct (swap_back p la la' lb u u' v v' La La' HU' (fst c ++ [1]) (snd c ++ [1]) HU) as [B1 B2]. fold w in B1, B2.
    rewrite (low_id h (fst c)), (low_id h (snd c)); [destruct c; reflexivity|exact FB| |exact FA|].
    + exact (peq_trans p _ _ _ G2 B2).
    + exact (peq_trans p _ _ _ G1 B1).
  - intros x. rewrite EC. cbn [fst snd]. rewrite !omega_ev, (peq_ev p _ _ x E1), (peq_ev p _ _ x E2), <- !ev_mulZ, <- !ev_addZ. apply peq_ev.
    apply (swap_same p la la' lb u' v' La La' HU').
Qed.
End Two.
End V.

(** *** the whole view of a bucket *)
Section W.
Variable p : Z.
Hypothesis HP : prime p.
#[local] Notation "a == b" := (cong p a b) (at level 70).
Variables xs zA zB : list Z.
Variable h : nat.

Definition masked (r : rnd) (c : list Z * list Z) : list Z :=
  map (fun i => let x := nth i xs 0 in
    (nth i (r_mask r) 0 + nth i zA 0 * (omega_value p (r_wA r) x - omega_value p (fst c) x)
                        + nth i zB 0 * (omega_value p (r_wB r) x - omega_value p (snd c) x)) mod p) (seq 0 (length xs)).
Definition swapR (la la' lb u : list Z) (r : rnd) : rnd :=
  let c := swapC p h la la' lb u (r_wA r, r_wB r) in mkRnd (masked r c) (fst c) (snd c).

Lemma masked_nth r c i : (i < length xs)%nat -> nth i (masked r c) 0 = let x := nth i xs 0 in
    (nth i (r_mask r) 0 + nth i zA 0 * (omega_value p (r_wA r) x - omega_value p (fst c) x)
                        + nth i zB 0 * (omega_value p (r_wB r) x - omega_value p (snd c) x)) mod p.
Proof.
  intros Hi. unfold masked. set (g := fun i => _). rewrite (nth_indep _ 0 (g 0%nat)) by (rewrite map_length, seq_length; exact Hi).
  rewrite (map_nth g), seq_nth by exact Hi. reflexivity.
Qed.
Lemma masked_field r c : field_list p (length xs) (masked r c).
Proof.
  destruct HP as [Hp _]. unfold masked. split; [rewrite map_length, seq_length; reflexivity|]. apply Forall_forall. intros y Hy. apply in_map_iff in Hy.
  destruct Hy as [i [<- _]]. apply Z.mod_pos_bound. lia.
Qed.

Lemma swapR_ok C la la' lb u u' v v' RA RA' RB : length la = length lb -> length la' = length lb -> (length lb <= h)%nat ->
  peq p (addZ (mulZ u (prodP la)) (mulZ v (prodP lb))) [1] -> peq p (addZ (mulZ u' (prodP la')) (mulZ v' (prodP lb))) [1] ->
  Permutation RA (C ++ la) -> Permutation RA' (C ++ la') -> Permutation RB (C ++ lb) ->
  forall r, rnd_ok p (length xs) h r -> let r' := swapR la la' lb u' r in
    rnd_ok p (length xs) h r' /\ swapR la' la lb u r' = r /\
    row_t p xs RA' RB zA zB r' = row_t p xs RA RB zA zB r /\ row_q p xs zA zB r' = row_q p xs zA zB r.
Proof.
  intros La La' Hh HU HU' PA PA' PB r [HM [HA HB]]. cbv zeta.
  destruct (swapC_ok p HP la la' lb u u' v v' La La' HU HU' h Hh (r_wA r, r_wB r) HA HB) as [FA [FB [BK SM]]].
  set (c := swapC p h la la' lb u' (r_wA r, r_wB r)) in *.
  assert (ER : swapR la la' lb u' r = mkRnd (masked r c) (fst c) (snd c)) by reflexivity. rewrite ER.
  assert (VAL : forall R l x, Permutation R (C ++ l) -> prod_value p R x == roots_product C x * ev (prodP l) x).
  { intros R l x P. rewrite ev_prodP, <- roots_product_app, <- (roots_product_perm _ _ x P). apply cong_mod. }
  split; [split; [apply masked_field|split; assumption]|]. split; [|split].
  - unfold swapR. cbn [r_wA r_wB]. replace (fst c, snd c) with c by (destruct c; reflexivity). rewrite BK. cbn [fst snd].
    destruct r as [m ca cb]. cbn [r_mask r_wA r_wB] in *. f_equal. destruct HM as [LM FM].
    apply nth_ext with (d := 0) (d' := 0); [rewrite LM; apply masked_field|]. intros i Hi.
    assert (Hi' : (i < length xs)%nat) by (destruct (masked_field (mkRnd (masked (mkRnd m ca cb) c) (fst c) (snd c)) (ca, cb)) as [X _]; rewrite X in Hi; exact Hi).
    rewrite masked_nth by exact Hi'. cbn [r_mask r_wA r_wB fst snd]. rewrite masked_nth by exact Hi'. cbn [r_mask r_wA r_wB fst snd]. cbv zeta.
    rewrite Forall_forall in FM. assert (RM : 0 <= nth i m 0 < p) by (apply FM; apply nth_In; lia).
    apply (cong_eq (p := p)); [apply Z.mod_pos_bound; lia|exact RM|]. rewrite !cong_mod. apply cong_refl'. ring.
  - unfold row_t. apply map_ext_in. intros i Hi. apply in_seq in Hi. cbn [r_mask r_wA r_wB]. rewrite masked_nth by lia. cbv zeta. set (x := nth i xs 0).
    specialize (SM x). cbn [fst snd] in SM. match goal with |- ?a mod p = ?b mod p => change (a == b) end.
    rewrite cong_mod, (VAL RA la x PA), (VAL RA' la' x PA'), (VAL RB lb x PB).
    set (G := roots_product C x) in *. set (m := nth i (r_mask r) 0). set (a := nth i zA 0). set (b := nth i zB 0).
    set (o1 := omega_value p (r_wA r) x) in *. set (o2 := omega_value p (r_wB r) x) in *. set (o1' := omega_value p (fst c) x) in *. set (o2' := omega_value p (snd c) x) in *.
    transitivity (m + a * o1 + b * o2 + G * (ev (prodP la') x * o1' + ev (prodP lb) x * o2')); [apply cong_refl'; ring|]. rewrite SM. apply cong_refl'; ring.
  - unfold row_q. apply map_ext_in. intros i Hi. apply in_seq in Hi. cbn [r_mask r_wA r_wB]. rewrite masked_nth by lia. cbv zeta. set (x := nth i xs 0).
    match goal with |- ?a mod p = ?b mod p => change (a == b) end. rewrite cong_mod. apply cong_refl'. ring.
Qed.
End W.

Lemma view_bijection p xs h RA RA' RB zA zB : prime p -> length RA = h -> length RA' = h -> length RB = h ->
  Forall (fun z => 0 <= z < p) (RA ++ RA' ++ RB) -> (forall z, common RA RB z = common RA' RB z) ->
  exists f g : rnd -> rnd, forall r, rnd_ok p (length xs) h r ->
    (rnd_ok p (length xs) h (f r) /\ g (f r) = r /\
     row_t p xs RA' RB zA zB (f r) = row_t p xs RA RB zA zB r /\ row_q p xs zA zB (f r) = row_q p xs zA zB r) /\
    (rnd_ok p (length xs) h (g r) /\ f (g r) = r).
Proof.
  intros HP LA LA' LB FF CM.
  destruct (split_common RA RB) as [C [la [lb [PA [PB [DJ HC]]]]]]. destruct (split_common RA' RB) as [C' [la' [lb' [PA' [PB' [DJ' HC']]]]]].
  assert (PC : Permutation C' C) by (apply (Permutation_count_occ Z.eq_dec); intros z; rewrite HC, HC'; symmetry; apply CM).
  rewrite PC in PA'. rewrite PC in PB'.
  assert (PBB : Permutation lb' lb) by (apply (Permutation_app_inv_l C); rewrite <- PB, <- PB'; reflexivity).
  assert (L1 := Permutation_length PA). assert (L2 := Permutation_length PA'). assert (L3 := Permutation_length PB).
  rewrite app_length in L1, L2, L3.
  assert (IN : forall R l, Permutation R (C ++ l) -> (forall z, In z R -> 0 <= z < p) -> forall z, In z l -> 0 <= z < p).
  { intros R l P H z Hz. apply H. apply (Permutation_in _ (Permutation_sym P)). apply in_app_iff. right. exact Hz. }
  rewrite Forall_forall in FF.
  assert (NA : forall r s, In r la -> In s lb -> ~ cong p r s).
  { intros r s Hr Hs E. apply (DJ r s Hr Hs). apply (cong_eq (p := p)); [| |exact E].
    - apply (IN RA la PA); [|exact Hr]. intros z Hz. apply FF. apply in_app_iff. left. exact Hz.
    - apply (IN RB lb PB); [|exact Hs]. intros z Hz. apply FF. rewrite !in_app_iff. right. right. exact Hz. }
  assert (NA' : forall r s, In r la' -> In s lb -> ~ cong p r s).
  { intros r s Hr Hs E. apply (DJ' r s Hr); [apply (Permutation_in _ (Permutation_sym PBB)); exact Hs|]. apply (cong_eq (p := p)); [| |exact E].
    - apply (IN RA' la' PA'); [|exact Hr]. intros z Hz. apply FF. rewrite !in_app_iff. right. left. exact Hz.
    - apply (IN RB lb PB); [|exact Hs]. intros z Hz. apply FF. rewrite !in_app_iff. right. right. exact Hz. }
  destruct (comax_prod p HP la lb NA) as [u [v HU]]. destruct (comax_prod p HP la' lb NA') as [u' [v' HU']].
  exists (swapR p xs zA zB h la la' lb u'), (swapR p xs zA zB h la' la lb u). intros r OK. split.
  - apply (swapR_ok p HP xs zA zB h C la la' lb u u' v v' RA RA' RB); try assumption; lia.
  - destruct (swapR_ok p HP xs zA zB h C la' la lb u' u v' v RA' RA RB) with (r := r) as [K [B _]]; try assumption; try lia. split; assumption.
Qed.
