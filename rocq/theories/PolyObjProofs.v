(** Proofs about class ZZpPolynomials. *)
From Verif Require Import Base Spec Lib NtlMiss PolyModel PolySpec PolyProofs InterpProofs.
From Coq Require Import Znumtheory Permutation.

(** *** loops that fill an array *)
Lemma mid_get {A} (pre : list A) x rest : aget (pre ++ x :: rest) (length pre) = Ok x.
Proof. apply aget_ok. rewrite nth_error_app2 by lia. rewrite Nat.sub_diag. reflexivity. Qed.
Lemma mid_set {A} (pre : list A) x rest v : aset (pre ++ x :: rest) (length pre) v = Ok (pre ++ v :: rest).
Proof. rewrite aset_ok by (rewrite app_length; cbn; lia). rewrite upd_mid. reflexivity. Qed.
Lemma fill_loop {A} (g : nat -> res A) : forall m (pre rest : list A), length rest = m ->
  for_up m (length pre) (fun j l => do v <- g j; aset l j v) (pre ++ rest)
  = do vs <- mapM g (seq (length pre) m); Ok (pre ++ vs).
Proof.
  induction m as [|m IH]; intros pre rest L.
  - destruct rest; [|discriminate]. reflexivity.
  - destruct rest as [|x rest]; [discriminate|]. cbn [for_up seq mapM]. destruct (g (length pre)) as [v| | | |]; try reflexivity.
    cbn [bind]. rewrite mid_set. cbn [bind]. specialize (IH (pre ++ [v]) rest ltac:(cbn in L; lia)).
    rewrite app_length in IH. cbn [length] in IH. rewrite Nat.add_1_r in IH. rewrite <- app_assoc in IH. cbn [app] in IH. rewrite IH.
    destruct (mapM g (seq (S (length pre)) m)); cbn [bind]; try reflexivity. rewrite <- app_assoc. reflexivity.
Qed.
Lemma fill_loop_some {A} (g : nat -> res A) n (l0 : list A) : length l0 = n ->
  for_up n 0 (fun j ps => do v <- g j; do l <- pset ps j v; Ok (Some l)) (Some l0)
  = do vs <- mapM g (seq 0 n); Ok (Some vs).
Proof.
  intros L. transitivity (do r <- for_up n 0 (fun j l => do v <- g j; aset l j v) l0; Ok (Some r)).
  - clear L. generalize 0%nat as i. revert l0. induction n as [|n IH]; intros l0 i; [reflexivity|]. cbn [for_up].
    destruct (g i); try reflexivity. cbn [bind pset]. destruct (aset l0 i a); try reflexivity. cbn [bind]. apply IH.
  - pose proof (fill_loop g n [] l0 L) as E. cbn [app length] in E. rewrite E. destruct (mapM g (seq 0 n)); reflexivity.
Qed.
Lemma update_loop {A} (h : A -> res A) : forall (rest pre : list A),
  for_up (length rest) (length pre) (fun j l => do f <- aget l j; do f1 <- h f; aset l j f1) (pre ++ rest)
  = do vs <- mapM h rest; Ok (pre ++ vs).
Proof.
  induction rest as [|x rest IH]; intros pre; [reflexivity|]. cbn [length for_up mapM]. rewrite mid_get. cbn [bind].
  destruct (h x) as [v| | | |]; try reflexivity. cbn [bind]. rewrite mid_set. cbn [bind]. specialize (IH (pre ++ [v])).
  rewrite app_length in IH. cbn [length] in IH. rewrite Nat.add_1_r in IH. rewrite <- app_assoc in IH. cbn [app] in IH. rewrite IH.
  destruct (mapM h rest); cbn [bind]; try reflexivity. rewrite <- app_assoc. reflexivity.
Qed.

Section P.
Variable p : Z.

(** *** select_roots *)
Definition linear_roots (fs : list (list Z * Z)) : list Z :=
  map (fun g => (- const_term g) mod p) (filter (fun g => deg g =? 1) (map fst fs)).
Lemma select_roots_eq pad fs roots :
  select_roots p pad fs roots =
  roots ++ map (fun z => ntl_shr z (s64 pad)) (filter (fun z => pad <=? countLeadingZeros z) (linear_roots fs)).
Proof.
  unfold select_roots. revert roots. induction fs as [|[g e] fs IH]; intros roots; [cbn; rewrite app_nil_r; reflexivity|].
  cbn [fold_left fst]. rewrite IH. unfold linear_roots. cbn [map fst filter].
  destruct (deg g =? 1); [|reflexivity]. cbn [map filter].
  destruct (pad <=? countLeadingZeros ((- const_term g) mod p)); [|reflexivity].
  cbn [map]. rewrite <- app_assoc. reflexivity.
Qed.

Section Prime.
Hypothesis HP : prime p.

Lemma linear_form g : monic p g -> deg g = 1 -> g = [(- ((- const_term g) mod p)) mod p; 1].
Proof.
  intros [[R _] [_ L]] D. pose proof (p_gt_1 p HP). unfold deg in D. destruct g as [|a [|b [|c g]]]; cbn [length] in D; try lia.
  cbn in L. subst b. f_equal. unfold const_term. cbn [nth]. inversion R; subst.
  apply (cong_eq (p := p)); [lia|apply Z.mod_pos_bound; lia|]. rewrite !cong_mod. apply cong_refl'. lia.
Qed.
Lemma linear_roots_ok f fs : is_factorisation p f fs ->
  NoDup (linear_roots fs) /\ forall z, In z (linear_roots fs) <-> root p f z.
Proof.
  intros HF. pose proof (p_gt_1 p HP) as Hp. pose proof HF as [F [ND PP]]. split.
  - unfold linear_roots.
    assert (FM : Forall (fun g => monic p g /\ deg g = 1) (filter (fun g => deg g =? 1) (map fst fs))).
    { apply Forall_forall. intros g Hg. apply filter_In in Hg. destruct Hg as [Hg Dg]. apply Z.eqb_eq in Dg.
      apply in_map_iff in Hg. destruct Hg as [[g' e] [<- Hg]]. rewrite Forall_forall in F. split; [apply (F _ Hg)|exact Dg]. }
    assert (ND' : NoDup (filter (fun g => deg g =? 1) (map fst fs))) by (apply NoDup_filter; exact ND).
    induction ND' as [|g l N ND' IH]; [constructor|]. inversion FM as [|? ? [Mg Dg] FM']; subst. cbn [map].
    constructor; [|apply IH; exact FM']. intros H. apply in_map_iff in H. destruct H as [g' [E Hg']].
    rewrite Forall_forall in FM'. destruct (FM' g' Hg') as [Mg' Dg']. apply N.
    rewrite (linear_form g Mg Dg), <- E, <- (linear_form g' Mg' Dg'). exact Hg'.
  - intros z. unfold root. rewrite value_ev. split.
    + intros H. unfold linear_roots in H. apply in_map_iff in H. destruct H as [g [Ez Hg]]. apply filter_In in Hg.
      destruct Hg as [Hg Dg]. apply Z.eqb_eq in Dg.
      assert (Fz : 0 <= z < p) by (subst z; apply Z.mod_pos_bound; lia). split; [exact Fz|].
      apply cong_0_iff. apply (factorisation_roots p HP f fs z HF Fz).
      assert (Mg : monic p g). { apply in_map_iff in Hg. destruct Hg as [[g' e] [<- Hg]]. rewrite Forall_forall in F. apply (F _ Hg). }
      rewrite <- Ez. rewrite <- (linear_form g Mg Dg). exact Hg.
    + intros [Fz E]. apply cong_0_iff in E. apply (factorisation_roots p HP f fs z HF Fz) in E.
      unfold linear_roots. apply in_map_iff. exists [(- z) mod p; 1]. split.
      * unfold const_term. cbn [nth]. apply (cong_eq (p := p)); [apply Z.mod_pos_bound; lia|exact Fz|]. rewrite !cong_mod. apply cong_refl'. lia.
      * apply filter_In. split; [exact E|reflexivity].
Qed.

Lemma selected_padded f fs pad : is_factorisation p f fs -> 0 <= pad < 2 ^ 63 ->
  padded_roots p pad f (select_roots p pad fs []).
Proof.
  intros HF Hpad. destruct (linear_roots_ok f fs HF) as [ND HI]. rewrite select_roots_eq. cbn [app].
  exists (filter (fun z => pad <=? countLeadingZeros z) (linear_roots fs)).
  split; [apply NoDup_filter; exact ND|]. split.
  - intros z. rewrite filter_In, HI. apply and_iff_compat_l. unfold countLeadingZeros. rewrite Z.leb_le.
    destruct (Z.eq_dec z 0) as [->|N].
    + change (num_twos 0) with 0. split.
      * intros H. split; [apply Z.divide_0_r|]. lia.
      * intros [_ H]. rewrite H; [lia|reflexivity].
    + rewrite num_twos_ge by lia. split; [intros H; split; [exact H|lia]|intros [H _]; exact H].
  - apply map_ext_in. intros z Hz. apply filter_In in Hz. destruct Hz as [Hz _]. apply HI in Hz. destruct Hz as [Fz _].
    rewrite s64_small by lia. rewrite ntl_shr_pos by lia. rewrite Z.quot_div_nonneg; [reflexivity|lia|].
    apply Z.pow_pos_nonneg; lia.
Qed.
End Prime.

(** *** the one-shot loop *)
Variables canzass berlekamp : nat -> list Z -> list (list Z * Z).
#[local] Notation find := (findIntersection p canzass berlekamp).
#[local] Notation choose := (choose canzass berlekamp).

Definition one_poly (k0 : nat) (x : list Z) (ys : list (list Z)) (pfa : Z) (j : nat) : res (list Z * list (list Z * Z)) :=
  do y <- aget ys j; do f <- interpolate p x y; do f1 <- make_monic p f;
  do d <- fact_call (choose pfa) (k0 + j) f1; Ok (f1, d).

Lemma one_shot_loop k0 x ys pfa pad : forall m (pp rp : list (list Z)) (pf rf : list (list (list Z * Z))) roots,
  length rp = m -> length rf = m -> length pf = length pp ->
  for_up m (length pp) (find_step p canzass berlekamp k0 pad x ys pfa) (Some (pp ++ rp), Some (pf ++ rf), roots)
  = do L <- mapM (one_poly k0 x ys pfa) (seq (length pp) m);
    Ok (Some (pp ++ map fst L), Some (pf ++ map snd L), fold_left (fun r d => select_roots p pad d r) (map snd L) roots).
Proof.
  induction m as [|m IH]; intros pp rp pf rf roots L1 L2 L3.
  - destruct rp; [|discriminate]. destruct rf; [|discriminate]. reflexivity.
  - destruct rp as [|p0 rp]; [discriminate|]. destruct rf as [|f0 rf]; [discriminate|].
    cbn [for_up seq mapM]. unfold one_poly at 1, find_step at 1.
    destruct (aget ys (length pp)) as [y| | | |]; try reflexivity. cbn [bind].
    destruct (interpolate p x y) as [f| | | |]; try reflexivity. cbn [bind pset]. rewrite mid_set. cbn [bind].
    destruct (make_monic p f) as [f1| | | |]; try reflexivity. cbn [bind pset]. rewrite mid_set. cbn [bind pget].
    replace (aget (pf ++ f0 :: rf) (length pp)) with (Ok f0) by (rewrite <- L3; symmetry; apply mid_get). cbn [bind].
    destruct (fact_call (choose pfa) (k0 + length pp) f1) as [d| | | |]; try reflexivity. cbn [bind pset].
    replace (aset (pf ++ f0 :: rf) (length pp) d) with (Ok (pf ++ d :: rf)) by (rewrite <- L3; symmetry; apply mid_set). cbn [bind].
    specialize (IH (pp ++ [f1]) rp (pf ++ [d]) rf (select_roots p pad d roots) ltac:(cbn in L1; lia) ltac:(cbn in L2; lia) ltac:(rewrite !app_length; cbn; lia)).
    rewrite app_length in IH. cbn [length] in IH. rewrite Nat.add_1_r in IH. rewrite <- !app_assoc in IH. cbn [app] in IH. rewrite IH.
    destruct (mapM (one_poly k0 x ys pfa) (seq (S (length pp)) m)); cbn [bind]; try reflexivity.
    cbn [map fst snd fold_left]. rewrite <- !app_assoc. reflexivity.
Qed.

(** objects on which the one-shot call is safe: another number of
    polynomials, or both arrays allocated *)
Definition usable (o : zzppoly) (n : nat) : Prop :=
  pl_n o <> n \/ n = 0%nat \/
  exists ps fs, pl_polys o = Some ps /\ pl_factors o = Some fs /\ length ps = n /\ length fs = n.

Lemma find_eq k0 o x ys n pfa : usable o n -> n <> 0%nat ->
  find k0 o x ys n pfa =
  do L <- mapM (one_poly k0 x ys pfa) (seq 0 n);
  let roots := fold_left (fun r d => select_roots p (pl_padsize o) d r) (map snd L) [] in
  Ok (mkPolys n (pl_padsize o) (Some (map fst L)) (Some (map snd L)) roots, roots).
Proof.
  intros U N0. unfold findIntersection.
  assert (E : exists ps0 fs0, (if Nat.eqb (pl_n o) n then pl_polys o else Some (repeat [] n)) = Some ps0 /\
     (if Nat.eqb (pl_n o) n then pl_factors o else Some (repeat [] n)) = Some fs0 /\ length ps0 = n /\ length fs0 = n).
  { destruct (Nat.eqb_spec (pl_n o) n) as [E|E].
    - destruct U as [U|[U|U]]; [congruence|congruence|]. exact U.
    - exists (repeat [] n), (repeat [] n). rewrite !repeat_length. auto. }
  destruct E as [ps0 [fs0 [-> [-> [L1 L2]]]]].
  pose proof (one_shot_loop k0 x ys pfa (pl_padsize o) n [] ps0 [] fs0 [] L1 L2 eq_refl) as E. cbn [app length] in E. rewrite E.
  destruct (mapM (one_poly k0 x ys pfa) (seq 0 n)); reflexivity.
Qed.
Lemma find_zero k0 o x ys pfa : exists o', find k0 o x ys 0 pfa = Ok (o', []).
Proof. unfold findIntersection. cbn [for_up bind]. eexists. reflexivity. Qed.

Lemma fold_select pad L roots : fold_left (fun r d => select_roots p pad d r) L roots
  = roots ++ concat (map (fun d => select_roots p pad d []) L).
Proof.
  revert roots. induction L as [|d L IH]; intros roots; [cbn; rewrite app_nil_r; reflexivity|].
  cbn [fold_left map concat]. rewrite IH. rewrite !(select_roots_eq pad d). cbn [app]. rewrite <- app_assoc. reflexivity.
Qed.
End P.

(** *** C40 *)
Section C40.
Variable p : Z.
Hypothesis HP : prime p.
Variables canzass berlekamp : nat -> list Z -> list (list Z * Z).
Hypothesis HC : factors_correctly p canzass.
Hypothesis HB : factors_correctly p berlekamp.

Lemma choose_correct pfa : factors_correctly p (choose canzass berlekamp pfa).
Proof. unfold choose. destruct (pfa =? PFA_BERLEKAMP); assumption. Qed.

Lemma padded_scaled f g i pad vs : 0 < i < p -> (forall x, cong p (ev g x) (i * ev f x)) ->
  padded_roots p pad g vs -> padded_roots p pad f vs.
Proof.
  intros Hi E [zs [ND [H V]]]. exists zs. split; [exact ND|]. split; [|exact V]. intros z. rewrite H. apply and_iff_compat_r.
  unfold root. apply and_iff_compat_l. rewrite !value_ev. rewrite <- !cong_0_iff. rewrite E. split; intros A.
  - apply (prime_cong_mul HP) in A. destruct A as [A|A]; [|exact A]. exfalso. pose proof (proj1 (cong_0_iff _) A) as A0. rewrite Z.mod_small in A0 by lia. lia.
  - rewrite A. apply cong_refl'. lia.
Qed.

Lemma one_poly_ok k0 x ys pfa j f : Forall (in_field p) x -> NoDup x ->
  nth_error ys j = Some (map (value p f) x) -> is_poly p f -> f <> [] -> (length f <= length x)%nat ->
  exists g d, one_poly p canzass berlekamp k0 x ys pfa j = Ok (g, d) /\
    forall pad, 0 <= pad < 2 ^ 63 -> padded_roots p pad f (select_roots p pad d []).
Proof.
  intros F ND Hy Pf Nf Lf. unfold one_poly. apply aget_ok in Hy. rewrite Hy. cbn [bind].
  rewrite (interpolate_recovers p HP) by assumption. cbn [bind].
  destruct (make_monic_ok p HP f Pf Nf) as [g [i [-> [Mg [Lg [Hi Eg]]]]]]. cbn [bind]. unfold fact_call, lead_coeff.
  destruct Mg as [Pg [Ng Lead]]. rewrite Lead. change (1 =? 1) with true. cbv iota. cbn [bind].
  eexists _, _. split; [reflexivity|]. intros pad Hpad. apply (padded_scaled f g i); [exact Hi|exact Eg|].
  apply (selected_padded p HP); [|exact Hpad]. apply choose_correct. split; [exact Pg|split; [exact Ng|exact Lead]].
Qed.

Lemma find_padded k0 o x ys pfa fs : usable o (length fs) -> 0 <= pl_padsize o < 2 ^ 63 ->
  Forall (in_field p) x -> NoDup x ->
  Forall (fun f => is_poly p f /\ f <> [] /\ (length f <= length x)%nat) fs ->
  (forall j f, nth_error fs j = Some f -> nth_error ys j = Some (map (value p f) x)) ->
  exists o' vss, findIntersection p canzass berlekamp k0 o x ys (length fs) pfa = Ok (o', concat vss) /\
    Forall2 (padded_roots p (pl_padsize o)) fs vss.
Proof.
  intros U Hpad F ND HF HY. destruct (Nat.eq_dec (length fs) 0) as [E0|N0].
  { destruct fs; [|discriminate]. destruct (find_zero p canzass berlekamp k0 o x ys pfa) as [o' E]. exists o', []. cbn [length concat]. split; [exact E|constructor]. }
  rewrite (find_eq p canzass berlekamp k0 o x ys (length fs) pfa U N0).
  assert (G : forall i fs', (forall j f, nth_error fs' j = Some f -> nth_error fs (i + j) = Some f) ->
     exists L, mapM (one_poly p canzass berlekamp k0 x ys pfa) (seq i (length fs')) = Ok L /\
       Forall2 (fun f gd => padded_roots p (pl_padsize o) f (select_roots p (pl_padsize o) (snd gd) [])) fs' L).
  { intros i fs'. revert i. induction fs' as [|f fs' IH]; intros i Hi; [exists []; split; [reflexivity|constructor]|].
    cbn [length seq mapM]. pose proof (Hi 0%nat f eq_refl) as H0. rewrite Nat.add_0_r in H0.
    assert (Hf : is_poly p f /\ f <> [] /\ (length f <= length x)%nat).
    { rewrite Forall_forall in HF. apply HF. eapply nth_error_In. exact H0. }
    destruct Hf as [Pf [Nf Lf]].
    destruct (one_poly_ok k0 x ys pfa i f F ND (HY i f H0) Pf Nf Lf) as [g [d [-> PD]]]. cbn [bind].
    destruct (IH (S i)) as [L [-> F2]].
    { intros j f' Hj. replace (S i + j)%nat with (i + S j)%nat by lia. apply Hi. exact Hj. }
    cbn [bind]. eexists. split; [reflexivity|]. constructor; [cbn [snd]; apply PD; exact Hpad|exact F2]. }
  destruct (G 0%nat fs) as [L [-> F2]]; [intros j f Hj; exact Hj|]. cbn [bind].
  rewrite fold_select. cbn [app]. eexists _, _. split; [reflexivity|].
  rewrite map_map. clear -F2. induction F2; cbn [map]; constructor; assumption.
Qed.

Lemma padded_perm pad f vs ws : padded_roots p pad f vs -> padded_roots p pad f ws -> Permutation vs ws.
Proof.
  intros [zs [N1 [H1 ->]]] [zt [N2 [H2 ->]]]. apply Permutation_map. apply NoDup_Permutation; [exact N1|exact N2|].
  intros z. rewrite H1, H2. reflexivity.
Qed.
Lemma concat_perm pad : forall fs vss wss, Forall2 (padded_roots p pad) fs vss -> Forall2 (padded_roots p pad) fs wss ->
  Permutation (concat vss) (concat wss).
Proof.
  intros fs vss wss H. revert wss. induction H as [|f vs fs vss Hf H IH]; intros wss K; inversion K as [|? ws ? wss' Kf K']; subst; [constructor|].
  cbn [concat]. apply Permutation_app; [eapply padded_perm; eassumption|apply IH; exact K'].
Qed.

(** a zero polynomial (all values 0) aborts in the factoring *)
Lemma interpolate_zero x : Forall (in_field p) x -> NoDup x -> interpolate p x (map (fun _ => 0) x) = Ok [].
Proof.
  intros F ND. pose proof (interpolate_recovers p HP x [] F ND) as E. rewrite <- E; [|split; [constructor|cbn; lia]|cbn; lia].
  apply f_equal. apply map_ext. intros z. rewrite value_ev. cbn [ev]. rewrite Zmod_0_l. reflexivity.
Qed.
Lemma find_zero_poly k0 o x ys n pfa fs : usable o n -> Forall (in_field p) x -> NoDup x -> (length fs < n)%nat ->
  Forall (fun f => is_poly p f /\ f <> [] /\ (length f <= length x)%nat) fs ->
  (forall j f, nth_error fs j = Some f -> nth_error ys j = Some (map (value p f) x)) ->
  nth_error ys (length fs) = Some (map (fun _ => 0) x) ->
  findIntersection p canzass berlekamp k0 o x ys n pfa = Abort.
Proof.
  intros U F ND LN HF HY HZ. rewrite (find_eq p canzass berlekamp k0 o x ys n pfa U ltac:(lia)).
  assert (G : forall i fs' m, (forall j f, nth_error fs' j = Some f -> nth_error fs (i + j) = Some f) -> (i + length fs' = length fs)%nat ->
     mapM (one_poly p canzass berlekamp k0 x ys pfa) (seq i (length fs' + S m)) = Abort).
  { intros i fs'. revert i. induction fs' as [|f fs' IH]; intros i m Hi Hl.
    - cbn [length Nat.add seq mapM]. unfold one_poly at 1. cbn [length] in Hl. rewrite Nat.add_0_r in Hl. subst i.
      apply aget_ok in HZ. rewrite HZ. cbn [bind]. rewrite interpolate_zero by assumption. reflexivity.
    - cbn [length Nat.add seq mapM]. pose proof (Hi 0%nat f eq_refl) as H0. rewrite Nat.add_0_r in H0.
      assert (Hf : is_poly p f /\ f <> [] /\ (length f <= length x)%nat).
      { rewrite Forall_forall in HF. apply HF. eapply nth_error_In. exact H0. }
      destruct Hf as [Pf [Nf Lf]].
      destruct (one_poly_ok k0 x ys pfa i f F ND (HY i f H0) Pf Nf Lf) as [g [d [-> PD]]]. cbn [bind].
      rewrite (IH (S i) m); [reflexivity| |cbn [length] in Hl; lia].
      intros j f' Hj. replace (S i + j)%nat with (i + S j)%nat by lia. apply Hi. exact Hj. }
  replace n with (length fs + S (n - length fs - 1))%nat by lia. rewrite (G 0%nat fs); [reflexivity| |reflexivity]. intros j f Hj; exact Hj.
Qed.
End C40.

(** *** C41 *)
Lemma mapM_iff {A B} (f : A -> res B) l L : mapM f l = Ok L <-> Forall2 (fun a b => f a = Ok b) l L.
Proof.
  split.
  - revert L. induction l as [|a l IH]; intros L; cbn [mapM]; [intros E; apply Ok_inj in E; subst; constructor|].
    destruct (f a) eqn:Ea; try discriminate. cbn [bind]. destruct (mapM f l) eqn:El; try discriminate. cbn [bind].
    intros E. apply Ok_inj in E. subst. constructor; [exact Ea|apply IH; reflexivity].
  - intros H. induction H as [|a b l L Ha H IH]; [reflexivity|]. cbn [mapM]. rewrite Ha. cbn [bind]. rewrite IH. reflexivity.
Qed.

Lemma map_fst_combine {A B} (l : list A) (m : list B) : length l = length m -> map fst (combine l m) = l.
Proof. revert m. induction l as [|a l IH]; intros [|b m] H; cbn in *; try congruence. f_equal. apply IH. lia. Qed.
Lemma map_snd_combine {A B} (l : list A) (m : list B) : length l = length m -> map snd (combine l m) = m.
Proof. revert m. induction l as [|a l IH]; intros [|b m] H; cbn in *; try congruence. f_equal. apply IH. lia. Qed.

Section C41.
Variable p : Z.
Variables canzass berlekamp : nat -> list Z -> list (list Z * Z).
#[local] Notation choose := (choose canzass berlekamp).

Lemma makeMonic_eq n pad ps fs rs : length ps = n ->
  makeMonic p (mkPolys n pad (Some ps) fs rs) = do l <- mapM (make_monic p) ps; Ok (mkPolys n pad (Some l) fs rs).
Proof.
  intros L. unfold makeMonic. cbn [pl_n pl_polys pl_padsize pl_factors pl_roots].
  assert (E : for_up n 0 (fun j ps => do f <- pget ps j; do f1 <- make_monic p f; do l <- pset ps j f1; Ok (Some l)) (Some ps)
    = do r <- for_up n 0 (fun j l => do f <- aget l j; do f1 <- make_monic p f; aset l j f1) ps; Ok (Some r)).
  { clear L. generalize 0%nat as i. revert ps. induction n as [|n IH]; intros ps i; [reflexivity|]. cbn [for_up pget].
    destruct (aget ps i); try reflexivity. cbn [bind]. destruct (make_monic p a); try reflexivity. cbn [bind pset].
    destruct (aset ps i a0); try reflexivity. cbn [bind]. apply IH. }
  rewrite E. subst n. pose proof (update_loop (make_monic p) ps []) as U. cbn [app length] in U. rewrite U.
  destruct (mapM (make_monic p) ps); reflexivity.
Qed.
Lemma interpolate_all_eq o x ys n : pl_n o <> n ->
  interpolate_all p o x ys n true =
  do fs <- mapM (fun j => do y <- aget ys j; interpolate p x y) (seq 0 n);
  do gs <- mapM (make_monic p) fs; Ok (mkPolys n (pl_padsize o) (Some gs) (pl_factors o) (pl_roots o)).
Proof.
  intros N. unfold interpolate_all. apply Nat.eqb_neq in N. rewrite N.
  assert (E : for_up n 0 (fun j ps => do y <- aget ys j; do f <- interpolate p x y; do l <- pset ps j f; Ok (Some l)) (Some (repeat [] n))
    = do vs <- mapM (fun j => do y <- aget ys j; interpolate p x y) (seq 0 n); Ok (Some vs)).
  { rewrite <- (fill_loop_some _ n (repeat [] n)) by apply repeat_length. apply for_up_ext. intros j ps _. destruct (aget ys j); reflexivity. }
  rewrite E. destruct (mapM (fun j => do y <- aget ys j; interpolate p x y) (seq 0 n)) as [fs| | | |] eqn:EM; try reflexivity. cbn [bind].
  apply makeMonic_eq. apply mapM_length in EM. rewrite seq_length in EM. exact EM.
Qed.
Lemma factorise_eq k0 n pad ps fs rs pfa : length ps = n ->
  factorise canzass berlekamp k0 (mkPolys n pad (Some ps) fs rs) pfa =
  do ds <- mapM (fun j => do f <- aget ps j; fact_call (choose pfa) (k0 + j) f) (seq 0 n);
  Ok (mkPolys n pad (Some ps) (Some ds) rs).
Proof.
  intros L. unfold factorise. cbn [pl_n pl_polys pl_padsize pl_factors pl_roots pget].
  pose proof (fill_loop (fun j => do f <- aget ps j; fact_call (choose pfa) (k0 + j) f) n [] (repeat [] n) (repeat_length _ _)) as E.
  cbn [app length] in E.
  transitivity (do fs <- for_up n 0 (fun j l => do v <- (do f <- aget ps j; fact_call (choose pfa) (k0 + j) f); aset l j v) (repeat [] n); Ok (mkPolys n pad (Some ps) (Some fs) rs)).
  - f_equal. apply for_up_ext. intros j l _. destruct (aget ps j); reflexivity.
  - rewrite E. destruct (mapM _ (seq 0 n)); reflexivity.
Qed.
Lemma find0_loop pad (l : list (list (list Z * Z))) : forall m i roots, (i + m <= length l)%nat ->
  for_up m i (fun j roots => do fs <- aget l j; Ok (select_roots p pad fs roots)) roots
  = Ok (fold_left (fun r d => select_roots p pad d r) (firstn m (skipn i l)) roots).
Proof.
  induction m as [|m IH]; intros i roots Hi; [reflexivity|]. cbn [for_up].
  destruct (nth_error l i) as [d|] eqn:E; [|apply nth_error_None in E; lia].
  pose proof (proj2 (aget_ok l i d) E) as E'. rewrite E'. cbn [bind]. rewrite IH by lia.
  apply nth_error_split in E. destruct E as [l1 [l2 [-> Hl]]]. subst i.
  assert (S1 : skipn (length l1) (l1 ++ d :: l2) = d :: l2) by (rewrite skipn_app, skipn_all, Nat.sub_diag; reflexivity).
  assert (S2 : skipn (S (length l1)) (l1 ++ d :: l2) = l2).
  { replace (l1 ++ d :: l2) with ((l1 ++ [d]) ++ l2) by (rewrite <- app_assoc; reflexivity).
    replace (S (length l1)) with (length (l1 ++ [d])) by (rewrite app_length; cbn; lia). rewrite skipn_app, skipn_all, Nat.sub_diag. reflexivity. }
  rewrite S1, S2. reflexivity.
Qed.
Lemma find0_eq o fl : pl_factors o = Some fl -> (pl_n o <= length fl)%nat ->
  let roots := fold_left (fun r d => select_roots p (pl_padsize o) d r) (firstn (pl_n o) fl) [] in
  findIntersection0 p o = Ok (mkPolys (pl_n o) (pl_padsize o) (pl_polys o) (Some fl) roots, roots).
Proof. intros E L. unfold findIntersection0. rewrite E. rewrite find0_loop by (cbn; exact L). reflexivity. Qed.

Definition two_step (k0 : nat) (o : zzppoly) x ys n pfa : res (zzppoly * list Z) :=
  do o1 <- interpolate_all p o x ys n true; do o2 <- factorise canzass berlekamp k0 o1 pfa; findIntersection0 p o2.

(** the three loops against the one *)
Lemma three_loops k0 x ys pfa : forall m i L,
  mapM (one_poly p canzass berlekamp k0 x ys pfa) (seq i m) = Ok L <->
  exists fs, mapM (fun j => do y <- aget ys j; interpolate p x y) (seq i m) = Ok fs /\
    mapM (make_monic p) fs = Ok (map fst L) /\
    Forall2 (fun jg d => fact_call (choose pfa) (k0 + fst jg) (snd jg) = Ok d) (combine (seq i m) (map fst L)) (map snd L).
Proof.
  induction m as [|m IH]; intros i L; cbn [seq].
  - cbn [mapM]. split.
    + intros E. apply Ok_inj in E. subst. exists []. split; [reflexivity|]. split; [reflexivity|constructor].
    + intros [fs [E1 [E2 _]]]. apply Ok_inj in E1. subst. cbn in E2. apply Ok_inj in E2. destruct L; [reflexivity|discriminate].
  - rewrite mapM_iff. split.
    + intros H. inversion H as [|? [g d] ? L' H1 H2]; subst. apply mapM_iff in H2. apply IH in H2. destruct H2 as [fs [E1 [E2 E3]]].
      unfold one_poly in H1. apply bind_ok in H1. destruct H1 as [y [Ey H1]]. apply bind_ok in H1. destruct H1 as [f [Ef H1]].
      apply bind_ok in H1. destruct H1 as [f1 [Ef1 H1]]. apply bind_ok in H1. destruct H1 as [d' [Ed H1]]. apply Ok_inj in H1.
      assert (f1 = g) by congruence. assert (d' = d) by congruence. subst f1 d'.
      exists (f :: fs). cbn [mapM map fst snd combine]. rewrite Ey. cbn [bind]. rewrite Ef. cbn [bind]. rewrite E1. cbn [bind]. split; [reflexivity|].
      rewrite Ef1. cbn [bind]. rewrite E2. split; [reflexivity|]. constructor; [exact Ed|exact E3].
    + intros [fs [E1 [E2 E3]]]. apply mapM_iff in E1. inversion E1 as [|? f ? fs' F1 F2]; subst. apply mapM_iff in E2.
      inversion E2 as [|? g ? gs' G1 G2 EG EL]; subst. destruct L as [|[g' d] L]; [discriminate|]. cbn [map fst] in *. inversion EL; subst g' gs'.
      cbn [combine map snd] in E3. inversion E3 as [|? ? ? ? D1 D2]; subst. apply bind_ok in F1. destruct F1 as [y [Ey Ef]].
      constructor.
      * unfold one_poly. rewrite Ey. cbn [bind]. rewrite Ef. cbn [bind]. rewrite G1. cbn [bind fst snd] in *. rewrite D1. reflexivity.
      * apply mapM_iff. apply IH. exists fs'. split; [apply mapM_iff; exact F2|]. split; [apply mapM_iff; exact G2|exact D2].
Qed.
Lemma fact_calls k0 pfa (gs : list (list Z)) : forall pre ds,
  mapM (fun j => do f <- aget (pre ++ gs) j; fact_call (choose pfa) (k0 + j) f) (seq (length pre) (length gs)) = Ok ds <->
  Forall2 (fun jg d => fact_call (choose pfa) (k0 + fst jg) (snd jg) = Ok d) (combine (seq (length pre) (length gs)) gs) ds.
Proof.
  induction gs as [|g gs IH]; intros pre ds; cbn [length seq combine].
  - cbn [mapM]. split; [intros E; apply Ok_inj in E; subst; constructor|intros E; inversion E; reflexivity].
  - assert (A : aget (pre ++ g :: gs) (length pre) = Ok g) by apply mid_get.
    rewrite mapM_iff.
    assert (R : forall ds', mapM (fun j => do f <- aget (pre ++ g :: gs) j; fact_call (choose pfa) (k0 + j) f) (seq (S (length pre)) (length gs)) = Ok ds' <->
       Forall2 (fun jg d => fact_call (choose pfa) (k0 + fst jg) (snd jg) = Ok d) (combine (seq (S (length pre)) (length gs)) gs) ds').
    { intros ds'. specialize (IH (pre ++ [g]) ds'). rewrite app_length in IH. cbn [length] in IH. rewrite Nat.add_1_r in IH.
      rewrite <- app_assoc in IH. cbn [app] in IH. exact IH. }
    split; intros H; inversion H as [|? d ? ds' H1 H2]; subst; constructor.
    + rewrite A in H1. cbn [bind] in H1. exact H1.
    + apply R. apply mapM_iff. exact H2.
    + rewrite A. cbn [bind]. exact H1.
    + apply mapM_iff. apply R. exact H2.
Qed.

Lemma two_step_eq k0 pad x ys n pfa vs :
  (exists o, two_step k0 (new_polys pad) x ys n pfa = Ok (o, vs)) <->
  (exists o, findIntersection p canzass berlekamp k0 (new_polys pad) x ys n pfa = Ok (o, vs)).
Proof.
  destruct n as [|n].
  { split; intros [o E]; cbn in E; apply Ok_inj in E; assert (vs = []) by congruence; subst vs; eexists; reflexivity. }
  rewrite find_eq; [|left; cbn; lia|lia]. set (N := S n) in *.
  unfold two_step. rewrite interpolate_all_eq by (cbn; lia). cbn [new_polys pl_padsize pl_factors pl_roots].
  split.
  - intros [o E]. apply bind_ok in E. destruct E as [o1 [E1 E]]. apply bind_ok in E1. destruct E1 as [fs [E1 E2]].
    apply bind_ok in E2. destruct E2 as [gs [E2 E3]]. apply Ok_inj in E3. subst o1.
    apply bind_ok in E. destruct E as [o2 [E3 E]].
    assert (LG : length gs = N) by (rewrite (mapM_length _ _ _ E2), (mapM_length _ _ _ E1); apply seq_length).
    rewrite factorise_eq in E3 by exact LG. apply bind_ok in E3. destruct E3 as [ds [E3 E4]]. apply Ok_inj in E4. subst o2.
    assert (LD : length ds = N) by (rewrite (mapM_length _ _ _ E3); apply seq_length).
    rewrite (find0_eq _ ds) in E by (cbn; auto; lia). cbn [pl_n pl_padsize pl_polys] in E. rewrite firstn_all2 in E by lia. apply Ok_inj in E.
    assert (EL : mapM (one_poly p canzass berlekamp k0 x ys pfa) (seq 0 N) = Ok (combine gs ds)).
    { apply three_loops. exists fs. split; [exact E1|].
      assert (M1 : map fst (combine gs ds) = gs) by (apply map_fst_combine; congruence).
      assert (M2 : map snd (combine gs ds) = ds) by (apply map_snd_combine; congruence).
      rewrite M1, M2. split; [exact E2|]. rewrite <- LG in E3 |- *. apply (proj1 (fact_calls k0 pfa gs [] ds)). cbn [app length]. exact E3. }
    rewrite EL. cbn [bind]. assert (M2 : map snd (combine gs ds) = ds) by (apply map_snd_combine; congruence).
    rewrite M2. eexists. f_equal. f_equal. congruence.
  - intros [o E]. apply bind_ok in E. destruct E as [L [E1 E]]. cbv zeta in E. apply Ok_inj in E. pose proof (mapM_length _ _ _ E1) as LL. rewrite seq_length in LL.
    apply three_loops in E1. destruct E1 as [fs [E1 [E2 E3]]]. rewrite E1. cbn [bind]. rewrite E2. cbn [bind].
    rewrite factorise_eq by (rewrite map_length; exact LL).
    assert (E4 : mapM (fun j => do f <- aget (map fst L) j; fact_call (choose pfa) (k0 + j) f) (seq 0 N) = Ok (map snd L)).
    { assert (LF : length (map fst L) = N) by (rewrite map_length; exact LL). rewrite <- LF in E3 |- *. apply (proj2 (fact_calls k0 pfa (map fst L) [] (map snd L))). exact E3. }
    rewrite E4. cbn [bind]. rewrite (find0_eq _ (map snd L)) by (cbn; auto; rewrite map_length; lia). cbn [pl_n pl_padsize pl_polys].
    rewrite firstn_all2 by (rewrite map_length; lia). eexists. f_equal. f_equal. congruence.
Qed.

(** *** C42 *)
Lemma mix_null o1 k0 pad x ys n pfa : (0 < n)%nat -> interpolate_all p (new_polys pad) x ys n true = Ok o1 ->
  findIntersection p canzass berlekamp k0 o1 x ys n pfa = UB NullDeref.
Proof.
  intros N E. rewrite interpolate_all_eq in E by (cbn; lia). apply bind_ok in E. destruct E as [fs [E1 E]]. apply bind_ok in E. destruct E as [gs [E2 E]].
  apply Ok_inj in E. subst o1. unfold findIntersection. cbn [pl_n pl_polys pl_factors new_polys pl_padsize]. rewrite Nat.eqb_refl.
  destruct n as [|n]; [lia|]. cbn [seq] in E1. apply mapM_iff in E1. inversion E1 as [|? f ? fs' F1 F2]; subst. apply mapM_iff in E2.
  inversion E2 as [|? g ? gs' G1 G2]; subst. apply bind_ok in F1. destruct F1 as [y [Ey Ef]].
  cbn [for_up]. unfold find_step at 1. rewrite Ey. cbn [bind]. rewrite Ef. cbn [bind pset]. unfold aset at 1. cbn [length Nat.ltb Nat.leb bind upd].
  rewrite G1. cbn [bind pset]. unfold aset at 1. cbn [length Nat.ltb Nat.leb bind upd]. reflexivity.
Qed.
Lemma mix_stale k0 pad x ys n pfa o1 o2 x' ys' m o3 : (0 < n)%nat ->
  interpolate_all p (new_polys pad) x ys n true = Ok o1 -> factorise canzass berlekamp k0 o1 pfa = Ok o2 ->
  interpolate_all p o2 x' ys' m true = Ok o3 ->
  ((n < m)%nat -> findIntersection0 p o3 = UB OutOfBounds) /\
  ((m <= n)%nat -> exists ds, pl_factors o2 = Some ds /\ exists o4,
     findIntersection0 p o3 = Ok (o4, concat (map (fun d => select_roots p pad d []) (firstn m ds)))).
Proof.
  intros N E1 E2 E3. rewrite interpolate_all_eq in E1 by (cbn; lia). apply bind_ok in E1. destruct E1 as [fs [F1 E1]]. apply bind_ok in E1. destruct E1 as [gs [F2 E1]].
  apply Ok_inj in E1. subst o1. cbn [new_polys pl_padsize pl_factors pl_roots] in *.
  assert (LG : length gs = n) by (rewrite (mapM_length _ _ _ F2), (mapM_length _ _ _ F1); apply seq_length).
  rewrite factorise_eq in E2 by exact LG. apply bind_ok in E2. destruct E2 as [ds [D1 E2]]. apply Ok_inj in E2. subst o2.
  assert (LD : length ds = n) by (rewrite (mapM_length _ _ _ D1); apply seq_length).
  assert (P3 : pl_n o3 = m /\ pl_factors o3 = Some ds /\ pl_padsize o3 = pad).
  { unfold interpolate_all in E3. apply bind_ok in E3. destruct E3 as [ps [_ E3]]. unfold makeMonic in E3. apply bind_ok in E3. destruct E3 as [ps' [_ E3]].
    apply Ok_inj in E3. subst o3. cbn. auto. }
  destruct P3 as [P1 [P2 P3]]. split.
  - intros H. unfold findIntersection0. rewrite P1, P2, P3.
    replace m with (n + S (m - n - 1))%nat by lia. rewrite for_up_app. rewrite find0_loop by lia. cbn [bind for_up].
    assert (A : aget ds (0 + n) = UB OutOfBounds) by (unfold aget; replace (nth_error ds (0 + n)) with (@None (list (list Z * Z))) by (symmetry; apply nth_error_None; lia); reflexivity).
    rewrite A. reflexivity.
  - intros H. exists ds. split; [reflexivity|]. rewrite (find0_eq o3 ds) by (auto; rewrite P1; lia). rewrite P1, P3, fold_select. cbn [app].
    eexists. reflexivity.
Qed.
End C41.

(** objects on which only one-shot calls were made *)
Inductive one_shot_object (p : Z) (canzass berlekamp : nat -> list Z -> list (list Z * Z)) (pad : Z) : zzppoly -> Prop :=
| oso_new : one_shot_object p canzass berlekamp pad (new_polys pad)
| oso_call o k0 x ys n pfa o' vs : one_shot_object p canzass berlekamp pad o ->
    findIntersection p canzass berlekamp k0 o x ys n pfa = Ok (o', vs) -> one_shot_object p canzass berlekamp pad o'.
Lemma one_shot_usable p cz bl pad o : one_shot_object p cz bl pad o ->
  pl_padsize o = pad /\ forall n, usable o n.
Proof.
  intros H. assert (G : pl_padsize o = pad /\ (pl_n o = 0%nat \/ exists ps fs, pl_polys o = Some ps /\ pl_factors o = Some fs /\ length ps = pl_n o /\ length fs = pl_n o)).
  { induction H as [|o k0 x ys n pfa o' vs H [P IH] E]; [split; [reflexivity|left; reflexivity]|].
    destruct (Nat.eq_dec n 0) as [->|N].
    - unfold findIntersection in E. cbn [for_up bind] in E. apply Ok_inj in E.
      assert (o' = mkPolys 0 (pl_padsize o) (if Nat.eqb (pl_n o) 0 then pl_polys o else Some (repeat [] 0)) (if Nat.eqb (pl_n o) 0 then pl_factors o else Some (repeat [] 0)) []) by congruence.
      subst o'. cbn. auto.
    - assert (U : usable o n).
      { unfold usable. destruct (Nat.eq_dec (pl_n o) n) as [En|]; [|left; assumption]. right. right. destruct IH as [IH|IH]; [congruence|]. rewrite En in IH. exact IH. }
      rewrite (find_eq p cz bl k0 o x ys n pfa U N) in E. apply bind_ok in E. destruct E as [L [E1 E]]. cbv zeta in E. apply Ok_inj in E.
      apply mapM_length in E1. rewrite seq_length in E1.
      assert (o' = mkPolys n (pl_padsize o) (Some (map fst L)) (Some (map snd L)) (fold_left (fun r d => select_roots p (pl_padsize o) d r) (map snd L) [])) by congruence.
      subst o'. cbn [pl_n pl_padsize pl_polys pl_factors]. split; [exact P|]. right. exists (map fst L), (map snd L). rewrite !map_length. auto. }
  destruct G as [P G]. split; [exact P|]. intros n. unfold usable. destruct (Nat.eq_dec (pl_n o) n) as [En|]; [|left; assumption]. right.
  destruct G as [G|G]; [left; congruence|right]. rewrite En in G. exact G.
Qed.
