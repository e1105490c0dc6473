(** Proofs about a whole run. *)
From Verif Require Import Base Spec Lib NtlMiss NtlMissProofs StrIntModel HashBucketsModel HashBucketsSpec HashBucketsProofs.
From Verif Require Import PRFModel PRFSpec PRFProofs PolyModel PolySpec PolyProofs InterpProofs PolyObjProofs EopsiModel EopsiSpec EopsiProofs EopsiBlind.
From Coq Require Import Znumtheory.

(** *** the combined polynomial *)
Lemma addZ_length : forall f g, length (addZ f g) = Nat.max (length f) (length g).
Proof. induction f as [|a f IH]; intros [|b g]; cbn [addZ length Nat.max]; try reflexivity. rewrite IH. reflexivity. Qed.
Lemma mulZ_length f g : g <> [] -> length (mulZ f g) = match length f with O => O | S n => n + length g end%nat.
Proof.
  intros N. assert (0 < length g)%nat by (destruct g; [congruence|cbn; lia]).
  induction f as [|c f IH]; [reflexivity|]. cbn [mulZ length]. rewrite addZ_length, map_length. cbn [length]. rewrite IH. destruct (length f); lia.
Qed.
Lemma conv_top f g m n : length f = S m -> length g = S n -> conv f g (m + n) = coef f m * coef g n.
Proof.
  revert m. induction f as [|c f IH]; intros m Lf Lg; [discriminate|]. rewrite conv_cons. cbn in Lf. injection Lf as Lf.
  destruct m as [|m].
  - destruct f; [|discriminate]. cbn [Nat.add]. destruct n; [cbn; lia|]. rewrite conv_nil. cbn [coef nth]. lia.
  - cbn [Nat.add]. rewrite (IH m Lf Lg). rewrite coef_cons_S. rewrite (coef_over g) by lia. lia.
Qed.

Section R.
Variable p : Z.
Hypothesis Hp2 : 2 < p.

Definition comb_poly (ra rb ca cb : list Z) : list Z :=
  map (fun c => c mod p) (addZ (mulZ (build_from_roots p ra) (ca ++ [1])) (mulZ (build_from_roots p rb) (cb ++ [1]))).

Lemma ev_map_mod f x : cong p (ev (map (fun c => c mod p) f) x) (ev f x).
Proof. apply ev_cong. intros i. unfold coef. change 0 with (0 mod p) at 1. rewrite (map_nth (fun c => c mod p)). apply cong_mod. Qed.

Lemma comb_value ra rb ca cb z : value p (comb_poly ra rb ca cb) z = combined p ra rb ca cb z.
Proof.
  rewrite value_ev. unfold comb_poly, combined, prod_value, omega_value. rewrite !value_ev.
  transitivity (ev (addZ (mulZ (build_from_roots p ra) (ca ++ [1])) (mulZ (build_from_roots p rb) (cb ++ [1]))) z mod p); [apply ev_map_mod|].
  rewrite ev_addZ, !ev_mulZ.
  assert (E : cong p (ev (build_from_roots p ra) z * ev (ca ++ [1]) z + ev (build_from_roots p rb) z * ev (cb ++ [1]) z)
     (roots_product ra z mod p * (ev (ca ++ [1]) z mod p) + roots_product rb z mod p * (ev (cb ++ [1]) z mod p))).
  { rewrite !build_from_roots_ev, !cong_mod. reflexivity. }
  exact E.
Qed.
Lemma comb_shape h ra rb ca cb : length ra = h -> length rb = h -> length ca = h -> length cb = h ->
  is_poly p (comb_poly ra rb ca cb) /\ length (comb_poly ra rb ca cb) = S (2 * h) /\ last (comb_poly ra rb ca cb) 0 = 2.
Proof.
  intros La Lb Ca Cb. unfold comb_poly.
  destruct (build_shape p ra ltac:(lia)) as [[_ [_ MA]] SA]. destruct (build_shape p rb ltac:(lia)) as [[_ [_ MB]] SB].
  set (PA := build_from_roots p ra) in *. set (PB := build_from_roots p rb) in *.
  set (S0 := addZ (mulZ PA (ca ++ [1])) (mulZ PB (cb ++ [1]))).
  assert (LS : length S0 = S (2 * h)).
  { unfold S0. rewrite addZ_length, !mulZ_length by (intros X; symmetry in X; apply app_cons_not_nil in X; exact X).
    rewrite SA, SB, !app_length. cbn [length]. lia. }
  assert (TS : coef S0 (2 * h) = 2).
  { unfold S0. rewrite coef_addZ, !coef_mulZ.
    replace (2 * h)%nat with (length ra + length ca)%nat at 1 by lia.
    replace (2 * h)%nat with (length rb + length cb)%nat by lia.
    rewrite (conv_top PA (ca ++ [1]) (length ra) (length ca)) by (rewrite ?SA, ?app_length; cbn; lia).
    rewrite (conv_top PB (cb ++ [1]) (length rb) (length cb)) by (rewrite ?SB, ?app_length; cbn; lia).
    assert (L1 : coef PA (length ra) = 1) by (rewrite last_coef, SA in MA; cbn [Nat.sub] in MA; rewrite Nat.sub_0_r in MA; exact MA).
    assert (L2 : coef PB (length rb) = 1) by (rewrite last_coef, SB in MB; cbn [Nat.sub] in MB; rewrite Nat.sub_0_r in MB; exact MB).
    rewrite L1, L2. unfold coef. rewrite !app_nth2, !Nat.sub_diag by lia. reflexivity. }
  assert (LL : last (map (fun c => c mod p) S0) 0 = 2).
  { rewrite last_coef, map_length, LS. replace (S (2 * h) - 1)%nat with (2 * h)%nat by lia. unfold coef in *.
    change 0 with (0 mod p). rewrite (map_nth (fun c => c mod p)). rewrite TS. apply Z.mod_small. lia. }
  split; [|split; [rewrite map_length; exact LS|exact LL]]. split.
  - apply Forall_forall. intros x Hx. apply in_map_iff in Hx. destruct Hx as [c [<- _]]. apply Z.mod_pos_bound. lia.
  - rewrite (last_default _ 1 0), LL; [lia|]. intros X. apply (f_equal (@length Z)) in X. rewrite map_length, LS in X. discriminate.
Qed.
End R.

Section S.
Variable p : Z.
Hypothesis HP : prime p.
Hypothesis Hp2 : 2 < p.
Hypothesis Hnb63 : num_bits p < 2 ^ 63.
Lemma Hnb : num_bits p + 7 < 2 ^ 64. Proof. lia. Qed.
Variable sha : list Z -> list Z.
Hypothesis HS : is_sha sha.
Variable rand : nat -> Z.
Variable fuel : nat.
Variables canzass berlekamp : nat -> list Z -> list (list Z * Z).
Hypothesis HC : factors_correctly p canzass.
Hypothesis HB : factors_correctly p berlekamp.
Variable hw : nat.
#[local] Notation ks := (key_stream sha p (num_bits p)).

#[local] Notation wA := (coeffsA sha p).
#[local] Notation wB := (coeffsB sha p).

(** *** C43: the masks cancel *)
Lemma masks_cancel (m a x b y wa wb : Z) : (* m: temporary mask; x, y: blinding; wa, wb: values of the polynomials *)
  ((m + (a + x) mod p * wa + (b + y) mod p * wb) mod p - (m + x * wa + y * wb) mod p) mod p
  = (a * wa + b * wb) mod p.
Proof.
  assert (E : cong p ((m + (a + x) mod p * wa + (b + y) mod p * wb) mod p - (m + x * wa + y * wb) mod p) (a * wa + b * wb)).
  { rewrite !cong_mod. apply cong_refl'. ring. }
  exact E.
Qed.
Lemma diff_ok cS cA key us sA sB RA RB j i : co_length cS = co_length cA -> co_degree cS = co_degree cA -> co_height cS = co_height cA ->
  (i < co_degree cA)%nat ->
  (tq_value sha p (num_bits p) cS key us (blind_cell p sha sA (co_degree cA) us RA) (blind_cell p sha sB (co_degree cA) us RB) j i
   - tq_value sha p (num_bits p) cA key us (fun j i => ks (sA mod p) (mask_pos (co_degree cA) j i)) (fun j i => ks (sB mod p) (mask_pos (co_degree cA) j i)) j i) mod p
  = combined p (RA j) (RB j) (wA (co_length cA) (co_degree cA) (co_height cA) key j) (wB (co_length cA) (co_degree cA) (co_height cA) key j) (nth i us 0).
Proof.
  intros E1 E2 E3 Hi. unfold tq_value, omegaA, omegaB. rewrite E1, E2, E3.
  fold (wA (co_length cA) (co_degree cA) (co_height cA) key j) (wB (co_length cA) (co_degree cA) (co_height cA) key j).
  unfold blind_cell. destruct (Nat.ltb_spec i (co_degree cA)); [|lia]. apply masks_cancel.
Qed.

(** *** intersect() *)
#[local] Notation pad b := (pad_width p b).
Lemma pad_small b : 0 <= b < num_bits p -> w64 (num_bits p - b - 1) = pad b /\ 0 <= pad b < 2 ^ 63.
Proof. intros H. unfold pad_width. split; [apply w64_small; unfold M64; lia|lia]. Qed.

(** padded data are field elements already *)
Lemma field_value_padded b v : 0 <= b < num_bits p -> 0 <= v < 2 ^ b ->
  field_value p b v = v * 2 ^ pad b /\ 0 <= v * 2 ^ pad b < p.
Proof.
  intros Hb Hv. unfold field_value. destruct (pad_small b Hb) as [-> Hpad]. rewrite zeroPad_mul_l by exact Hpad.
  assert (R : 0 <= v * 2 ^ pad b < p).
  { assert (0 < 2 ^ pad b) by (apply Z.pow_pos_nonneg; lia). split; [nia|].
    apply Z.lt_le_trans with (2 ^ b * 2 ^ pad b); [nia|]. rewrite <- Z.pow_add_r by lia. unfold pad_width.
    replace (b + (num_bits p - b - 1)) with (num_bits p - 1) by lia. pose proof (num_bits_lower p ltac:(lia)). lia. }
  split; [apply Z.mod_small; exact R|exact R].
Qed.

Lemma intersect_gen c b (t q : nat -> nat -> res Z) (tv qv : nat -> nat -> Z) k0 us fs :
  party_ok p c -> 0 <= b < num_bits p -> co_unknowns c = us -> length us = co_degree c ->
  (forall j i, (j < co_length c)%nat -> (i < co_degree c)%nat -> t j i = Ok (tv j i) /\ q j i = Ok (qv j i)) ->
  Forall (in_field p) us -> length fs = co_length c ->
  (forall j f, nth_error fs j = Some f -> is_poly p f /\ f <> [] /\ (length f <= length us)%nat /\
     forall i, (i < co_degree c)%nat -> (tv j i - qv j i) mod p = value p f (nth i us 0)) ->
  (NoDup us -> exists vss, intersect sha rand fuel p canzass berlekamp c (Some b) (Some t) (Some q) k0 = Ok (Some (c, concat vss)) /\
    Forall2 (padded_roots p (pad b)) fs vss) /\
  (~ NoDup us -> (0 < co_length c)%nat -> intersect sha rand fuel p canzass berlekamp c (Some b) (Some t) (Some q) k0 = Abort).
Proof.
  intros K Hb EU LU HTQ FU LF HF. destruct (pad_small b Hb) as [EP RP]. unfold intersect. cbn [padSize].
  assert (KB : co_fbits c = num_bits p) by apply K. rewrite KB. rewrite EP. cbn [bind].
  set (rowv := fun j => map (fun i => (tv j i - qv j i) mod p) (seq 0 (co_degree c))).
  rewrite (mapM_ok _ rowv).
  2: { intros j Hj. apply in_seq in Hj. apply (mapM_ok _ (fun i => (tv j i - qv j i) mod p)). intros i Hi. apply in_seq in Hi.
       destruct (HTQ j i ltac:(lia) ltac:(lia)) as [-> ->]. reflexivity. }
  cbn [bind]. unfold getUnknowns.
  assert (EG : (if (Nat.eqb (length (co_unknowns c)) 0 && Nat.ltb 0 0)%bool then generateUnknowns sha rand fuel p c 0 else Ok c) = Ok c).
  { rewrite Nat.ltb_irrefl, andb_false_r. reflexivity. }
  rewrite EG. cbn [bind]. rewrite EU.
  assert (HROW : forall j f, nth_error fs j = Some f -> nth_error (map rowv (seq 0 (co_length c))) j = Some (map (value p f) us)).
  { intros j f Hj. assert (Hjl : (j < co_length c)%nat) by (rewrite <- LF; apply nth_error_Some; congruence).
    rewrite nth_error_map_seq by exact Hjl. f_equal. unfold rowv. destruct (HF j f Hj) as [_ [_ [_ HV]]].
    apply (nth_ext _ _ 0 (value p f 0)); [rewrite !map_length, seq_length; symmetry; exact LU|].
    intros i Hi. rewrite map_length, seq_length in Hi. rewrite map_nth.
    rewrite (nth_indep _ 0 ((tv j 0%nat - qv j 0%nat) mod p)) by (rewrite map_length, seq_length; exact Hi).
    rewrite (map_nth (fun i => (tv j i - qv j i) mod p)). rewrite seq_nth by exact Hi. apply HV. exact Hi. }
  split.
  - intros ND.
    destruct (find_padded p HP canzass berlekamp HC HB k0 (new_polys (pad b)) us (map rowv (seq 0 (co_length c))) PFA_CANZASS fs) as [o' [vss [E F2]]].
    + destruct fs; [right; left; reflexivity|left; discriminate].
    + exact RP.
    + exact FU.
    + exact ND.
    + apply Forall_forall. intros f Hf. apply In_nth_error in Hf. destruct Hf as [j Hj]. destruct (HF j f Hj) as [A [B [C _]]]. auto.
    + exact HROW.
    + rewrite LF in E. rewrite E. cbn [bind]. exists vss. split; [reflexivity|exact F2].
  - intros DU HL. assert (E0 : exists m, co_length c = S m) by (exists (co_length c - 1)%nat; lia). destruct E0 as [m Em].
    assert (Hf0 : exists f, nth_error fs 0 = Some f) by (destruct fs as [|f fs]; [cbn in LF; lia|exists f; reflexivity]). destruct Hf0 as [f0 Hf0].
    pose proof (HROW 0%nat f0 Hf0) as R0. apply aget_ok in R0.
    unfold findIntersection. rewrite Em in R0 |- *. cbn [new_polys pl_n Nat.eqb for_up]. unfold find_step at 1. rewrite R0. cbn [bind].
    rewrite (interpolate_dup p HP us (map (value p f0) us)); [reflexivity|rewrite map_length; reflexivity|exact FU|exact DU].
Qed.

(** *** a fresh run *)

Lemma new_party L h D : party_ok p (new_core p L h D 0).
Proof. split; [apply new_prf_wf|]. split; reflexivity. Qed.
Lemma new_zp pos : zp_inv p (new_zpprf p pos).
Proof. split; [apply new_prf_wf|reflexivity]. Qed.
Lemma points_length w D : length (points sha p w D) = D.
Proof. unfold points. rewrite map_length, seq_length. reflexivity. Qed.
Lemma points_field w D : Forall (in_field p) (points sha p w D).
Proof. apply Forall_forall. intros x Hx. apply in_map_iff in Hx. destruct Hx as [k [<- _]]. apply Z.mod_pos_bound. lia. Qed.

Lemma blind_new L h D al b raw secret nt pos : algo_valid al -> (0 < L)%nat ->
  let zs := map (field_value p b) raw in let us := points sha p (num_bits p) D in
  exists h0, new_hb L h (Some al) = Ok h0 /\
  (fits al L h zs -> exists c' h' zp' R,
    blind sha rand fuel p hw (new_core p L h D 0) secret raw (length raw) (Some b) h0 (new_zpprf p pos) nt
      = Ok (c', h', zp', table2 L D (blind_cell p sha secret D us R)) /\
    (forall j, (j < L)%nat -> exists f, R j = belonging al L j zs ++ f /\ length (R j) = h /\ Forall (in_field p) f /\ contents h' j (R j)) /\
    co_unknowns c' = us /\ same_core (new_core p L h D 0) c' /\ party_ok p c' /\ zp_inv p zp') /\
  (~ fits al L h zs -> blind sha rand fuel p hw (new_core p L h D 0) secret raw (length raw) (Some b) h0 (new_zpprf p pos) nt = Exit 1).
Proof.
  intros VA HL zs us. destruct (new_hb_ok L h (Some al) VA) as [h0 [E0 [W [K0 [M0 [A0 B0]]]]]]. exists h0. split; [exact E0|].
  assert (NB : forall j bk, nth_error (hb_buckets h0) j = Some bk -> bk = mkMvec [] false /\ (j < L)%nat).
  { intros j bk Hj. rewrite B0 in Hj. apply nth_repeat in Hj. exact Hj. }
  assert (PU : points_of sha p (new_core p L h D 0) D = us) by reflexivity.
  destruct (blind_ok p ltac:(lia) Hnb sha HS rand fuel hw (new_core p L h D 0) secret raw b h0 (new_zpprf p pos) nt al
    (new_party L h D) W A0 ltac:(lia) K0 (new_zp pos)) as [B1 B2].
  { cbn [new_core co_degree]. rewrite PU. unfold us. rewrite points_length. lia. }
  { intros j bk Hj. destruct (NB j bk Hj) as [-> _]. cbn. lia. }
  cbn [new_core co_degree co_length] in B1, B2. change (points_of sha p _ D) with us in B1, B2. rewrite K0, M0 in B1, B2. fold zs in B1, B2.
  split.
  - intros HF. destruct B1 as [c' [h' [zp' [R [E [HR [U [SC [PK [W' [A' [K' [M' I']]]]]]]]]]]]].
    { intros j bk Hj. destruct (NB j bk Hj) as [-> Hl]. cbn [mv_items length]. apply HF. exact Hl. }
    exists c', h', zp', R. unfold us in E |- *. rewrite points_length in E. split; [exact E|]. split.
    + intros j Hj. destruct (HR j (mkMvec [] false)) as [f [m [ER [LR [FR CR]]]]]; [rewrite B0; apply nth_repeat_some; exact Hj|].
      exists f. split; [exact ER|]. split; [exact LR|]. split; [exact FR|]. exists m. unfold getBucket.
      destruct (Nat.ltb_spec j (hb_k h')); [|lia]. apply aget_ok. exact CR.
    + split; [exact U|]. split; [exact SC|]. split; [exact PK|exact I'].
  - intros NF. apply B2.
    assert (EX : exists j, (j < L)%nat /\ (h < length (belonging al L j zs))%nat).
    { clear -NF HL. assert (G : forall n, (forall j, (j < n)%nat -> (length (belonging al L j zs) <= h)%nat) \/ exists j, (j < n)%nat /\ (h < length (belonging al L j zs))%nat).
      { induction n as [|n IH]; [left; intros; lia|]. destruct IH as [IH|[j [Hj IH]]]; [|right; exists j; split; [lia|exact IH]].
        destruct (Nat.le_gt_cases (length (belonging al L n zs)) h).
        - left. intros j Hj. destruct (Nat.eq_dec j n) as [->|]; [assumption|apply IH; lia].
        - right. exists n. split; [lia|assumption]. }
      destruct (G L) as [X|X]; [contradiction|exact X]. }
    destruct EX as [j [Hj Hl]]. exists j, (mkMvec [] false). split; [rewrite B0; apply nth_repeat_some; exact Hj|exact Hl].
Qed.

Lemma exchange_ok L h D al b rawA rawB sA sB key nt posA posB : algo_valid al -> (0 < L)%nat ->
  let zA := map (field_value p b) rawA in let zB := map (field_value p b) rawB in
  let us := points sha p (num_bits p) D in
  fits al L h zA -> fits al L h zB ->
  exists r RA RB, exchange sha rand fuel p hw L h D al b rawA rawB sA sB key nt posA posB = Ok r /\
    (forall j, (j < L)%nat -> exists fA fB, RA j = belonging al L j zA ++ fA /\ RB j = belonging al L j zB ++ fB /\
       length (RA j) = h /\ length (RB j) = h /\ Forall (in_field p) fA /\ Forall (in_field p) fB /\
       contents (rr_tableA r) j (RA j) /\ contents (rr_tableB r) j (RB j)) /\
    rr_blindA r = table2 L D (blind_cell p sha sA D us RA) /\ rr_blindB r = table2 L D (blind_cell p sha sB D us RB) /\
    (exists vt vq, rr_t r = table2 L D vt /\ rr_q r = table2 L D vq /\
      forall j i, (j < L)%nat -> (i < D)%nat ->
        (vt j i - vq j i) mod p = combined p (RA j) (RB j) (wA L D h key j) (wB L D h key j) (nth i us 0)) /\
    party_ok p (rr_requester r) /\ co_unknowns (rr_requester r) = us /\ same_core (new_core p L h D 0) (rr_requester r).
Proof.
  intros VA HL zA zB us FA FB.
  destruct (blind_new L h D al b rawA sA nt posA VA HL) as [h0 [E0 [BA _]]].
  destruct (blind_new L h D al b rawB sB nt posB VA HL) as [h0' [E0' [BB _]]].
  assert (h0' = h0) by congruence. subst h0'.
  destruct (BA FA) as [cA [hA [zpA [RA [EA [HA [UA [SA [PA IA]]]]]]]]].
  destruct (BB FB) as [cB [hB [zpB [RB [EB [HB' [UB [SB [PB IB]]]]]]]]].
  unfold exchange. rewrite E0. cbn [bind]. rewrite EA. cbn [bind]. rewrite EB. cbn [bind].
  destruct (computeTOrQ_ok sha HS rand fuel p ltac:(lia) (new_core p L h D 0) key
     (entry (table2 L D (blind_cell p sha sA D us RA))) (entry (table2 L D (blind_cell p sha sB D us RB)))
     (blind_cell p sha sA D us RA) (blind_cell p sha sB D us RB)) as [cS [ET _]].
  { apply (party_core p ltac:(lia) Hnb). apply new_party. }
  { change (points_of sha p (new_core p L h D 0) (co_degree (new_core p L h D 0))) with us. unfold us. rewrite points_length. cbn. lia. }
  { intros j i Hj Hi. split; apply entry_table2; assumption. }
  change (points_of sha p (new_core p L h D 0) (co_degree (new_core p L h D 0))) with us in ET. change (points sha p (num_bits p) D) with us. rewrite ET. cbn [bind].
  assert (PUA : points_of sha p cA (co_degree cA) = us).
  { unfold points_of. rewrite UA. destruct SA as [SF [_ [SD _]]]. cbn [new_core co_fieldsize co_degree] in SF, SD. rewrite SF, SD.
    fold us. destruct (Nat.eqb (length us) 0); reflexivity. }
  destruct (delegationOutput_ok p ltac:(lia) Hnb sha HS rand fuel cA zpA sA sB key PA IA) as [cA' [zpA' [EQ _]]].
  { rewrite PUA. unfold us. rewrite points_length. destruct SA as [_ [_ [SD _]]]. rewrite SD. cbn. lia. }
  rewrite EQ. cbn [bind]. rewrite PUA.
  exists (mkRun hA hB (table2 L D (blind_cell p sha sA D us RA)) (table2 L D (blind_cell p sha sB D us RB))
    (table2 L D (tq_value sha p (num_bits p) (new_core p L h D 0) key us (blind_cell p sha sA D us RA) (blind_cell p sha sB D us RB)))
    (table2 L D (tq_value sha p (num_bits p) cA key us (fun j i => ks (sA mod p) (mask_pos D j i)) (fun j i => ks (sB mod p) (mask_pos D j i)))) cB), RA, RB.
  destruct SA as [S1 [S2 [S3 [S4 S5]]]]. cbn [new_core co_fieldsize co_fbits co_degree co_length co_height] in S1, S2, S3, S4, S5.
  cbn [rr_tableA rr_tableB rr_blindA rr_blindB rr_t rr_q rr_requester].
  split; [rewrite S3, S4; reflexivity|]. split.
  { intros j Hj. destruct (HA j Hj) as [fA [A1 [A2 [A3 A4]]]]. destruct (HB' j Hj) as [fB [B1 [B2 [B3 B4]]]]. exists fA, fB. auto 10. }
  split; [reflexivity|]. split; [reflexivity|]. split.
  { eexists _, _. split; [reflexivity|]. split; [reflexivity|]. intros j i Hj Hi.
    pose proof (diff_ok (new_core p L h D 0) cA key us sA sB RA RB j i) as X. cbn [new_core co_degree co_length co_height] in X.
    rewrite S3, S4, S5 in X. apply X; auto. }
  split; [exact PB|]. split; [exact UB|exact SB].
Qed.

Lemma session_ok L h D al b rawA rawB sA sB key nt posA posB k0 : algo_valid al -> (0 < L)%nat -> 0 <= b < num_bits p -> (2 * h < D)%nat ->
  let zA := map (field_value p b) rawA in let zB := map (field_value p b) rawB in
  let us := points sha p (num_bits p) D in
  fits al L h zA -> fits al L h zB ->
  exists r RA RB, exchange sha rand fuel p hw L h D al b rawA rawB sA sB key nt posA posB = Ok r /\
    (forall j, (j < L)%nat -> exists fA fB, RA j = belonging al L j zA ++ fA /\ RB j = belonging al L j zB ++ fB /\
       length (RA j) = h /\ length (RB j) = h /\ Forall (in_field p) fA /\ Forall (in_field p) fB /\
       contents (rr_tableA r) j (RA j) /\ contents (rr_tableB r) j (RB j)) /\
    let fs := map (fun j => comb_poly p (RA j) (RB j) (wA L D h key j) (wB L D h key j)) (seq 0 L) in
    (NoDup us -> exists vss, session sha rand fuel p canzass berlekamp hw L h D al b rawA rawB sA sB key nt posA posB k0 = Ok (r, Some (concat vss)) /\
       Forall2 (padded_roots p (pad b)) fs vss) /\
    (~ NoDup us -> session sha rand fuel p canzass berlekamp hw L h D al b rawA rawB sA sB key nt posA posB k0 = Abort).
Proof.
  intros VA HL Hb HD zA zB us FA FB.
  destruct (exchange_ok L h D al b rawA rawB sA sB key nt posA posB VA HL FA FB) as [r [RA [RB [E [HR [_ [_ [HTQ [PK [U SC]]]]]]]]]].
  exists r, RA, RB. split; [exact E|]. split; [exact HR|]. cbv zeta. fold us in U, HTQ.
  destruct HTQ as [vt [vq [Et [Eq HV]]]]. destruct SC as [_ [_ [S3 [S4 _]]]]. cbn [new_core co_degree co_length] in S3, S4.
  set (fs := map (fun j => comb_poly p (RA j) (RB j) (wA L D h key j) (wB L D h key j)) (seq 0 L)).
  unfold session. rewrite E. cbn [bind].
  destruct (intersect_gen (rr_requester r) b (entry (rr_t r)) (entry (rr_q r)) vt vq k0 us fs PK Hb U) as [I1 I2].
  - rewrite S3. apply points_length.
  - intros j i Hj Hi. rewrite S3 in Hi. rewrite S4 in Hj. rewrite Et, Eq. split; apply entry_table2; assumption.
  - apply points_field.
  - unfold fs. rewrite map_length, seq_length. symmetry. exact S4.
  - intros j f Hj. assert (Hjl : (j < L)%nat). { assert (j < length fs)%nat by (apply nth_error_Some; congruence). unfold fs in H. rewrite map_length, seq_length in H. exact H. }
    unfold fs in Hj. rewrite nth_error_map_seq in Hj by exact Hjl. injection Hj as <-.
    destruct (HR j Hjl) as [fA [fB [_ [_ [LA [LB _]]]]]].
    destruct (comb_shape p Hp2 h (RA j) (RB j) (wA L D h key j) (wB L D h key j)) as [C1 [C2 C3]]; auto; try (unfold coeffsA, coeffsB; rewrite map_length, seq_length; reflexivity).
    split; [exact C1|]. split; [intros X; rewrite X in C2; discriminate|]. split; [rewrite C2; unfold us; rewrite points_length; lia|].
    intros i Hi. rewrite S3 in Hi. rewrite HV by assumption. symmetry. apply comb_value.
  - split.
    + intros ND. destruct (I1 ND) as [vss [EI F2]]. rewrite EI. cbn [bind]. exists vss. split; [reflexivity|exact F2].
    + intros ND. rewrite (I2 ND) by lia. reflexivity.
Qed.
Lemma session_overflow L h D al b rawA rawB sA sB key nt posA posB k0 : algo_valid al -> (0 < L)%nat ->
  let zA := map (field_value p b) rawA in let zB := map (field_value p b) rawB in
  ~ (fits al L h zA /\ fits al L h zB) ->
  session sha rand fuel p canzass berlekamp hw L h D al b rawA rawB sA sB key nt posA posB k0 = Exit 1.
Proof.
  intros VA HL zA zB NF.
  destruct (blind_new L h D al b rawA sA nt posA VA HL) as [h0 [E0 [BA XA]]].
  destruct (blind_new L h D al b rawB sB nt posB VA HL) as [h0' [E0' [BB XB]]].
  assert (h0' = h0) by congruence. subst h0'.
  assert (DA : fits al L h zA \/ ~ fits al L h zA).
  { destruct (forallb (fun j => Nat.leb (length (belonging al L j zA)) h) (seq 0 L)) eqn:EF.
    - left. intros j Hj. rewrite forallb_forall in EF. apply Nat.leb_le. apply EF. apply in_seq. lia.
    - right. intros X. assert (forallb (fun j => Nat.leb (length (belonging al L j zA)) h) (seq 0 L) = true); [|congruence].
      apply forallb_forall. intros j Hj. apply in_seq in Hj. apply Nat.leb_le. apply X. lia. }
  unfold session, exchange. rewrite E0. cbn [bind]. destruct DA as [DA|DA]; [|rewrite (XA DA); reflexivity].
  destruct (BA DA) as [cA [hA [zpA [RA [EA _]]]]]. rewrite EA. cbn [bind]. rewrite XB; [reflexivity|]. intros X. apply NF. split; assumption.
Qed.
End S.
