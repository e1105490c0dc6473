(** Proofs about EOPSIClient::blind and delegationOutput. *)
From Verif Require Import Base Spec Lib NtlMiss NtlMissProofs StrIntModel HashBucketsModel HashBucketsSpec HashBucketsProofs.
From Verif Require Import PRFModel PRFSpec PRFProofs PolyModel PolySpec PolyProofs InterpProofs PolyObjProofs EopsiModel EopsiSpec EopsiProofs.
From Coq Require Import Znumtheory.

Section B.
Variable p : Z.
Hypothesis Hp : 1 < p.
Hypothesis Hnb : num_bits p + 7 < 2 ^ 64.

Definition zp_inv (st : zpprf) : Prop := wf (zp_prf st) /\ zp_modulo st = p.
Definition party_ok (c : core) : Prop := wf (co_prf c) /\ co_fieldsize c = p /\ co_fbits c = num_bits p.

Lemma nb_ok : bits_ok (num_bits p).
Proof. split; [apply num_bits_pos; lia|exact Hnb]. Qed.
Lemma p_mod_ok : mod_ok p.
Proof. split; [lia|exact Hnb]. Qed.
Lemma party_core c : party_ok c -> core_ok c.
Proof. intros [W [F B]]. split; [exact W|]. rewrite F, B. split; apply nb_ok. Qed.
Lemma same_party c c' : party_ok c -> same_core c c' -> core_ok c' -> party_ok c'.
Proof. intros [W [F B]] [S1 [S2 _]] [W' _]. split; [exact W'|]. split; congruence. Qed.

Variable sha : list Z -> list Z.
Hypothesis HS : is_sha sha.
Variable rand : nat -> Z.
Variable fuel : nat.
#[local] Notation ks := (key_stream sha p (num_bits p)).

Lemma zp_full st seed index : zp_inv st ->
  exists st', zp_generate sha rand p fuel st seed index (num_bits p) = Ok (st', ks seed index) /\ zp_inv st' /\
    zp_autoIndex st' = zp_autoIndex st /\ zp_autoSeed st' = zp_autoSeed st /\ p_pos (zp_prf st') = p_pos (zp_prf st).
Proof.
  intros [W M]. destruct (zp_generate_ok sha HS rand p fuel st seed index (num_bits p) W) as [st' [E [W' [M' [A1 [A2 A3]]]]]].
  - rewrite M. apply p_mod_ok.
  - apply num_bits_nonneg.
  - exists st'. rewrite E. split.
    + unfold zp_value, key_stream, zp_width. rewrite M. pose proof nb_ok as [N _]. destruct (Z.eqb_spec (num_bits p) 0); [lia|].
      rewrite Z.min_id. reflexivity.
    + split; [split; [exact W'|congruence]|]. auto.
Qed.

(** *** the fill-in generator *)
Lemma conceal_gen_ok st : zp_inv st ->
  exists v st', conceal_gen sha rand fuel p (Ok st) = (v, Ok st') /\ zp_inv st' /\ in_field p v.
Proof.
  intros [W M]. unfold conceal_gen. cbn [bind]. unfold zp_generate_next, zp_generate_auto. cbn [zp_autoSeed].
  assert (MO : mod_ok (zp_modulo st)) by (rewrite M; apply p_mod_ok).
  destruct (zp_autoSeed st) as [s|].
  - match goal with |- context [zp_generate _ _ _ _ ?st0 ?s ?i ?b] =>
      destruct (zp_generate_ok sha HS rand p fuel st0 s i b W MO ltac:(lia)) as [st' [E [W' [M' _]]]] end.
    rewrite E. eexists _, _. split; [reflexivity|]. split; [split; [exact W'|rewrite M'; exact M]|]. apply Z.mod_pos_bound. lia.
  - cbn [zp_randomSeed randomSeed zp_prf zp_modulo zp_autoIndex].
    match goal with |- context [zp_generate _ _ _ _ ?st0 ?s ?i ?b] =>
      destruct (zp_generate_ok sha HS rand p fuel st0 s i b W MO ltac:(lia)) as [st' [E [W' [M' _]]]] end.
    rewrite E. eexists _, _. split; [reflexivity|]. split; [split; [exact W'|rewrite M'; exact M]|]. apply Z.mod_pos_bound. lia.
Qed.
Lemma draws_ok : forall n st, zp_inv st ->
  exists l st', draws (conceal_gen sha rand fuel p) n (Ok st) = (l, Ok st') /\ zp_inv st' /\ Forall (in_field p) l.
Proof.
  induction n as [|n IH]; intros st I; cbn [draws]; [exists [], st; split; [reflexivity|]; split; [exact I|constructor]|].
  destruct (conceal_gen_ok st I) as [v [st1 [-> [I1 F1]]]]. destruct (IH st1 I1) as [l [st2 [-> [I2 F2]]]].
  exists (v :: l), st2. split; [reflexivity|]. split; [exact I2|]. constructor; assumption.
Qed.

(** the field element a data element becomes *)
Definition field_value (b v : Z) : Z := zeroPad v (w64 (num_bits p - b - 1)) mod p.

(** the rows blind() produces; cells beyond the degree are not masked *)
Definition blind_cell (secret : Z) (D : nat) (us : list Z) (R : nat -> list Z) (j i : nat) : Z :=
  if Nat.ltb i D then (prod_value p (R j) (nth i us 0) + ks (secret mod p) (mask_pos D j i)) mod p
  else prod_value p (R j) (nth i us 0).

Lemma prod_value_eval rs u : peval p (build_from_roots p rs) u = prod_value p rs u.
Proof. rewrite peval_value, value_ev. unfold prod_value. apply build_from_roots_ev. Qed.

Lemma blind_row_ok seed D j : forall row zp, zp_inv zp -> (D <= length row)%nat ->
  exists zp', blind_row sha rand fuel p (num_bits p) seed D row (zp, mask_pos D j 0) =
    Ok (zp', mask_pos D (S j) 0, map (fun i => if Nat.ltb i D then (nth i row 0 + ks seed (mask_pos D j i)) mod p else nth i row 0) (seq 0 (length row)))
    /\ zp_inv zp'.
Proof.
  intros row zp I HD. unfold blind_row. cbn [fst snd].
  set (g := fun i => (nth i row 0 + ks seed (mask_pos D j i)) mod p).
  destruct (for_up_inv (fun i '(zp, index, r) => zp_inv zp /\ index = mask_pos D j i /\
       r = map g (seq 0 i) ++ skipn i row) D 0
     (fun i '(zp, index, row) =>
      do v <- aget row i;
      do (zp1, x) <- zp_generate sha rand p fuel zp seed index (num_bits p);
      do row1 <- aset row i ((v + x) mod p);
      Ok (zp1, w64 (index + 1), row1)) (zp, mask_pos D j 0, row)) as [[[zp' ix] r] [E [I' [X R]]]].
  - split; [exact I|]. split; reflexivity.
  - intros i [[z x] r] Hi [Iz [X R]]. cbn [Nat.add] in Hi.
    assert (Hs : skipn i row = nth i row 0 :: skipn (S i) row).
    { clear -Hi HD. assert (H : (i < length row)%nat) by lia. clear Hi HD. revert row H. induction i as [|i IH]; intros row H; destruct row as [|a row]; cbn in H; try lia; [reflexivity|].
      change (skipn (S i) (a :: row)) with (skipn i row). rewrite IH by lia. reflexivity. }
    rewrite Hs in R. assert (LE : length (map g (seq 0 i)) = i) by (rewrite map_length, seq_length; reflexivity).
    assert (G : aget r i = Ok (nth i row 0)). { rewrite R. pose proof (mid_get (map g (seq 0 i)) (nth i row 0) (skipn (S i) row)) as M. rewrite LE in M. exact M. }
    rewrite G. cbn [bind]. destruct (zp_full z seed x Iz) as [z' [Ez [Iz' _]]]. rewrite Ez. cbn [bind].
    assert (ST : aset r i ((nth i row 0 + ks seed x) mod p) = Ok (map g (seq 0 i) ++ (nth i row 0 + ks seed x) mod p :: skipn (S i) row)).
    { rewrite R. pose proof (mid_set (map g (seq 0 i)) (nth i row 0) (skipn (S i) row) ((nth i row 0 + ks seed x) mod p)) as M. rewrite LE in M. exact M. }
    rewrite ST. cbn [bind]. eexists. split; [reflexivity|]. split; [exact Iz'|]. split; [rewrite X; apply mask_step|].
    rewrite map_seq_S, <- app_assoc. rewrite X. reflexivity.
  - cbn [Nat.add] in *. rewrite E. exists zp'. split; [|exact I']. f_equal. f_equal; [f_equal; rewrite X; apply mask_row|].
    rewrite R. replace (length row) with (D + (length row - D))%nat by lia. rewrite seq_app, map_app. f_equal.
    + apply map_ext_in. intros i Hi. apply in_seq in Hi. destruct (Nat.ltb_spec i D); [reflexivity|lia].
    + cbn [Nat.add]. transitivity (map (fun i => nth i row 0) (seq D (length row - D))).
      * clear. assert (G : forall (l : list Z) k, map (fun i => nth (i - k) l 0) (seq k (length l)) = l).
        { induction l as [|a l IH]; intros k; [reflexivity|]. cbn [length seq map]. rewrite Nat.sub_diag. f_equal. rewrite <- (IH (S k)) at 2.
          apply map_ext_in. intros i Hi. apply in_seq in Hi. replace (i - k)%nat with (S (i - S k)) by lia. reflexivity. }
        rewrite <- (G (skipn D row) D) at 1. rewrite skipn_length. apply map_ext_in. intros i Hi. apply in_seq in Hi.
        rewrite <- (firstn_skipn D row) at 2. rewrite app_nth2 by (rewrite firstn_length; lia). f_equal. rewrite firstn_length. lia.
      * apply map_ext_in. intros i Hi. apply in_seq in Hi. destruct (Nat.ltb_spec i D); [lia|reflexivity].
Qed.

Lemma polEval_ok us (polys : list poly) L bl0 : length polys = L -> length bl0 = L ->
  polEval p us polys 0 L bl0 = Ok (map (fun f => peval_vec p f us) polys).
Proof.
  intros LP LB. unfold polEval. rewrite Nat.sub_0_r.
  transitivity (do vs <- mapM (fun j => do f <- aget polys j; Ok (peval_vec p f us)) (seq 0 L); Ok vs).
  - pose proof (fill_loop (fun j => do f <- aget polys j; Ok (peval_vec p f us)) L [] bl0 LB) as E. cbn [app length] in E.
    rewrite <- E. apply for_up_ext. intros j l _. destruct (aget polys j); reflexivity.
  - rewrite (mapM_ok _ (fun j => peval_vec p (nth j polys []) us)).
    + cbn [bind]. f_equal. rewrite <- (map_map (fun j => nth j polys []) (fun f => peval_vec p f us)). f_equal. clear -LP. subst L.
      induction polys as [|a l IH]; [reflexivity|]. cbn [length seq map]. f_equal. rewrite <- seq_shift, map_map. exact IH.
    + intros j Hj. apply in_seq in Hj. rewrite (aget_nth []) by lia. reflexivity.
Qed.

Variable hw : nat.

Lemma blind_ok c secret raw b h zp nt al : party_ok c -> hwf h -> hb_algo h = Some al -> (0 < hb_k h)%nat ->
  hb_k h = co_length c -> zp_inv zp -> (co_degree c <= length (points_of sha p c (co_degree c)))%nat ->
  let us := points_of sha p c (co_degree c) in
  let zs := map (field_value b) raw in
  (forall j bk, nth_error (hb_buckets h) j = Some bk -> (length (mv_items bk) <= hb_maxload h)%nat) ->
  ((forall j bk, nth_error (hb_buckets h) j = Some bk ->
     (length (mv_items bk) + length (belonging al (hb_k h) j zs) <= hb_maxload h)%nat) ->
   exists c' h' zp' R,
     blind sha rand fuel p hw c secret raw (length raw) (Some b) h zp nt =
       Ok (c', h', zp', map (fun j => map (blind_cell secret (co_degree c) us R j) (seq 0 (length us))) (seq 0 (co_length c))) /\
     (forall j bk, nth_error (hb_buckets h) j = Some bk -> exists f m,
        R j = mv_items bk ++ belonging al (hb_k h) j zs ++ f /\ length (R j) = hb_maxload h /\ Forall (in_field p) f /\
        nth_error (hb_buckets h') j = Some (mkMvec (R j) m)) /\
     co_unknowns c' = us /\ same_core c c' /\ party_ok c' /\ hwf h' /\ hb_algo h' = Some al /\ hb_k h' = hb_k h /\ hb_maxload h' = hb_maxload h /\
     zp_inv zp') /\
  ((exists j bk, nth_error (hb_buckets h) j = Some bk /\
     (hb_maxload h < length (mv_items bk) + length (belonging al (hb_k h) j zs))%nat) ->
   blind sha rand fuel p hw c secret raw (length raw) (Some b) h zp nt = Exit 1).
Proof.
  intros K W Ha Hk HkL I HD us zs Hle. unfold blind.
  destruct K as [Kw [Kf Kb]]. rewrite Kb. cbn [padSize].
  assert (E0 : for_up (length raw) 0 (fun i h => do z <- aget raw i; do pad <- padSize (num_bits p) (Some b); hb_add h (zeroPad z pad mod p)) h
    = for_up (length zs) 0 (fun i h => do e <- aget zs i; hb_add h e) h).
  { unfold zs. rewrite map_length. apply for_up_ext. intros i s Hi. cbn [Nat.add] in Hi.
    rewrite (aget_nth 0) by lia. rewrite (aget_nth (field_value b 0)) by (rewrite map_length; lia). rewrite map_nth. reflexivity. }
  cbn [padSize] in E0. rewrite E0.
  destruct (hb_add_list_gen al zs h (length zs) 0 W Ha Hk Hle zs [] eq_refl eq_refl eq_refl) as [HA HB]. cbv zeta in HA, HB.
  split; [|intros HX; rewrite (HB HX); reflexivity].
  intros HF. destruct (HA HF) as [h1 [E1 [W1 [K1 [M1 [A1 N1]]]]]]. rewrite E1. cbn [bind].
  assert (F1 : Forall (fun b => length (mv_items b) <= hb_maxload h1)%nat (hb_buckets h1)).
  { apply Forall_forall. intros bk Hin. apply In_nth_error in Hin. destruct Hin as [j Hj].
    assert (Hjl : (j < length (hb_buckets h))%nat).
    { destruct W as [WL _]. destruct W1 as [WL1 _]. rewrite WL, <- K1, <- WL1. apply nth_error_Some. congruence. }
    destruct (nth_error (hb_buckets h) j) as [bk0|] eqn:E; [|apply nth_error_None in E; lia].
    rewrite (N1 j bk0 E) in Hj. injection Hj as <-. cbn [mv_items]. rewrite app_length, M1. apply HF. exact E. }
  destruct (conceal_spec (conceal_gen sha rand fuel p) h1 (Ok zp) W1 F1) as [h2 [fillers HC]]. cbv zeta in HC.
  destruct HC as [EC [CF [[K2 [M2 [A2 [S2 [n2 L2]]]]] N2]]]. rewrite EC. cbn [bind].
  destruct (draws_ok (hb_k h1 * hb_maxload h1 - total_items h1) zp I) as [dl [zp1 [ED [I1 FD]]]].
  rewrite ED in EC, CF |- *. cbn [fst snd bind] in *.
  set (R := fun j => mv_items (nth j (hb_buckets h2) (mkMvec [] false))).
  assert (RB : forall j bk, nth_error (hb_buckets h) j = Some bk -> exists f m,
     R j = mv_items bk ++ belonging al (hb_k h) j zs ++ f /\ length (R j) = hb_maxload h /\ Forall (in_field p) f /\
     nth_error (hb_buckets h2) j = Some (mkMvec (R j) m)).
  { intros j bk Hj. destruct (N2 j _ (N1 j bk Hj)) as [b' [f [Eb [Ef [Ei [El Em]]]]]]. cbn [mv_items] in Ei.
    exists f, (mv_marked b'). assert (ER : R j = mv_items b') by (unfold R; rewrite (nth_error_nth _ _ _ Eb); reflexivity).
    rewrite ER. split; [rewrite Ei, app_assoc; reflexivity|]. split; [congruence|]. split.
    - apply Forall_forall. intros x Hx. rewrite Forall_forall in FD. apply FD. rewrite <- CF. apply in_concat. exists f. split; [|exact Hx].
      eapply nth_error_In. exact Ef.
    - destruct b'; exact Eb. }
  assert (LB : length (hb_buckets h) = co_length c) by (destruct W as [WL _]; congruence).
  assert (K2L : hb_k h2 = co_length c) by congruence.
  rewrite (mapM_ok _ (fun j => build_from_roots p (R j))).
  2: { intros j Hj. apply in_seq in Hj. unfold getBucket. destruct (Nat.ltb_spec j (hb_k h2)); [|lia].
       rewrite (aget_nth (mkMvec [] false)) by lia. cbn [bind]. rewrite vector2VecZZp_eq. reflexivity. }
  cbn [bind].
  destruct (getUnknowns_ok sha HS rand fuel p c (co_degree c) (party_core c (conj Kw (conj Kf Kb)))) as [c1 [EU [U1 [SC KC]]]].
  rewrite EU. cbn [bind]. unfold evalPolys. cbn [Nat.ltb Nat.leb].
  rewrite (polEval_ok us (map (fun j => build_from_roots p (R j)) (seq 0 (co_length c))) (co_length c)).
  2: rewrite map_length, seq_length; reflexivity.
  2: apply repeat_length.
  cbn [bind]. rewrite map_map.
  set (ev := fun j => peval_vec p (build_from_roots p (R j)) us).
  assert (LE : forall j, length (ev j) = length us) by (intros; unfold ev, peval_vec; apply map_length).
  destruct (for_up_inv (fun j '(zp, index, bl) => zp_inv zp /\ index = mask_pos (co_degree c) j 0 /\
      bl = map (fun j => map (blind_cell secret (co_degree c) us R j) (seq 0 (length us))) (seq 0 j)) (co_length c) 0
    (fun j '(zp, index, bl) =>
      do row <- aget (map ev (seq 0 (co_length c))) j;
      do (zp', index', row') <- blind_row sha rand fuel p (num_bits p) (secret mod p) (co_degree c) row (zp, index);
      Ok (zp', index', bl ++ [row'])) (zp1, 0, [])) as [[[zp2 ix] bl] [EB [I2 [_ BL]]]].
  - split; [exact I1|]. split; reflexivity.
  - intros j [[z x] bl] Hj [Iz [X BL]]. cbn [Nat.add] in Hj.
    assert (G : aget (map ev (seq 0 (co_length c))) j = Ok (ev j)) by (unfold aget; rewrite nth_error_map_seq by lia; reflexivity).
    rewrite G. cbn [bind]. rewrite X.
    destruct (blind_row_ok (secret mod p) (co_degree c) j (ev j) z Iz) as [z' [ER Iz']]; [rewrite LE; exact HD|]. rewrite ER. cbn [bind].
    eexists. split; [reflexivity|]. split; [exact Iz'|]. split; [reflexivity|]. rewrite map_seq_S, BL. f_equal. f_equal.
    rewrite LE. apply map_ext_in. intros i Hi. apply in_seq in Hi. unfold blind_cell.
    assert (EN : nth i (ev j) 0 = prod_value p (R j) (nth i us 0)).
    { unfold ev, peval_vec. rewrite (nth_indep _ 0 (peval p (build_from_roots p (R j)) 0)) by (rewrite map_length; lia).
      rewrite map_nth. apply prod_value_eval. }
    rewrite EN. reflexivity.
  - cbn [Nat.add] in *. rewrite EB. cbn [bind]. exists c1, h2, zp2, R. split; [rewrite BL; reflexivity|]. split; [exact RB|].
    split; [exact U1|]. split; [exact SC|]. split; [apply (same_party c); [split; auto|exact SC|exact KC]|].
    split; [eapply conceal_wf; [exact W1|exact EC]|]. split; [congruence|]. split; [congruence|]. split; [congruence|exact I2].
Qed.

(** *** delegationOutput *)
Lemma delegationOutput_ok c zp secret secretOther key : party_ok c -> zp_inv zp ->
  (co_degree c <= length (points_of sha p c (co_degree c)))%nat ->
  let us := points_of sha p c (co_degree c) in
  exists c' zp', delegationOutput sha rand fuel p c zp secret secretOther key =
      Ok (c', zp', table2 (co_length c) (co_degree c)
        (tq_value sha p (num_bits p) c key us (fun j i => ks (secret mod p) (mask_pos (co_degree c) j i))
           (fun j i => ks (secretOther mod p) (mask_pos (co_degree c) j i)))) /\
    co_unknowns c' = us /\ same_core c c' /\ party_ok c' /\ zp_inv zp'.
Proof.
  intros K I HD us. unfold delegationOutput. set (L := co_length c). set (D := co_degree c).
  set (fa := fun j i => ks (secret mod p) (mask_pos D j i)). set (fb := fun j i => ks (secretOther mod p) (mask_pos D j i)).
  assert (KB : co_fbits c = num_bits p) by apply K. rewrite KB.
  destruct (for_up_inv (fun j '(zp, index, dA, dB) => zp_inv zp /\ index = mask_pos D j 0 /\
       dA = map (fun j => map (fa j) (seq 0 D)) (seq 0 j) /\ dB = map (fun j => map (fb j) (seq 0 D)) (seq 0 j)) L 0
    (fun (_ : nat) '(zp, index, dA, dB) =>
      do (zp', index', ra, rb) <- for_up D 0 (fun (_ : nat) '(zp, index, ra, rb) =>
          do (zp1, a) <- zp_generate sha rand p fuel zp (secret mod p) index (num_bits p);
          do (zp2, b) <- zp_generate sha rand p fuel zp1 (secretOther mod p) index (num_bits p);
          Ok (zp2, w64 (index + 1), ra ++ [a], rb ++ [b])) (zp, index, [], []);
      Ok (zp', index', dA ++ [ra], dB ++ [rb])) (zp, 0, [], [])) as [[[[zp1 ix] dA] dB] [E [I1 [_ [EA EB]]]]].
  - split; [exact I|]. repeat split.
  - intros j [[[z x] dA] dB] Hj [Iz [X [EA EB]]].
    destruct (for_up_inv (fun i '(zp, index, ra, rb) => zp_inv zp /\ index = mask_pos D j i /\
        ra = map (fa j) (seq 0 i) /\ rb = map (fb j) (seq 0 i)) D 0
      (fun (_ : nat) '(zp, index, ra, rb) =>
          do (zp1, a) <- zp_generate sha rand p fuel zp (secret mod p) index (num_bits p);
          do (zp2, b) <- zp_generate sha rand p fuel zp1 (secretOther mod p) index (num_bits p);
          Ok (zp2, w64 (index + 1), ra ++ [a], rb ++ [b])) (z, x, [], [])) as [[[[z' x'] ra] rb] [E' [Iz' [X' [RA RB]]]]].
    + split; [exact Iz|]. split; [exact X|]. split; reflexivity.
    + intros i [[[z1 x1] ra] rb] Hi [I1 [X1 [RA RB]]].
      destruct (zp_full z1 (secret mod p) x1 I1) as [z2 [E2 [I2 _]]]. rewrite E2. cbn [bind].
      destruct (zp_full z2 (secretOther mod p) x1 I2) as [z3 [E3 [I3 _]]]. rewrite E3. cbn [bind].
      eexists. split; [reflexivity|]. split; [exact I3|]. split; [rewrite X1; apply mask_step|].
      rewrite !map_seq_S, RA, RB, X1. split; reflexivity.
    + rewrite E'. cbn [bind]. eexists. split; [reflexivity|]. split; [exact Iz'|]. split; [rewrite X'; apply mask_row|].
      rewrite !map_seq_S, EA, EB, RA, RB. split; reflexivity.
  - rewrite E. cbn [bind].
    destruct (computeTOrQ_ok sha HS rand fuel p Hp c key (entry dA) (entry dB) fa fb (party_core c K) HD) as [c' [ET [U [SC KC]]]].
    { intros j i Hj Hi. rewrite EA, EB. split; apply (entry_table2 Hj Hi). }
    rewrite ET. cbn [bind]. exists c', zp1. rewrite KB. split; [reflexivity|]. split; [exact U|]. split; [exact SC|].
    split; [apply (same_party c); assumption|exact I1].
Qed.
End B.
