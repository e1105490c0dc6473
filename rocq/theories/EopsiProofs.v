(** Proofs about the computations of the parties. *)
From Verif Require Import Base Spec Lib NtlMiss NtlMissProofs StrIntModel HashBucketsModel HashBucketsSpec HashBucketsProofs.
From Verif Require Import PRFModel PRFSpec PRFProofs PolyModel PolySpec PolyProofs InterpProofs PolyObjProofs EopsiModel EopsiSpec.
From Coq Require Import Znumtheory.

Lemma map_seq_S {A} (f : nat -> A) i : map f (seq 0 (S i)) = map f (seq 0 i) ++ [f i].
Proof. rewrite seq_S, map_app. reflexivity. Qed.
Lemma nth_error_map_seq {A} (f : nat -> A) n i : (i < n)%nat -> nth_error (map f (seq 0 n)) i = Some (f i).
Proof.
  intros H. rewrite nth_error_map. replace (nth_error (seq 0 n) i) with (Some i); [reflexivity|].
  symmetry. rewrite (nth_error_nth' _ 0%nat) by (rewrite seq_length; exact H). rewrite seq_nth by exact H. reflexivity.
Qed.
Lemma entry_table2 {L D f j i} : (j < L)%nat -> (i < D)%nat -> entry (table2 L D f) j i = Ok (f j i).
Proof.
  intros Hj Hi. unfold entry, table2. unfold aget at 1. rewrite nth_error_map_seq by exact Hj. cbn [bind].
  unfold aget. rewrite nth_error_map_seq by exact Hi. reflexivity.
Qed.

Lemma mask_step D j i : w64 (mask_pos D j i + 1) = mask_pos D j (S i).
Proof. unfold mask_pos, w64, M64. rewrite Zplus_mod_idemp_l. f_equal. lia. Qed.
Lemma mask_row D j : mask_pos D j D = mask_pos D (S j) 0.
Proof. unfold mask_pos. f_equal. lia. Qed.
Lemma w64_add_l a b : w64 (w64 a + b) = w64 (a + b).
Proof. unfold w64. apply Zplus_mod_idemp_l. Qed.
Lemma w64_add_r a b : w64 (a + w64 b) = w64 (a + b).
Proof. unfold w64. apply Zplus_mod_idemp_r. Qed.
Lemma omegaA_index L D h j c : w64 (w64 (w64 (Z.of_nat L * Z.of_nat D) + Z.of_nat h * Z.of_nat j) + Z.of_nat c) = omegaA_pos L D h j c.
Proof.
  rewrite (w64_add_l (Z.of_nat L * Z.of_nat D)), w64_add_l. unfold omegaA_pos, w64, M64. f_equal. rewrite !Nat2Z.inj_add, !Nat2Z.inj_mul. ring.
Qed.
Lemma omegaB_index L D h j c : w64 (w64 (w64 (w64 (Z.of_nat L * Z.of_nat D) + w64 (Z.of_nat L * Z.of_nat D)) + Z.of_nat h * Z.of_nat j) + Z.of_nat c) = omegaB_pos L D h j c.
Proof.
  rewrite (w64_add_l (Z.of_nat L * Z.of_nat D) (w64 _)), w64_add_r, (w64_add_l _ (Z.of_nat h * Z.of_nat j)), w64_add_l. unfold omegaB_pos, w64, M64. f_equal. rewrite !Nat2Z.inj_add, !Nat2Z.inj_mul. ring.
Qed.

Section E.
Variable sha : list Z -> list Z.
Hypothesis HS : is_sha sha.
Variable rand : nat -> Z.
Variable fuel : nat.
Variable p : Z.
Hypothesis Hp : 1 < p.
#[local] Notation ks := (key_stream sha p).

(** *** the points *)
Definition core_ok (c : core) : Prop :=
  wf (co_prf c) /\ bits_ok (num_bits (co_fieldsize c)) /\ bits_ok (co_fbits c).
Definition same_core (c c' : core) : Prop :=
  co_fieldsize c' = co_fieldsize c /\ co_fbits c' = co_fbits c /\ co_degree c' = co_degree c /\
  co_length c' = co_length c /\ co_height c' = co_height c.

Lemma generateUnknowns_ok c n : core_ok c ->
  exists st, generateUnknowns sha rand fuel p c n = Ok (set_unknowns c (points sha p (num_bits (co_fieldsize c)) n) st) /\ wf st.
Proof.
  intros [W [B1 B2]]. unfold generateUnknowns. set (w := num_bits (co_fieldsize c)).
  destruct (for_up_inv (fun i '(st, us) => wf st /\ us = map (fun j => ks w 4 (Z.of_nat j)) (seq 0 i)) n 0
     (fun j '(st, us) => do (st1, g) <- generate sha rand fuel st 4 (Z.of_nat j) w; Ok (st1, us ++ [g mod p])) (co_prf c, [])) as [[st us] [E [I1 I2]]].
  - split; [exact W|reflexivity].
  - intros i [st us] _ [I1 I2]. destruct (generate_pos sha HS rand fuel st 4 (Z.of_nat i) w I1 B1) as [st' [E [W' _]]].
    rewrite E. cbn [bind]. eexists. split; [reflexivity|]. split; [exact W'|]. rewrite map_seq_S, I2. reflexivity.
  - rewrite E. cbn [bind]. exists st. split; [|exact I1]. rewrite I2. reflexivity.
Qed.

(** the points a party uses after asking for [n] *)
Definition points_of (c : core) (n : nat) : list Z :=
  if Nat.eqb (length (co_unknowns c)) 0 then points sha p (num_bits (co_fieldsize c)) n else co_unknowns c.
Lemma getUnknowns_ok c n : core_ok c ->
  exists c', getUnknowns sha rand fuel p c n = Ok (c', points_of c n) /\ co_unknowns c' = points_of c n /\ same_core c c' /\ core_ok c'.
Proof.
  intros K. unfold getUnknowns, points_of. destruct (Nat.eqb_spec (length (co_unknowns c)) 0) as [E0|N0]; cbn [andb].
  - destruct (Nat.ltb_spec 0 n) as [Ln|Ln].
    + destruct (generateUnknowns_ok c n K) as [st [E W]]. rewrite E. cbn [bind]. eexists. split; [reflexivity|]. split; [reflexivity|].
      split; [repeat split|]. split; [exact W|]. exact (proj2 K).
    + assert (n = 0%nat) by lia. subst n. assert (co_unknowns c = []) by (destruct (co_unknowns c); [reflexivity|discriminate]).
      cbn [bind]. exists c. rewrite H. split; [reflexivity|]. split; [reflexivity|]. split; [repeat split|exact K].
  - cbn [bind]. exists c. split; [reflexivity|]. split; [reflexivity|]. split; [repeat split|exact K].
Qed.

(** *** genOmega *)
Lemma set_coeff_low om i v : reduced p om -> last om 0 = 1 -> (S i < length om)%nat -> 0 <= v < p ->
  set_coeff om i v = upd om i v.
Proof.
  intros R L Hi Hv. unfold set_coeff. replace (S i - length om)%nat with 0%nat by lia. cbn [repeat]. rewrite app_nil_r.
  apply (norm_id p _ Hp). split.
  - apply Forall_forall. intros x Hx. apply In_nth_error in Hx. destruct Hx as [k Hk]. rewrite upd_nth in Hk.
    destruct (Nat.eqb_spec k i); [destruct (nth_error om i); inversion Hk; subst; exact Hv|].
    unfold reduced in R. rewrite Forall_forall in R. apply R. eapply nth_error_In. exact Hk.
  - assert (N : upd om i v <> []) by (destruct om; [cbn in Hi; lia|destruct i; discriminate]).
    rewrite (last_default _ 1 0) by exact N. rewrite last_coef. unfold coef. rewrite upd_length.
    rewrite nth_upd by lia. destruct (Nat.eqb_spec (length om - 1) i); [lia|].
    rewrite last_coef in L. unfold coef in L. lia.
Qed.
Lemma set_coeff_top om h : reduced p om -> (length om <= S h)%nat ->
  exists low, set_coeff om h 1 = low ++ [1] /\ length low = h /\ reduced p low.
Proof.
  intros R L. set (f := om ++ repeat 0 (S h - length om)).
  assert (Lf : length f = S h) by (unfold f; rewrite app_length, repeat_length; lia).
  assert (Rf : reduced p f).
  { unfold f. apply Forall_app. split; [exact R|]. apply Forall_forall. intros x Hx. apply repeat_spec in Hx. subst. lia. }
  assert (E : exists low z, f = low ++ [z] /\ length low = h).
  { destruct (exists_last (l := f)) as [low [z E]]; [destruct f; [discriminate|discriminate]|]. exists low, z. split; [exact E|].
    rewrite E, app_length in Lf. cbn in Lf. lia. }
  destruct E as [low [z [E Ll]]]. exists low.
  assert (Rl : reduced p low) by (rewrite E in Rf; apply Forall_app in Rf; apply Rf).
  split; [|split; [exact Ll|exact Rl]]. unfold set_coeff. fold f. rewrite E. rewrite <- Ll. rewrite upd_mid.
  apply (norm_id p _ Hp). split.
  - apply Forall_app. split; [exact Rl|]. constructor; [lia|constructor].
  - rewrite last_last. lia.
Qed.

Lemma genOmega_ok fb st om h seed index : wf st -> bits_ok fb -> reduced p om -> (length om <= S h)%nat ->
  exists st', genOmega sha rand fuel p fb st om h seed index =
    Ok (st', map (fun i => ks fb seed (w64 (index + Z.of_nat i))) (seq 0 h) ++ [1]) /\ wf st'.
Proof.
  intros W B R L. unfold genOmega. rewrite (Z.mod_small 1 p) by lia.
  destruct (set_coeff_top om h R L) as [low [E [Ll Rl]]]. rewrite E.
  set (g := fun i => ks fb seed (w64 (index + Z.of_nat i))).
  assert (G : forall i, 0 <= g i < p) by (intros; apply Z.mod_pos_bound; lia).
  destruct (for_up_inv (fun i '(st, om) => wf st /\ om = map g (seq 0 i) ++ skipn i low ++ [1]) h 0
     (fun i '(st, om) => do (st1, v) <- generate sha rand fuel st seed (w64 (index + Z.of_nat i)) fb; Ok (st1, set_coeff om i (v mod p))) (st, low ++ [1])) as [[st' om'] [E' [I1 I2]]].
  - split; [exact W|reflexivity].
  - intros i [s o] Hi [I1 I2]. destruct (generate_pos sha HS rand fuel s seed (w64 (index + Z.of_nat i)) fb I1 B) as [s' [Eg [W' _]]].
    rewrite Eg. cbn [bind]. eexists. split; [reflexivity|]. split; [exact W'|]. subst o.
    assert (Hs : exists x, skipn i low = x :: skipn (S i) low).
    { destruct (skipn i low) as [|x r] eqn:Es.
      - assert (length (skipn i low) = 0)%nat by (rewrite Es; reflexivity). rewrite skipn_length in H. lia.
      - exists x. f_equal. replace (S i) with (1 + i)%nat by lia. rewrite <- skipn_skipn, Es. reflexivity. }
    destruct Hs as [x Hs]. rewrite Hs. cbn [app]. fold (ks fb seed (w64 (index + Z.of_nat i))).
    change (prf_value sha seed (w64 (index + Z.of_nat i)) fb mod p) with (g i).
    rewrite set_coeff_low.
    + rewrite map_seq_S. rewrite <- app_assoc. cbn [app].
      pose proof (upd_mid (map g (seq 0 i)) (skipn (S i) low ++ [1]) x (g i)) as EU. rewrite map_length, seq_length in EU. exact EU.
    + apply Forall_app. split; [apply Forall_forall; intros y Hy; apply in_map_iff in Hy; destruct Hy as [k [<- _]]; apply G|].
      assert (Rs : reduced p (x :: skipn (S i) low)) by (rewrite <- Hs; apply Forall_skipn'; exact Rl).
      inversion Rs as [|? ? Rx Rr]; subst. constructor; [exact Rx|]. apply Forall_app. split; [exact Rr|]. constructor; [lia|constructor].
    + change (x :: skipn (S i) low ++ [1]) with ((x :: skipn (S i) low) ++ [1]). rewrite app_assoc. apply last_last.
    + rewrite app_length, map_length, seq_length. cbn [length]. rewrite app_length. cbn. lia.
    + apply G.
  - rewrite E'. exists st'. split; [|exact I1]. rewrite I2. rewrite skipn_all2 by (cbn; lia). reflexivity.
Qed.

(** *** computeTOrQ *)
Definition omegaA (fb : Z) (c : core) (key : Z) (j : nat) : list Z :=
  map (fun i => ks fb key (omegaA_pos (co_length c) (co_degree c) (co_height c) j i)) (seq 0 (co_height c)).
Definition omegaB (fb : Z) (c : core) (key : Z) (j : nat) : list Z :=
  map (fun i => ks fb key (omegaB_pos (co_length c) (co_degree c) (co_height c) j i)) (seq 0 (co_height c)).
Definition tq_value (fb : Z) (c : core) (key : Z) (us : list Z) (a b : nat -> nat -> Z) (j i : nat) : Z :=
  (ks fb key (mask_pos (co_degree c) j i)
   + a j i * omega_value p (omegaA fb c key j) (nth i us 0)
   + b j i * omega_value p (omegaB fb c key j) (nth i us 0)) mod p.

Lemma omega_value_peval cs z : peval p (cs ++ [1]) z = omega_value p cs z.
Proof. apply peval_value. Qed.
Lemma reduced_stream fb key f n : reduced p (map (fun i : nat => ks fb key (f i)) (seq 0 n)).
Proof. apply Forall_forall. intros y Hy. apply in_map_iff in Hy. destruct Hy as [k [<- _]]. apply Z.mod_pos_bound. lia. Qed.

Lemma computeTOrQ_ok c key A B a b : core_ok c -> (co_degree c <= length (points_of c (co_degree c)))%nat ->
  (forall j i, (j < co_length c)%nat -> (i < co_degree c)%nat -> A j i = Ok (a j i) /\ B j i = Ok (b j i)) ->
  exists c', computeTOrQ sha rand fuel p c key A B =
      Ok (c', table2 (co_length c) (co_degree c) (tq_value (co_fbits c) c key (points_of c (co_degree c)) a b)) /\
    co_unknowns c' = points_of c (co_degree c) /\ same_core c c' /\ core_ok c'.
Proof.
  intros K HU HAB. unfold computeTOrQ.
  destruct (getUnknowns_ok c (co_degree c) K) as [c1 [E1 [U1 [S1 K1]]]]. rewrite E1. cbn [bind].
  set (us := points_of c (co_degree c)) in *. set (L := co_length c) in *. set (D := co_degree c) in *. set (h := co_height c).
  set (fb := co_fbits c). destruct S1 as [S1 [S2 [S3 [S4 S5]]]].
  set (ld := w64 (Z.of_nat L * Z.of_nat D)).
  destruct (for_up_inv (fun j '(st, omA, omB, aIdx, tq) => wf st /\ (length omA <= S h)%nat /\ reduced p omA /\ (length omB <= S h)%nat /\ reduced p omB /\
      aIdx = mask_pos D j 0 /\ tq = map (fun j => map (tq_value fb c key us a b j) (seq 0 D)) (seq 0 j)) L 0
     (tq_row sha rand fuel p c1 key A B us ld (w64 (ld + ld))) (co_prf c1, [], [], 0, [])) as [[[[[st oA] oB] ai] tq] [E [I1 [_ [_ [_ [_ [_ I2]]]]]]]].
  - split; [apply K1|]. cbn [length]. repeat split; try lia; constructor.
  - intros j [[[[st oA] oB] ai] tq] Hj [I1 [IA [RA [IB [RB [IX IT]]]]]]. unfold tq_row.
    rewrite S2, S5, S3. fold fb D h.
    destruct (genOmega_ok fb st oA h key (w64 (ld + Z.of_nat h * Z.of_nat j)) I1 (proj2 (proj2 K)) RA IA) as [st1 [EA W1]].
    rewrite EA. cbn [bind]. rewrite (map_ext _ (fun i => ks fb key (omegaA_pos L D h j i)) (fun i => f_equal (ks fb key) (omegaA_index L D h j i))).
    destruct (genOmega_ok fb st1 oB h key (w64 (w64 (ld + ld) + Z.of_nat h * Z.of_nat j)) W1 (proj2 (proj2 K)) RB IB) as [st2 [EB W2]].
    rewrite EB. cbn [bind]. rewrite (map_ext _ (fun i => ks fb key (omegaB_pos L D h j i)) (fun i => f_equal (ks fb key) (omegaB_index L D h j i))).
    change (map (fun i => ks fb key (omegaA_pos L D h j i)) (seq 0 h)) with (omegaA fb c key j).
    change (map (fun i => ks fb key (omegaB_pos L D h j i)) (seq 0 h)) with (omegaB fb c key j).
    destruct (for_up_inv (fun i '(st, ai, row) => wf st /\ ai = mask_pos D j i /\ row = map (tq_value fb c key us a b j) (seq 0 i)) D 0
       (tq_cell sha rand fuel p fb key A B us (omegaA fb c key j ++ [1]) (omegaB fb c key j ++ [1]) j) (st2, ai, [])) as [[[st3 ai3] row] [EC [W3 [X3 R3]]]].
    + split; [exact W2|]. split; [exact IX|reflexivity].
    + intros i [[s x] r] Hi [Ws [Xs Rs]]. unfold tq_cell.
      destruct (generate_pos sha HS rand fuel s key x fb Ws (proj2 (proj2 K))) as [s' [Eg [W' _]]]. rewrite Eg. cbn [bind].
      destruct (HAB j i ltac:(lia) ltac:(lia)) as [EAj EBj]. rewrite EAj, EBj. rewrite (aget_nth 0) by lia. cbn [bind].
      eexists. split; [reflexivity|]. split; [exact W'|]. split; [rewrite Xs; apply mask_step|].
      rewrite map_seq_S, Rs. f_equal. f_equal. unfold tq_value. rewrite !omega_value_peval. rewrite Xs. reflexivity.
    + rewrite EC. cbn [bind]. eexists. split; [reflexivity|]. split; [exact W3|].
      assert (LA : length (omegaA fb c key j ++ [1]) = S h) by (unfold omegaA; rewrite app_length, map_length, seq_length; cbn; fold h; lia).
      assert (LB : length (omegaB fb c key j ++ [1]) = S h) by (unfold omegaB; rewrite app_length, map_length, seq_length; cbn; fold h; lia).
      split; [lia|]. split; [apply Forall_app; split; [apply reduced_stream|constructor; [lia|constructor]]|].
      split; [lia|]. split; [apply Forall_app; split; [apply reduced_stream|constructor; [lia|constructor]]|].
      split; [rewrite X3; cbn [Nat.add]; apply mask_row|]. rewrite map_seq_S, IT, R3. reflexivity.
  - rewrite E. cbn [bind]. eexists. split; [rewrite I2; reflexivity|].
    split; [cbn; exact U1|]. split; [repeat split; cbn; assumption|]. destruct K1 as [_ K1]. split; [exact I1|exact K1].
Qed.
End E.
