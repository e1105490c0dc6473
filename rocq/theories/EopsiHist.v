(** Stream positions (C50), histories of a party (C63), lowering the degree
    (C69) and a second setRawData (C17). *)
From Verif Require Import Base Spec Lib NtlMiss NtlMissProofs StrIntModel HashBucketsModel HashBucketsSpec HashBucketsProofs.
From Verif Require Import PRFModel PRFSpec PRFProofs PolyModel PolySpec PolyProofs InterpProofs PolyObjProofs.
From Verif Require Import EopsiModel EopsiSpec EopsiProofs EopsiBlind EopsiRun EopsiFacts.
From Coq Require Import Znumtheory.

(** *** C50 *)
Lemma cell_lt j L i D : (j < L -> i < D -> j * D + i < L * D)%nat.
Proof. intros. nia. Qed.
Lemma cell_inj D j i j' i' : (i < D -> i' < D -> j * D + i = j' * D + i' -> j = j' /\ i = i')%nat.
Proof.
  intros H H' E. assert (j = j').
  { assert (Q : forall j i, (i < D)%nat -> ((j * D + i) / D = j)%nat).
    { intros a b Hb. rewrite (Nat.add_comm (a * D)). rewrite Nat.div_add by lia. rewrite Nat.div_small by exact Hb. reflexivity. }
    rewrite <- (Q j i H), <- (Q j' i' H'). rewrite E. reflexivity. }
  subst. split; [reflexivity|lia].
Qed.
Lemma use_distinct L D h u v : (h <= D)%nat -> Z.of_nat (2 * L * D + L * h) <= 2 ^ 64 ->
  use_ok L D h u -> use_ok L D h v -> use_pos L D h u = use_pos L D h v -> u = v.
Proof.
  intros HD HB Hu Hv E.
  assert (LDh : (L * h <= L * D)%nat) by nia.
  set (raw := fun u => match u with MaskOf j i => j * D + i | CoeffA j c => L * D + (j * h + c) | CoeffB j c => 2 * (L * D) + (j * h + c) end%nat).
  assert (R : forall u, use_ok L D h u -> use_pos L D h u = Z.of_nat (raw u) /\
     match u with MaskOf _ _ => raw u < L * D | CoeffA _ _ => L * D <= raw u < 2 * (L * D) | CoeffB _ _ => 2 * (L * D) <= raw u end%nat).
  { intros [j i|j c|j c] [H1 H2]; cbn [use_pos raw]; unfold mask_pos, omegaA_pos, omegaB_pos.
    - pose proof (cell_lt _ _ _ _ H1 H2). split; [|assumption]. apply Z.mod_small. nia.
    - pose proof (cell_lt _ _ _ _ H1 H2). split; [|lia]. rewrite (Nat.mul_comm h j). rewrite Z.mod_small; [f_equal; lia|nia].
    - pose proof (cell_lt _ _ _ _ H1 H2). split; [|lia]. rewrite (Nat.mul_comm h j). rewrite Z.mod_small; [f_equal; lia|nia]. }
  destruct (R u Hu) as [E1 B1]. destruct (R v Hv) as [E2 B2]. rewrite E1, E2 in E. apply Nat2Z.inj in E.
  destruct u as [j i|j c|j c], v as [j' i'|j' c'|j' c']; try lia; cbn [use_ok] in Hu, Hv; cbn [raw] in E.
  - destruct (cell_inj D j i j' i') as [-> ->]; try lia. reflexivity.
  - destruct (cell_inj h j c j' c') as [-> ->]; try lia. reflexivity.
  - destruct (cell_inj h j c j' c') as [-> ->]; try lia. reflexivity.
Qed.
Lemma use_reused L D h : (0 < L)%nat -> (D < h)%nat ->
  exists j c, use_ok L D h (CoeffA j c) /\ use_ok L D h (CoeffB 0 0) /\ use_pos L D h (CoeffA j c) = use_pos L D h (CoeffB 0 0).
Proof.
  intros HL HD. exists (L * D / h)%nat, (L * D mod h)%nat. pose proof (Nat.div_mod (L * D) h ltac:(lia)) as E.
  pose proof (Nat.mod_upper_bound (L * D) h ltac:(lia)) as U.
  split; [split; [apply Nat.div_lt_upper_bound; nia|exact U]|]. split; [cbn; lia|].
  cbn [use_pos]. unfold omegaA_pos, omegaB_pos. f_equal. f_equal. lia.
Qed.

(** *** C63 *)
Inductive pop :=
| PTQ (key : Z) (A B : entries)
| PBlind (secret : Z) (raw : list Z) (n : nat) (bits : option Z) (h : hb Z) (zp : zpprf) (nt : nat)
| PDelegation (zp : zpprf) (secret secretOther key : Z)
| PIntersect (bits : option Z) (t q : option entries) (k0 : nat)
| PSetDegree (d : nat)
| PSetFieldsize (z : Z).

Section H.
Variable sha : list Z -> list Z.
Variable rand : nat -> Z.
Variable fuel : nat.
Variable p : Z.
Variables canzass berlekamp : nat -> list Z -> list (list Z * Z).
Variable hw : nat.

(** what a party does to itself in one public call *)
Definition run_pop (c : core) (op : pop) : res core :=
  match op with
  | PTQ key A B => do (c1, _) <- computeTOrQ sha rand fuel p c key A B; Ok c1
  | PBlind secret raw n bits h zp nt => do (c1, _, _, _) <- blind sha rand fuel p hw c secret raw n bits h zp nt; Ok c1
  | PDelegation zp s so key => do (c1, _, _) <- delegationOutput sha rand fuel p c zp s so key; Ok c1
  | PIntersect bits t q k0 => do r <- intersect sha rand fuel p canzass berlekamp c bits t q k0;
      Ok (match r with Some (c1, _) => c1 | None => c end)
  | PSetDegree d => Ok (setDegree c d)
  | PSetFieldsize z => Ok (setFieldsize c z)
  end.
Fixpoint run_pops (c : core) (ops : list pop) : res core :=
  match ops with [] => Ok c | op :: t => do c1 <- run_pop c op; run_pops c1 t end.

Lemma get_kept c n c1 us : co_unknowns c <> [] -> getUnknowns sha rand fuel p c n = Ok (c1, us) -> c1 = c /\ us = co_unknowns c.
Proof.
  intros N E. unfold getUnknowns in E. destruct (co_unknowns c) as [|u l] eqn:EU; [congruence|]. cbn [length Nat.eqb andb bind] in E.
  apply Ok_inj in E. injection E as <- <-. auto.
Qed.
Lemma tq_kept c key A B c1 m : co_unknowns c <> [] -> computeTOrQ sha rand fuel p c key A B = Ok (c1, m) -> co_unknowns c1 = co_unknowns c.
Proof.
  intros N E. unfold computeTOrQ in E. apply bind_ok in E. destruct E as [[c2 us] [E1 E]]. apply (get_kept c _ _ _ N) in E1. destruct E1 as [-> ->].
  apply bind_ok in E. destruct E as [[[[[st o1] o2] ix] tq] [_ E]]. apply Ok_inj in E. injection E as <- _. reflexivity.
Qed.
Lemma pop_kept c op c1 : co_unknowns c <> [] -> run_pop c op = Ok c1 -> co_unknowns c1 = co_unknowns c.
Proof.
  intros N E. destruct op; cbn [run_pop] in E.
  - apply bind_ok in E. destruct E as [[c2 m] [E1 E]]. apply Ok_inj in E. subst. eapply tq_kept; eassumption.
  - apply bind_ok in E. destruct E as [[[[c2 h2] z2] m] [E1 E]]. apply Ok_inj in E. subst. unfold blind in E1.
    apply bind_ok in E1. destruct E1 as [h1 [_ E1]]. apply bind_ok in E1. destruct E1 as [[h3 g] [_ E1]]. apply bind_ok in E1. destruct E1 as [z1 [_ E1]].
    apply bind_ok in E1. destruct E1 as [ps [_ E1]]. apply bind_ok in E1. destruct E1 as [[c2 us] [EG E1]]. apply (get_kept c _ _ _ N) in EG. destruct EG as [-> ->].
    apply bind_ok in E1. destruct E1 as [bl [_ E1]]. apply bind_ok in E1. destruct E1 as [[[z3 ix] bl2] [_ E1]]. apply Ok_inj in E1. congruence.
  - apply bind_ok in E. destruct E as [[[c2 z2] m] [E1 E]]. apply Ok_inj in E. subst. unfold delegationOutput in E1.
    apply bind_ok in E1. destruct E1 as [[[[z1 ix] dA] dB] [_ E1]]. apply bind_ok in E1. destruct E1 as [[c3 q] [EC E1]]. apply Ok_inj in E1. injection E1 as <- _ _.
    eapply tq_kept; eassumption.
  - apply bind_ok in E. destruct E as [r [E1 E]]. apply Ok_inj in E. subst c1. unfold intersect in E1. apply bind_ok in E1. destruct E1 as [pd [_ E1]].
    destruct q as [q|], t as [t|]; try (apply Ok_inj in E1; subst r; reflexivity).
    apply bind_ok in E1. destruct E1 as [df [_ E1]]. apply bind_ok in E1. destruct E1 as [[c2 us] [EG E1]]. apply (get_kept c _ _ _ N) in EG. destruct EG as [-> ->].
    apply bind_ok in E1. destruct E1 as [[o vs] [_ E1]]. apply Ok_inj in E1. subst r. reflexivity.
  - apply Ok_inj in E. subst. reflexivity.
  - apply Ok_inj in E. subst. reflexivity.
Qed.
Lemma pops_kept ops : forall c c1, co_unknowns c <> [] -> run_pops c ops = Ok c1 -> co_unknowns c1 = co_unknowns c.
Proof.
  induction ops as [|op ops IH]; intros c c1 N E; cbn [run_pops] in E; [apply Ok_inj in E; congruence|].
  apply bind_ok in E. destruct E as [c2 [E1 E]]. pose proof (pop_kept c op c2 N E1) as K. rewrite <- K in N. rewrite (IH c2 c1 N E). exact K.
Qed.

Hypothesis HS : is_sha sha.
Hypothesis Hp : 1 < p.

Lemma for_up_pres {S} (P : S -> Prop) (body : nat -> S -> res S) : (forall i s s', P s -> body i s = Ok s' -> P s') ->
  forall n i0 s s', for_up n i0 body s = Ok s' -> P s -> P s'.
Proof.
  intros HB. induction n as [|n IH]; intros i0 s s' E Ps; cbn [for_up] in E; [apply Ok_inj in E; subst; exact Ps|].
  apply bind_ok in E. destruct E as [s1 [E1 E]]. eapply IH; [exact E|]. eapply HB; eassumption.
Qed.
Lemma gen_wf st seed index bits st' g : wf st -> bits_ok bits -> generate sha rand fuel st seed index bits = Ok (st', g) -> wf st'.
Proof.
  intros W B E. destruct (generate_pos sha HS rand fuel st seed index bits W B) as [st2 [E2 [W2 _]]]. rewrite E2 in E. apply Ok_inj in E. congruence.
Qed.
Lemma tq_shape c key A B c1 m : core_ok c -> computeTOrQ sha rand fuel p c key A B = Ok (c1, m) ->
  co_unknowns c1 = points_of sha p c (co_degree c) /\ same_core c c1 /\ core_ok c1.
Proof.
  intros K E. unfold computeTOrQ in E. destruct (getUnknowns_ok sha HS rand fuel p c (co_degree c) K) as [c2 [E2 [U2 [S2 K2]]]].
  rewrite E2 in E. cbn [bind] in E. apply bind_ok in E. destruct E as [[[[[st o1] o2] ix] tq] [EL E]]. apply Ok_inj in E. injection E as <- _.
  assert (W : wf st).
  { destruct K2 as [W2 [_ B2]]. revert EL W2. set (fb := co_fbits c2) in *.
    intros EL W2.
    refine (for_up_pres (fun s : prf * poly * poly * Z * matrix => wf (fst (fst (fst (fst s))))) _ _ _ _ _ _ EL W2).
    intros i [[[[s a] b] x] y] [[[[s' a'] b'] x'] y'] Ws Eb. cbn [fst] in *. unfold tq_row in Eb. fold fb in Eb.
    assert (GO : forall st0 om0 dg sd ix0 st1 om1, wf st0 -> genOmega sha rand fuel p fb st0 om0 dg sd ix0 = Ok (st1, om1) -> wf st1).
    { intros st0 om0 dg sd ix0 st1 om1 W0 E0. unfold genOmega in E0.
      refine (for_up_pres (fun s : prf * poly => wf (fst s)) _ _ _ _ _ _ E0 W0). intros i0 [s0 o0] [s1 o3] Ws0 E1. cbn [fst] in *.
      apply bind_ok in E1. destruct E1 as [[s2 g] [EG E1]]. apply Ok_inj in E1. injection E1 as <- _. eapply gen_wf; eassumption. }
    apply bind_ok in Eb. destruct Eb as [[s1 a1] [E1 Eb]]. apply bind_ok in Eb. destruct Eb as [[s3 b1] [E3 Eb]].
    apply bind_ok in Eb. destruct Eb as [[[s4 x4] row] [E4 Eb]]. apply Ok_inj in Eb. injection Eb as <- _ _ _ _.
    apply GO in E1; [|exact Ws]. apply GO in E3; [|exact E1].
    refine (for_up_pres (fun s : prf * Z * list Z => wf (fst (fst s))) _ _ _ _ _ _ E4 E3).
    intros i0 [[s0 x0] r0] [[s5 x5] r5] Ws0 E5. cbn [fst] in *. unfold tq_cell in E5.
    apply bind_ok in E5. destruct E5 as [[s2 g] [EG E5]]. apply bind_ok in E5. destruct E5 as [va [_ E5]]. apply bind_ok in E5. destruct E5 as [vu [_ E5]].
    apply bind_ok in E5. destruct E5 as [vb [_ E5]]. apply Ok_inj in E5. injection E5 as <- _ _. eapply gen_wf; eassumption. }
  split; [exact U2|]. split; [exact S2|]. split; [exact W|exact (proj2 K2)].
Qed.

Definition keeps_shape (op : pop) : bool := match op with PSetDegree _ | PSetFieldsize _ => false | _ => true end.
(** either no points yet, or those of the party's field size and degree *)
Definition points_inv (F : Z) (D : nat) (c : core) : Prop :=
  co_fieldsize c = F /\ co_degree c = D /\ core_ok c /\ (co_unknowns c = [] \/ co_unknowns c = points sha p (num_bits F) D).
Lemma points_inv_of F D c : points_inv F D c -> points_of sha p c (co_degree c) = points sha p (num_bits F) D.
Proof.
  intros [EF [ED [_ [E|E]]]]; unfold points_of; rewrite E, EF, ED; [reflexivity|].
  destruct (Nat.eqb_spec (length (points sha p (num_bits F) D)) 0); reflexivity.
Qed.
Lemma pop_inv F D c op c1 : points_inv F D c -> keeps_shape op = true -> run_pop c op = Ok c1 -> points_inv F D c1.
Proof.
  intros I KS E. pose proof (points_inv_of F D c I) as PO. destruct I as [EF [ED [K EU]]].
  assert (TQ : forall key A B c2 m, computeTOrQ sha rand fuel p c key A B = Ok (c2, m) -> points_inv F D c2).
  { intros key A B c2 m EC. destruct (tq_shape c key A B c2 m K EC) as [U [[S1 [S2 [S3 _]]] K2]].
    split; [congruence|]. split; [congruence|]. split; [exact K2|]. right. rewrite U. exact PO. }
  destruct op; cbn [run_pop] in E; try discriminate KS.
  - apply bind_ok in E. destruct E as [[c2 m] [E1 E]]. apply Ok_inj in E. subst. eapply TQ; eassumption.
  - apply bind_ok in E. destruct E as [[[[c2 h2] z2] m] [E1 E]]. apply Ok_inj in E. subst c2. unfold blind in E1.
    apply bind_ok in E1. destruct E1 as [h1 [_ E1]]. apply bind_ok in E1. destruct E1 as [[h3 g] [_ E1]]. apply bind_ok in E1. destruct E1 as [z1 [_ E1]].
    apply bind_ok in E1. destruct E1 as [ps [_ E1]]. apply bind_ok in E1. destruct E1 as [[c2 us] [EG E1]].
    apply bind_ok in E1. destruct E1 as [bl [_ E1]]. apply bind_ok in E1. destruct E1 as [[[z3 ix] bl2] [_ E1]]. apply Ok_inj in E1. injection E1 as -> _ _ _.
    destruct (getUnknowns_ok sha HS rand fuel p c (co_degree c) K) as [c3 [E3 [U3 [[S1 [S2 [S3 _]]] K3]]]]. rewrite E3 in EG. apply Ok_inj in EG. injection EG as <- _.
    split; [congruence|]. split; [congruence|]. split; [exact K3|]. right. rewrite U3. exact PO.
  - apply bind_ok in E. destruct E as [[[c2 z2] m] [E1 E]]. apply Ok_inj in E. subst c2. unfold delegationOutput in E1.
    apply bind_ok in E1. destruct E1 as [[[[z1 ix] dA] dB] [_ E1]]. apply bind_ok in E1. destruct E1 as [[c3 q] [EC E1]]. apply Ok_inj in E1. injection E1 as <- _ _.
    eapply TQ; eassumption.
  - apply bind_ok in E. destruct E as [r [E1 E]]. apply Ok_inj in E. subst c1. unfold intersect in E1. apply bind_ok in E1. destruct E1 as [pd [_ E1]].
    assert (IC : points_inv F D c) by (split; [exact EF|split; [exact ED|split; [exact K|exact EU]]]).
    destruct q as [q|], t as [t|]; try (apply Ok_inj in E1; subst r; exact IC).
    apply bind_ok in E1. destruct E1 as [df [_ E1]]. apply bind_ok in E1. destruct E1 as [[c2 us] [EG E1]].
    apply bind_ok in E1. destruct E1 as [[o vs] [_ E1]]. apply Ok_inj in E1. subst r. unfold getUnknowns in EG.
    rewrite Nat.ltb_irrefl, andb_false_r in EG. cbn [bind] in EG. apply Ok_inj in EG. injection EG as <- _. exact IC.
Qed.
Lemma pops_inv F D ops : forall c c1, points_inv F D c -> forallb keeps_shape ops = true -> run_pops c ops = Ok c1 -> points_inv F D c1.
Proof.
  induction ops as [|op ops IH]; intros c c1 I KS E; cbn [run_pops] in E; [apply Ok_inj in E; subst; exact I|].
  cbn [forallb] in KS. apply andb_prop in KS. destruct KS as [K1 K2].
  apply bind_ok in E. destruct E as [c2 [E1 E]]. eapply IH; [eapply pop_inv; eassumption|exact K2|exact E].
Qed.

(** a computation reads one point per unit of degree *)
Lemma tq_short c key A B : core_ok c -> co_unknowns c <> [] -> (length (co_unknowns c) < co_degree c)%nat -> (0 < co_length c)%nat ->
  (forall j i, exists a b, A j i = Ok a /\ B j i = Ok b) -> computeTOrQ sha rand fuel p c key A B = UB OutOfBounds.
Proof.
  intros K N LT LL HAB. unfold computeTOrQ. set (us := co_unknowns c) in *.
  assert (EG : getUnknowns sha rand fuel p c (co_degree c) = Ok (c, us)).
  { unfold getUnknowns. fold us. destruct us as [|u l] eqn:EU; [congruence|]. cbn [length Nat.eqb andb bind]. rewrite <- EU. reflexivity. }
  rewrite EG. cbn [bind].
  assert (EL : exists m, co_length c = S m) by (exists (co_length c - 1)%nat; lia). destruct EL as [m Em]. rewrite Em. cbn [for_up].
  destruct K as [W [B1 B2]].
  assert (GO : forall st0 om0 dg sd ix0, wf st0 -> exists st1 om1, genOmega sha rand fuel p (co_fbits c) st0 om0 dg sd ix0 = Ok (st1, om1) /\ wf st1).
  { intros st0 om0 dg sd ix0 W0. unfold genOmega.
    destruct (for_up_inv (fun _ (s : prf * poly) => wf (fst s)) dg 0
       (fun i '(st, om) => do (st1, g) <- generate sha rand fuel st sd (w64 (ix0 + Z.of_nat i)) (co_fbits c); Ok (st1, set_coeff om i (g mod p))) (st0, set_coeff om0 dg (1 mod p))) as [[s1 o1] [E1 I1]].
    - exact W0.
    - intros i [s o] _ Ws. destruct (generate_pos sha HS rand fuel s sd (w64 (ix0 + Z.of_nat i)) (co_fbits c) Ws B2) as [s2 [E2 [W2 _]]].
      rewrite E2. cbn [bind]. eexists. split; [reflexivity|exact W2].
    - exists s1, o1. rewrite E1. split; [reflexivity|exact I1]. }
  unfold tq_row at 1.
  edestruct (GO (co_prf c)) as [st1 [om1 [E1 W1]]]; [exact W|]. rewrite E1. cbn [bind].
  edestruct (GO st1) as [st2 [om2 [E2 W2]]]; [exact W1|]. rewrite E2. cbn [bind].
  replace (co_degree c) with (length us + S (co_degree c - length us - 1))%nat by lia. rewrite for_up_app.
  destruct (for_up_inv (fun _ (s : prf * Z * list Z) => wf (fst (fst s))) (length us) 0
     (tq_cell sha rand fuel p (co_fbits c) key A B us om1 om2 0) (st2, 0, [])) as [[[s3 x3] r3] [E3 W3]].
  - exact W2.
  - intros i [[s x] r] Hi Ws. unfold tq_cell. destruct (generate_pos sha HS rand fuel s key x (co_fbits c) Ws B2) as [s4 [E4 [W4 _]]].
    rewrite E4. cbn [bind]. destruct (HAB 0%nat i) as [a [b [-> ->]]]. cbn [bind].
    destruct (nth_error us i) as [u|] eqn:EN; [|apply nth_error_None in EN; lia]. apply aget_ok in EN. rewrite EN. cbn [bind]. eexists. split; [reflexivity|exact W4].
  - rewrite E3. cbn [bind for_up Nat.add]. unfold tq_cell at 1. cbn [fst] in W3.
    destruct (generate_pos sha HS rand fuel s3 key x3 (co_fbits c) W3 B2) as [s4 [E4 [W4 _]]]. rewrite E4. cbn [bind].
    destruct (HAB 0%nat (length us)) as [a [b [-> _]]]. cbn [bind].
    assert (EO : aget us (length us) = UB OutOfBounds).
    { unfold aget. rewrite (proj2 (nth_error_None us (length us))) by lia. reflexivity. }
    rewrite EO. reflexivity.
Qed.
End H.
