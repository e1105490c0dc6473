(** Properties of the parameter calculator cherpars *)
From Coq Require Import Reals Lra Lia.
From Verif Require HashBucketsModel HashBucketsSpec.
From Verif Require Import Base CherparsModel CherparsSpec CherparsProofs.
Open Scope R_scope.

(** C79: the printed table size makes crowded buckets as improbable as printed *)
Theorem C79_overflow_probability : forall os c out,
  cparse os cdefault = Ok c -> cherpars os = Ok out ->
  probability (Z.to_nat (co_h out)) (Z.to_nat (2 ^ ca_n c)) (Z.to_nat (ca_l c)) <= co_prob out.
Proof. exact cherpars_sound_l. Qed.
Print Assumptions C79_overflow_probability.

(** an overflowing table means a crowded assignment: the event that was bounded *)
Theorem C79_table_overflow : forall (T : Type) (al : HashBucketsModel.halgo T) k ml l,
  HashBucketsSpec.algo_valid al -> (0 < k)%nat ->
  exists h0, HashBucketsModel.new_hb k ml (Some al) = Ok h0 /\
    In (map (HashBucketsSpec.index_of al k) l) (assignments k (length l)) /\
    (HashBucketsModel.hb_add_list h0 l (length l) = Exit 1 <->
       crowded k (S ml) (map (HashBucketsSpec.index_of al k) l) = true) /\
    (HashBucketsModel.hb_add_list h0 l (length l) = Exit 1 ->
       crowded k ml (map (HashBucketsSpec.index_of al k) l) = true).
Proof. exact table_assignment_l. Qed.
Print Assumptions C79_table_overflow.

(** C80: the choice *)
Theorem C80_choice : forall os c,
  cparse os cdefault = Ok c -> (ca_n c < 64)%Z ->
  exists out mu, cherpars os = Ok out /\ (1 <= mu <= ca_l c)%Z /\
    co_h out = ceil (IZR (2 ^ ca_n c) / IZR mu) /\ co_mu out = (mu - 1)%Z /\
    co_sigma out = IZR (ca_l c) / IZR mu - 1 /\
    co_prob out = chernoff (IZR (ca_l c)) (IZR (2 ^ ca_n c)) (IZR mu) /\
    (co_prob out <= Rpower 2 (ca_p c) \/ mu = 1%Z) /\
    (forall k, (mu < k <= ca_l c)%Z -> Rpower 2 (ca_p c) < chernoff (IZR (ca_l c)) (IZR (2 ^ ca_n c)) (IZR k)).
Proof. exact cherpars_choice_l. Qed.
Print Assumptions C80_choice.

(** a table is printed even if no mean load meets the target *)
Theorem C80_no_warning : forall os c,
  cparse os cdefault = Ok c -> (ca_n c < 64)%Z -> ca_l c = 1%Z ->
  exists out, cherpars os = Ok out /\ co_h out = (2 ^ ca_n c)%Z /\ co_mu out = 0%Z /\
    co_prob out = IZR (2 ^ ca_n c) /\ Rpower 2 (ca_p c) < 1 < co_prob out.
Proof. exact cherpars_fallback_l. Qed.
Print Assumptions C80_no_warning.

(** C81: command lines *)
Theorem C81_refused : forall os, cherpars os = Exit 1 <-> Exists refused os.
Proof. exact cherpars_refused_l. Qed.
Print Assumptions C81_refused.
Theorem C81_values_in_force : forall os, ~ Exists refused os -> exists c, cparse os cdefault = Ok c /\
  ca_l c = given opt_l 100%Z os /\ ca_n c = given opt_n 1024%Z os /\ ca_p c = given opt_p (-40) os.
Proof. exact cherpars_values_l. Qed.
Print Assumptions C81_values_in_force.
Theorem C81_large_exponent : forall os c,
  cparse os cdefault = Ok c -> (64 <= ca_n c)%Z -> cherpars os = UB BadConv.
Proof. exact cherpars_undefined_l. Qed.
Print Assumptions C81_large_exponent.
(** without -n the program is undefined: the default exponent is 1024 *)
Theorem C81_default_exponent : forall os,
  Forall no_n os -> ~ Exists refused os -> cherpars os = UB BadConv.
Proof.
  intros os F N. destruct (cparse_refused os cdefault) as [_ B]. destruct (B N) as [c E].
  apply (cherpars_undefined_l os c E). rewrite (cparse_no_n _ _ _ F E). cbn. lia.
Qed.
Print Assumptions C81_default_exponent.

(** -l 4 -n 1 -p -1: the target 1/2 is met *)
Definition ex_copts : list copt := [Cl 4; Cn 1; Cp (-1)].
Lemma ex_cparse : cparse ex_copts cdefault = Ok {| ca_l := 4; ca_n := 1; ca_p := -1; ca_quiet := false |}.
Proof.
  unfold ex_copts. cbn [cparse Z.ltb Z.leb Z.compare Pos.compare Pos.compare_cont cdefault ca_l ca_n ca_p ca_quiet].
  destruct (Rge_dec (-1) (- epsilon)) as [G|G]; [unfold epsilon in G; lra|reflexivity].
Qed.
Example C79_nonvacuous : exists out, cherpars ex_copts = Ok out /\ co_prob out <= / 2 /\
  probability (Z.to_nat (co_h out)) 2 4 <= / 2.
Proof.
  destruct (cherpars_choice_l ex_copts _ ex_cparse ltac:(cbn; lia)) as [out [mu [O [M [_ [_ [_ [P [G _]]]]]]]]].
  cbn [ca_l ca_n ca_p] in *. change (2 ^ 1)%Z with 2%Z in *.
  assert (T : Rpower 2 (-1) = / 2) by (replace (-1) with (Ropp 1) by ring; rewrite Rpower_Ropp, Rpower_1 by lra; reflexivity).
  rewrite T in G. exists out. split; [exact O|].
  assert (B : co_prob out <= / 2).
  { destruct G as [G|G]; [exact G|]. subst mu. rewrite P. unfold chernoff.
    replace (2 / 1) with 2 by field. rewrite ceil_IZR. replace (4 - 1) with (INR 3 * 1) by (cbn; ring).
    replace (4 / 1) with 4 by field. replace (Rpower 4 4) with (4 ^ 4) by (rewrite <- (Rpower_pow 4 4) by lra; f_equal; cbn; ring).
    rewrite <- exp_pow. pose proof exp_le_3. pose proof (exp_pos 1).
    assert (exp 1 ^ 3 <= 3 ^ 3) by (apply pow_incr; lra).
    replace (3 ^ 3) with 27 in H1 by ring. replace (4 ^ 4) with 256 by ring. lra. }
  split; [exact B|]. pose proof (cherpars_sound_l ex_copts _ out ex_cparse O) as S. cbn [ca_l ca_n] in S.
  change (Z.to_nat (2 ^ 1)) with 2%nat in S. change (Z.to_nat 4) with 4%nat in S. lra.
Qed.
Example C80_nonvacuous : exists out, cherpars [Cl 1; Cn 3] = Ok out /\ co_h out = 8%Z /\ co_prob out = 8.
Proof.
  destruct (cherpars_fallback_l [Cl 1; Cn 3] _ eq_refl ltac:(cbn; lia) eq_refl) as [out [O [H [_ [P _]]]]].
  exists out. auto.
Qed.
Example C81_nonvacuous : cherpars [Cl 30; Cq] = UB BadConv /\ cherpars [Cn 10; Cl 0] = Exit 1.
Proof.
  split; [apply C81_default_exponent; [repeat constructor|]|reflexivity].
  intros H. inversion H; subst; [cbn in H1; lia|]. inversion H1; subst; [contradiction|inversion H2].
Qed.
