(** Successive seedless calls on a plain ZZPRF (prf.hpp:72-87). *)
From Verif Require Import Base Spec Lib NtlMiss PRFModel PRFSpec PRFProofs.

Section N.
Variable sha : list Z -> list Z.
Variable rand : nat -> Z.
Variable fuel : nat.

Definition with_index (k : Z) (st : prf) : prf :=
  {| p_gen := p_gen st; p_genLength := p_genLength st; p_hashInput := p_hashInput st;
     p_hashInputSize := p_hashInputSize st; p_autoIndex := k; p_autoSeed := p_autoSeed st; p_pos := p_pos st |}.

Lemma after_n_index k st seed index bits n pos :
  after_n sha (with_index k st) seed index bits n pos =
  (do (s, v) <- after_n sha st seed index bits n pos; Ok (with_index k s, v)).
Proof.
  unfold after_n, with_index. cbn [p_genLength p_gen p_hashInputSize p_hashInput p_autoIndex p_autoSeed].
  repeat match goal with |- context [bind ?e _] => destruct e; cbn [bind]; try reflexivity end.
Qed.
Lemma generate_index k st seed index bits :
  generate sha rand fuel (with_index k st) seed index bits =
  (do (s, v) <- generate sha rand fuel st seed index bits; Ok (with_index k s, v)).
Proof.
  rewrite !generate_split. change (p_pos (with_index k st)) with (p_pos st).
  destruct (if bits =? 0 then _ else _) as [[n pos]| | | |]; cbn [bind]; try reflexivity. apply after_n_index.
Qed.
Lemma generate_auto_index k st index bits :
  generate_auto sha rand fuel (with_index k st) index bits =
  (do (s, v) <- generate_auto sha rand fuel st index bits; Ok (with_index k s, v)).
Proof.
  unfold generate_auto. change (p_autoSeed (with_index k st)) with (p_autoSeed st).
  destruct (p_autoSeed st); [apply generate_index|]. cbn [randomSeed].
  rewrite <- generate_index. reflexivity.
Qed.
Lemma generate_next_index st :
  generate_next sha rand fuel st =
  (do (s, v) <- generate_auto sha rand fuel st (p_autoIndex st) 0; Ok (with_index (w64 (p_autoIndex st + 1)) s, v)).
Proof. unfold generate_next. rewrite <- generate_auto_index. reflexivity. Qed.

Lemma generate_keeps st seed index bits st' v : generate sha rand fuel st seed index bits = Ok (st', v) ->
  p_autoIndex st' = p_autoIndex st /\ p_autoSeed st' = p_autoSeed st.
Proof.
  rewrite generate_split.
  destruct (if bits =? 0 then _ else _) as [[n pos]| | | |]; cbn [bind]; try discriminate. unfold after_n. cbv zeta.
  intros E. repeat (apply bind_ok in E; destruct E as [? [_ E]]). apply Ok_inj in E. injection E as <- _. split; reflexivity.
Qed.
Lemma generate_auto_keeps st index bits st' v : generate_auto sha rand fuel st index bits = Ok (st', v) ->
  p_autoIndex st' = p_autoIndex st /\
  p_autoSeed st' = Some (match p_autoSeed st with Some s => s | None => rand (p_pos st) end).
Proof.
  unfold generate_auto. destruct (p_autoSeed st) as [s|] eqn:A; cbn [randomSeed]; intros E;
    destruct (generate_keeps _ _ _ _ _ _ E) as [E1 E2]; rewrite E1, E2; cbn [p_autoIndex p_autoSeed]; auto.
Qed.

Definition seedless (c : call) : Prop := match c with Seeded _ _ _ => False | _ => True end.

Lemma run_index : forall l st st' vs, run_prf sha rand fuel st l = Ok (st', vs) ->
  0 <= p_autoIndex st < 2 ^ 64 ->
  p_autoIndex st' = (p_autoIndex st + nexts l) mod 2 ^ 64 /\ 0 <= p_autoIndex st' < 2 ^ 64 /\
  (forall s, p_autoSeed st = Some s -> p_autoSeed st' = Some s) /\
  (Exists seedless l -> p_autoSeed st' <> None).
Proof.
  induction l as [|c l IH]; intros st st' vs E B.
  - cbn [run_prf] in E. apply Ok_inj in E. injection E as <- _. unfold nexts; cbn [filter length].
    rewrite Z.mod_small by lia. split; [lia|]. split; [exact B|]. split; [auto|]. intros X; inversion X.
  - cbn [run_prf] in E.
    destruct (exec_call sha rand fuel st c) as [[st1 v]| | | |] eqn:E1; try discriminate. cbn [bind] in E.
    destruct (run_prf sha rand fuel st1 l) as [[st2 vs']| | | |] eqn:E2; try discriminate. cbn [bind] in E.
    apply Ok_inj in E. injection E as <- _.
    assert (P : p_autoIndex st1 = (p_autoIndex st + nexts [c]) mod 2 ^ 64 /\
      (forall s, p_autoSeed st = Some s -> p_autoSeed st1 = Some s) /\ (seedless c -> p_autoSeed st1 <> None)).
    { destruct c as [s i b|i b|]; cbn [exec_call] in E1; unfold nexts; cbn [filter is_next length].
      - destruct (generate_keeps _ _ _ _ _ _ E1) as [K1 K2]. rewrite K1, K2, Z.mod_small by lia.
        split; [lia|]. split; [auto|intros []].
      - destruct (generate_auto_keeps _ _ _ _ _ E1) as [K1 K2]. rewrite K1, K2, Z.mod_small by lia.
        split; [lia|]. split; [intros s ->; reflexivity|discriminate].
      - rewrite generate_next_index in E1. apply bind_ok in E1. destruct E1 as [[s0 v0] [E1 E3]].
        apply Ok_inj in E3. injection E3 as <- _. destruct (generate_auto_keeps _ _ _ _ _ E1) as [K1 K2].
        cbn [with_index p_autoIndex p_autoSeed]. rewrite K2. split; [reflexivity|].
        split; [intros s ->; reflexivity|discriminate]. }
    destruct P as [P1 [P2 P3]].
    destruct (IH st1 st2 vs' E2) as [Q1 [Q2 [Q3 Q4]]]; [rewrite P1; apply Z.mod_pos_bound; lia|].
    split.
    + rewrite Q1, P1, Z.add_mod_idemp_l by lia. f_equal. unfold nexts. cbn [filter].
      destruct (is_next c); cbn [length]; lia.
    + split; [exact Q2|]. split; [intros s Hs; apply Q3, P2, Hs|].
      intros X. inversion X as [? ? X1|? ? X1]; subst; [|apply Q4; exact X1].
      destruct (p_autoSeed st1) as [s|] eqn:A; [|exfalso; exact (P3 X1 eq_refl)].
      rewrite (Q3 s eq_refl). discriminate.
Qed.

Lemma next_is_auto pos l st vs v : run_prf sha rand fuel (new_prf pos) l = Ok (st, vs) ->
  ((exists st', generate_next sha rand fuel st = Ok (st', v)) <->
   (exists st', generate_auto sha rand fuel st (nexts l mod 2 ^ 64) 0 = Ok (st', v))).
Proof.
  intros E. destruct (run_index l _ _ _ E) as [I _]; [cbn; lia|]. cbn [new_prf p_autoIndex] in I. rewrite Z.add_0_l in I.
  rewrite generate_next_index, I.
  destruct (generate_auto sha rand fuel st (nexts l mod 2 ^ 64) 0) as [[s w]| | | |]; cbn [bind].
  - split; intros [st' X]; apply Ok_inj in X; injection X as _ ->; eexists; reflexivity.
  - split; intros [st' X]; discriminate.
  - split; intros [st' X]; discriminate.
  - split; intros [st' X]; discriminate.
  - split; intros [st' X]; discriminate.
Qed.

Lemma run_unseeded : forall l st st' vs, run_prf sha rand fuel st l = Ok (st', vs) ->
  p_autoSeed st = None -> ~ Exists seedless l -> p_autoSeed st' = None.
Proof.
  induction l as [|c l IH]; intros st st' vs E A N.
  - cbn [run_prf] in E. apply Ok_inj in E. injection E as <- _. exact A.
  - cbn [run_prf] in E.
    destruct (exec_call sha rand fuel st c) as [[st1 v]| | | |] eqn:E1; try discriminate. cbn [bind] in E.
    destruct (run_prf sha rand fuel st1 l) as [[st2 vs']| | | |] eqn:E2; try discriminate. cbn [bind] in E.
    apply Ok_inj in E. injection E as <- _. apply (IH st1 st2 vs' E2); [|intros X; apply N; right; exact X].
    destruct c as [s i b|i b|]; [|exfalso; apply N; left; exact I|exfalso; apply N; left; exact I].
    cbn [exec_call] in E1. destruct (generate_keeps _ _ _ _ _ _ E1) as [_ K]. rewrite K. exact A.
Qed.

Lemma exec_seed st c st' v : exec_call sha rand fuel st c = Ok (st', v) -> seedless c -> p_autoSeed st = None ->
  p_autoSeed st' = Some (rand (p_pos st)).
Proof.
  destruct c as [s i b|i b|]; cbn [exec_call seedless]; intros E X A; [contradiction| |].
  - destruct (generate_auto_keeps _ _ _ _ _ E) as [_ K]. rewrite A in K. exact K.
  - rewrite generate_next_index in E. apply bind_ok in E. destruct E as [[s0 v0] [E1 E3]].
    apply Ok_inj in E3. injection E3 as <- _. destruct (generate_auto_keeps _ _ _ _ _ E1) as [_ K].
    cbn [with_index p_autoSeed]. rewrite A in K. exact K.
Qed.

Lemma seed_kept pos l1 st1 vs1 c st2 v2 : run_prf sha rand fuel (new_prf pos) l1 = Ok (st1, vs1) -> ~ Exists seedless l1 ->
  seedless c -> exec_call sha rand fuel st1 c = Ok (st2, v2) ->
  forall l3 st3 vs3 index bits, run_prf sha rand fuel st2 l3 = Ok (st3, vs3) ->
    generate_auto sha rand fuel st3 index bits = generate sha rand fuel st3 (rand (p_pos st1)) index bits.
Proof.
  intros E1 N Hc E2 l3 st3 vs3 index bits E3.
  pose proof (run_unseeded l1 _ _ _ E1 eq_refl N) as A.
  pose proof (exec_seed st1 c st2 v2 E2 Hc A) as A2.
  assert (B : 0 <= p_autoIndex st2 < 2 ^ 64).
  { assert (E : run_prf sha rand fuel st1 [c] = Ok (st2, [v2])) by (cbn [run_prf]; rewrite E2; reflexivity).
    apply (run_index [c] st1 st2 [v2] E). apply (run_index l1 _ _ _ E1). cbn; lia. }
  destruct (run_index l3 _ _ _ E3 B) as [_ [_ [K _]]].
  unfold generate_auto. rewrite (K _ A2). reflexivity.
Qed.
End N.
