From Coq Require Import Lia Permutation.
From Verif Require Import Base Spec Lib NtlMiss NtlMissProofs MurmurModel ShaModel ShaSpec ShaProofs.

Lemma NoDup_app_remove_l {A} (l l' : list A) : NoDup (l ++ l') -> NoDup l'.
Proof. induction l as [|a l IH]; cbn [app]; intros H; [exact H|]. inversion H; subst. apply IH. assumption. Qed.
Lemma nth_error_repeat {A} (x : A) n i : (i < n)%nat -> nth_error (repeat x n) i = Some x.
Proof. revert i; induction n as [|n IH]; intros [|i] H; cbn; try lia; [reflexivity|apply IH; lia]. Qed.
(** * Ownership: the live blocks beyond [h0] are exactly those in [ps] *)
Definition owns (h0 h : heap) (ps : list nat) : Prop :=
  NoDup ps /\ (length h0 <= length h)%nat /\
  (forall p, In p ps -> (length h0 <= p)%nat /\ exists b, nth_error h p = Some b /\ b <> Gone) /\
  (forall i, (i < length h0)%nat -> nth_error h i = nth_error h0 i) /\
  (forall i, (length h0 <= i < length h)%nat -> ~ In i ps -> nth_error h i = Some Gone).

Lemma owns_free h0 h l1 p l2 : owns h0 h (l1 ++ p :: l2) ->
  free h (Some p) = Ok (upd h p Gone) /\ owns h0 (upd h p Gone) (l1 ++ l2) /\
  (forall q, q <> p -> nth_error (upd h p Gone) q = nth_error h q).
Proof.
  intros [N [L [B [O G]]]].
  destruct (B p) as [P [b [Eb Nb]]]; [apply in_or_app; right; left; reflexivity|].
  assert (F : forall q, q <> p -> nth_error (upd h p Gone) q = nth_error h q).
  { intros q Q. rewrite upd_nth. destruct (Nat.eqb_spec q p); [contradiction|reflexivity]. }
  split; [|split; [|exact F]].
  - unfold free. rewrite Eb. destruct b; congruence.
  - apply NoDup_remove in N. destruct N as [N1 N2].
    split; [exact N1|]. split; [rewrite upd_length; exact L|]. split; [|split].
    + intros q Hq. assert (q <> p) by (intros ->; contradiction).
      destruct (B q) as [A [c C]]; [apply in_app_or in Hq; apply in_or_app; cbn; tauto|].
      split; [exact A|]. exists c. rewrite F by assumption. exact C.
    + intros i Hi. rewrite F by lia. apply O; exact Hi.
    + intros i Hi NI. rewrite upd_length in Hi. destruct (Nat.eq_dec i p) as [->|Q].
      * rewrite upd_nth, Nat.eqb_refl, Eb. reflexivity.
      * rewrite F by assumption. apply G; [exact Hi|].
        intros I. apply NI. apply in_app_or in I. apply in_or_app. cbn in I. destruct I as [I|[I|I]]; auto. congruence.
Qed.
Lemma owns_alloc h0 h b l1 l2 : owns h0 h (l1 ++ l2) -> b <> Gone ->
  owns h0 (h ++ [b]) (l1 ++ length h :: l2) /\ nth_error (h ++ [b]) (length h) = Some b /\
  (forall q, In q (l1 ++ l2) -> nth_error (h ++ [b]) q = nth_error h q).
Proof.
  intros [N [L [B [O G]]]] Nb.
  assert (LT : forall q, In q (l1 ++ l2) -> (q < length h)%nat).
  { intros q Hq. destruct (B q Hq) as [_ [c [C _]]]. apply nth_error_Some. congruence. }
  assert (NI : ~ In (length h) (l1 ++ l2)) by (intros I; specialize (LT _ I); lia).
  split; [|split].
  - split.
    + apply (Permutation.Permutation_NoDup (l := length h :: l1 ++ l2)); [apply Permutation.Permutation_middle|].
      constructor; assumption.
    + split; [rewrite app_length; lia|]. split; [|split].
      * intros q Hq. assert (Q : q = length h \/ In q (l1 ++ l2)).
        { apply in_app_or in Hq. destruct Hq as [Hq|[Hq|Hq]]; [right; apply in_or_app; auto|left; auto|right; apply in_or_app; auto]. }
        destruct Q as [->|Q].
        -- split; [exact L|]. exists b. split; [apply (nth_error_mid h [] b)|exact Nb].
        -- destruct (B q Q) as [A [c [C1 C2]]]. split; [exact A|]. exists c.
           rewrite nth_error_app1 by auto. auto.
      * intros i Hi. rewrite nth_error_app1 by lia. auto.
      * intros i Hi NI2. rewrite app_length in Hi. cbn [length] in Hi.
        assert (i <> length h) by (intros ->; apply NI2; apply in_or_app; right; left; reflexivity).
        rewrite nth_error_app1 by lia. apply G; [lia|].
        intros I. apply NI2. apply in_app_or in I. apply in_or_app. cbn. tauto.
  - apply (nth_error_mid h [] b).
  - intros q Hq. apply nth_error_app1. auto.
Qed.
Lemma owns_upd h0 h ps p b : owns h0 h ps -> In p ps -> b <> Gone ->
  owns h0 (upd h p b) ps /\ nth_error (upd h p b) p = Some b /\
  (forall q, q <> p -> nth_error (upd h p b) q = nth_error h q).
Proof.
  intros [N [L [B [O G]]]] I Nb.
  destruct (B p I) as [P [c [Ec _]]].
  assert (F : forall q, q <> p -> nth_error (upd h p b) q = nth_error h q).
  { intros q Q. rewrite upd_nth. destruct (Nat.eqb_spec q p); [contradiction|reflexivity]. }
  assert (E : nth_error (upd h p b) p = Some b) by (rewrite upd_nth, Nat.eqb_refl, Ec; reflexivity).
  split; [|split; [exact E|exact F]].
  split; [exact N|]. split; [rewrite upd_length; exact L|]. split; [|split].
  - intros q Hq. destruct (Nat.eq_dec q p) as [->|Q]; [split; [exact P|exists b; auto]|].
    rewrite F by assumption. auto.
  - intros i Hi. rewrite F by lia. auto.
  - intros i Hi NI. rewrite upd_length in Hi. rewrite F by (intros ->; contradiction). auto.
Qed.
Lemma owns_nil h0 h : owns h0 h [] -> all_returned h0 h.
Proof.
  intros [_ [L [_ [O G]]]]. exists (length h - length h0)%nat.
  apply nth_ext_error. intros i.
  destruct (Nat.lt_ge_cases i (length h0)) as [A|A].
  - rewrite nth_error_app1 by lia. auto.
  - rewrite nth_error_app2 by lia. destruct (Nat.lt_ge_cases i (length h)) as [C|C].
    + rewrite G by (auto; lia). symmetry. apply nth_error_repeat. lia.
    + rewrite (proj2 (nth_error_None h i)) by lia. symmetry. apply nth_error_None. rewrite repeat_length. lia.
Qed.
Lemma owns_start h : owns h h [].
Proof. repeat split; auto; try constructor; try contradiction. intros i Hi. lia. Qed.

Definition opt (p : ptr) : list nat := match p with Some a => [a] | None => [] end.
Definition sha_ptrs (o : sha_obj) : list nat := opt (so_sha o) ++ opt (so_last o).
Definition buf (h : heap) (p : ptr) (l : Z) : Prop :=
  match p with None => l = 0 | Some a => exists cells, nth_error h a = Some (Arr cells) /\ Z.of_nat (length cells) = l end.
Lemma live_frame h h1 o : live_sha h o -> (forall q, In q (sha_ptrs o) -> nth_error h1 q = nth_error h q) -> live_sha h1 o.
Proof.
  intros [a [b [cells [E1 [E2 [N [A [B C]]]]]]]] F. exists a, b, cells.
  assert (I1 : In a (sha_ptrs o)) by (unfold sha_ptrs; rewrite E1; left; reflexivity).
  assert (I2 : In b (sha_ptrs o)) by (unfold sha_ptrs; rewrite E1, E2; right; left; reflexivity).
  rewrite !F by assumption. auto 10.
Qed.
Lemma buf_frame h h1 p l : buf h p l -> (forall q, In q (opt p) -> nth_error h1 q = nth_error h q) -> buf h1 p l.
Proof.
  unfold buf. destruct p as [a|]; [|auto]. intros [cells [E L]] F. exists cells.
  rewrite F by (left; reflexivity). auto.
Qed.
Lemma free_opt h0 h l1 p l2 : owns h0 h (l1 ++ opt p ++ l2) ->
  exists h1, free h p = Ok h1 /\ owns h0 h1 (l1 ++ l2) /\
    (forall q, ~ In q (opt p) -> nth_error h1 q = nth_error h q).
Proof.
  destruct p as [a|]; cbn [opt app]; intros O.
  - destruct (owns_free _ _ _ _ _ O) as [E [O1 F]]. exists (upd h a Gone). split; [exact E|]. split; [exact O1|].
    intros q Q. apply F. intros ->. apply Q. left; reflexivity.
  - exists h. cbn [free]. auto.
Qed.

Record gen_inv (h0 h : heap) (g : gen_obj) : Prop := {
  gi_base : live_sha h (g_base g);
  gi_hash : live_sha h (g_hash g);
  gi_fl : so_flavour (g_hash g) = 0;
  gi_owns : owns h0 h (opt (g_gen g) ++ opt (g_hashInput g) ++ sha_ptrs (g_hash g) ++ sha_ptrs (g_base g));
  gi_gen : buf h (g_gen g) (g_genLength g);
  gi_hin : buf h (g_hashInput g) (g_hashInputSize g)
}.

Lemma new_gen_inv h0 : exists h g, new_gen h0 = Ok (h, g) /\ gen_inv h0 h g.
Proof.
  unfold new_gen, SHA1_FLAVOUR. rewrite new_sha_eq. cbn [bind]. rewrite new_sha_eq. cbn [bind].
  eexists _, _. split; [reflexivity|].
  assert (O : owns h0 (built (built h0 0) 0)
                (sha_ptrs (sha_at (length (built h0 0)) 0) ++ sha_ptrs (sha_at (length h0) 0))).
  { unfold built at 1. set (h1 := built h0 0). change (0 =? 256) with false. cbv iota.
    assert (O1 : owns h0 h1 (sha_ptrs (sha_at (length h0) 0))).
    { unfold h1, built. change (0 =? 256) with false. cbv iota.
      destruct (owns_alloc h0 h0 (Hasher KSha1) [] [] (owns_start h0)) as [A1 _]; [discriminate|].
      destruct (owns_alloc h0 _ (Arr (repeat None (Z.to_nat (digest_len 0)))) [length h0] [] A1) as [A2 _]; [discriminate|].
      rewrite app_length in A2. cbn [length app] in A2. rewrite Nat.add_1_r in A2.
      rewrite <- app_assoc in A2. exact A2. }
    destruct (owns_alloc h0 h1 (Hasher KSha1) [] _ O1) as [A1 _]; [discriminate|].
    destruct (owns_alloc h0 _ (Arr (repeat None (Z.to_nat (digest_len 0)))) [length h1] _ A1) as [A2 _]; [discriminate|].
    rewrite app_length in A2. cbn [length app] in A2. rewrite Nat.add_1_r in A2.
    rewrite <- app_assoc in A2. exact A2. }
  constructor; cbn [g_base g_hash g_gen g_hashInput g_genLength g_hashInputSize opt app buf]; auto.
  - apply (live_frame (built h0 0)); [apply new_sha_live|].
    intros q Q. unfold built at 1. apply nth_error_app1.
    unfold sha_ptrs, sha_at in Q. cbn in Q. unfold built. rewrite app_length. cbn [length]. lia.
  - apply new_sha_live.
Qed.

Lemma read_arr_prefix h b bs rest : nth_error h b = Some (Arr (map Some bs ++ rest)) ->
  read_bytes h (Some b) (length bs) = Ok bs.
Proof.
  intros E. unfold read_bytes. rewrite E.
  rewrite (mapM_ok _ (fun i => nth i bs 0)).
  - f_equal. apply (nth_ext _ _ 0 0).
    + rewrite map_length, seq_length. reflexivity.
    + intros i Hi. rewrite map_length, seq_length in Hi.
      rewrite (nth_indep _ 0 (nth 0 bs 0)) by (rewrite map_length, seq_length; lia).
      rewrite (map_nth (fun i => nth i bs 0) (seq 0 (length bs)) 0%nat i), seq_nth by lia. reflexivity.
  - intros i Hi. apply in_seq in Hi.
    rewrite (aget_nth (Some 0)) by (rewrite app_length, map_length; lia). cbn [bind].
    rewrite app_nth1 by (rewrite map_length; lia).
    rewrite (map_nth Some). reflexivity.
Qed.
Lemma write_ok h b cells bs : nth_error h b = Some (Arr cells) -> (length bs <= length cells)%nat ->
  write_bytes h (Some b) bs = Ok (upd h b (Arr (map Some bs ++ skipn (length bs) cells))).
Proof. intros E L. unfold write_bytes. rewrite E. destruct (Nat.leb_spec (length bs) (length cells)); [reflexivity|lia]. Qed.
Lemma NoDup_app_disj {A} (l1 l2 : list A) x : NoDup (l1 ++ l2) -> In x l1 -> ~ In x l2.
Proof.
  induction l1 as [|a l1 IH]; cbn; intros N I; [contradiction|].
  inversion N; subst. destruct I as [->|I]; [intros J; apply H1; apply in_or_app; auto|auto].
Qed.
Lemma NoDup_app_disj' {A} (l1 l2 : list A) x : NoDup (l1 ++ l2) -> In x l2 -> ~ In x l1.
Proof. intros N I J. exact (NoDup_app_disj _ _ _ N J I). Qed.

Section Dig.
Variable dig : kind -> list Z -> list Z.
Hypothesis HD : digest_sizes dig.

Lemma gen_use_inv h0 h g n i : gen_inv h0 h g -> use_ok (n, i) ->
  exists h1 g1, gen_use dig h g n i = Ok (h1, g1) /\ gen_inv h0 h1 g1.
Proof.
  intros [LB LH FL O BG BH] [Hn Hi]. cbn [fst snd] in Hn, Hi.
  set (S4 := sha_ptrs (g_hash g) ++ sha_ptrs (g_base g)) in *.
  (* first reallocation *)
  assert (ST1 : exists h1 a cells gl,
    (if g_genLength g <? n then
       do h1 <- free h (g_gen g);
       let '(h2, p) := alloc h1 (Arr (repeat None (Z.to_nat n))) in Ok (h2, p, n)
     else Ok (h, g_gen g, g_genLength g)) = Ok (h1, Some a, gl) /\
    n <= gl /\ nth_error h1 a = Some (Arr cells) /\ Z.of_nat (length cells) = gl /\
    owns h0 h1 ([a] ++ opt (g_hashInput g) ++ S4) /\
    (forall q, In q (opt (g_hashInput g) ++ S4) -> nth_error h1 q = nth_error h q)).
  { destruct (Z.ltb_spec (g_genLength g) n) as [Lt|Ge].
    - destruct (free_opt h0 h [] (g_gen g) _ O) as [h1 [E [O1 F]]]. rewrite E. cbn [bind alloc].
      destruct (owns_alloc h0 h1 (Arr (repeat None (Z.to_nat n))) [] _ O1) as [A [B C]]; [discriminate|].
      eexists _, _, _, _. split; [reflexivity|]. split; [lia|]. split; [exact B|].
      split; [rewrite repeat_length; lia|]. split; [exact A|].
      intros q Q. rewrite C by exact Q. apply F.
      destruct O as [N _]. exact (NoDup_app_disj' _ _ _ N Q).
    - destruct (g_gen g) as [a|] eqn:EG; cbn [buf] in BG; [|lia].
      destruct BG as [cells [E L]].
      exists h, a, cells, (g_genLength g). split; [reflexivity|]. split; [lia|]. split; [exact E|]. split; [exact L|].
      split; [exact O|]. reflexivity. }
  destruct ST1 as [h1 [a [cells [gl [E1 [Ln [Ea [La [O1 F1]]]]]]]]].
  unfold gen_use. cbn zeta. rewrite E1. cbn [bind].
  assert (HS : hashSize (g_hash g) = 20).
  { unfold hashSize. rewrite (live_size _ _ LH). rewrite FL. reflexivity. }
  rewrite HS.
  set (len := Z.of_nat (length i)) in *.
  assert (ST2 : exists h2 b cells2 hl,
    (if g_hashInputSize g <? len then
       do h1' <- free h1 (g_hashInput g);
       let sz := if len <? 20 then 20 else len in
       let '(h2, p) := alloc h1' (Arr (repeat None (Z.to_nat sz))) in Ok (h2, p, sz)
     else Ok (h1, g_hashInput g, g_hashInputSize g)) = Ok (h2, Some b, hl) /\
    len <= hl /\ nth_error h2 b = Some (Arr cells2) /\ Z.of_nat (length cells2) = hl /\
    owns h0 h2 ([a] ++ [b] ++ S4) /\
    (forall q, In q ([a] ++ S4) -> nth_error h2 q = nth_error h1 q)).
  { destruct (Z.ltb_spec (g_hashInputSize g) len) as [Lt|Ge].
    - destruct (free_opt h0 h1 [a] (g_hashInput g) S4 O1) as [h2 [E [O2 F]]]. rewrite E. cbn zeta. cbn [bind alloc].
      set (sz := if len <? 20 then 20 else len). assert (len <= sz /\ 0 < sz) by (unfold sz, len; destruct (Z.ltb_spec (Z.of_nat (length i)) 20); lia).
      destruct (owns_alloc h0 h2 (Arr (repeat None (Z.to_nat sz))) [a] S4 O2) as [A [B C]]; [discriminate|].
      eexists _, _, _, _. split; [reflexivity|]. split; [lia|]. split; [exact B|].
      split; [rewrite repeat_length; lia|]. split; [exact A|].
      intros q Q. rewrite C by exact Q. apply F.
      destruct O1 as [N _]. cbn [app] in Q. destruct Q as [<-|Q].
      + apply (NoDup_app_disj [a]) with (x := a) in N; [|left; reflexivity].
        intros J. apply N. apply in_or_app. auto.
      + apply NoDup_app_remove_l in N. exact (NoDup_app_disj' _ _ _ N Q).
    - destruct (g_hashInput g) as [b|] eqn:EG; cbn [buf] in BH; [|unfold len in *; lia].
      destruct BH as [cells2 [E L]].
      exists h1, b, cells2, (g_hashInputSize g). split; [reflexivity|]. split; [lia|].
      split; [rewrite F1; [exact E|left; reflexivity]|]. split; [exact L|]. split; [exact O1|]. reflexivity. }
  destruct ST2 as [h2 [b [cells2 [hl [E2 [Ll [Eb [Lb [O2 F2]]]]]]]]].
  cbn zeta in E2. rewrite E2. cbn [bind].
  assert (N2 := proj1 O2). cbn [app] in N2.
  assert (AB : a <> b) by (inversion N2; subst; cbn in H1; intuition congruence).
  assert (AS : ~ In a S4) by (inversion N2; subst; cbn in H1; tauto).
  assert (BS : ~ In b S4) by (inversion N2; subst; inversion H2; subst; assumption).
  rewrite (write_ok h2 b cells2 i Eb) by (unfold len in *; lia). cbn [bind].
  set (C3 := Arr (map Some i ++ skipn (length i) cells2)).
  destruct (owns_upd h0 h2 _ b C3 O2) as [O3 [Eb3 F3]]; [right; left; reflexivity|discriminate|].
  set (h3 := upd h2 b C3) in *.
  assert (IS : forall q, In q S4 -> nth_error h3 q = nth_error h q).
  { intros q Q. rewrite F3 by (intros ->; contradiction). rewrite F2 by (right; exact Q).
    apply F1. apply in_or_app. auto. }
  assert (LH3 : live_sha h3 (g_hash g)).
  { apply (live_frame h); [exact LH|]. intros q Q. apply IS. apply in_or_app. auto. }
  assert (LB3 : live_sha h3 (g_base g)).
  { apply (live_frame h); [exact LB|]. intros q Q. apply IS. apply in_or_app. auto. }
  assert (RD := read_arr_prefix h3 b i _ Eb3).
  unfold hash_bytes at 1. destruct (Nat.eqb_spec (length i) 0); [lia|]. rewrite RD. cbn [bind].
  destruct (calc_ok dig HD h3 (g_hash g) i LH3) as [l [El [Ec [LH4 Er]]]].
  rewrite Ec. cbn [bind].
  set (D := digest_of dig (so_flavour (g_hash g)) i) in *.
  assert (IL : In l S4).
  { unfold S4, sha_ptrs. rewrite El. apply in_or_app. left. apply in_or_app. right. left. reflexivity. }
  destruct (owns_upd h0 h3 _ l (Arr (map Some D)) O3) as [O4 [El4 F4]]; [right; right; exact IL|discriminate|].
  set (h4 := upd h3 l (Arr (map Some D))) in *.
  assert (LD : length D = 20%nat) by (unfold D; rewrite digest_of_length by exact HD; rewrite FL; reflexivity).
  set (k := if n <? 20 then n else 20).
  assert (K : 0 < k <= 20 /\ k <= n) by (unfold k; destruct (Z.ltb_spec n 20); lia).
  rewrite El. rewrite (read_arr h4 l D (Z.to_nat k) El4) by lia. cbn [bind].
  assert (AL : a <> l) by (intros ->; contradiction).
  assert (BL : b <> l) by (intros ->; contradiction).
  assert (Ea4 : nth_error h4 a = Some (Arr cells)).
  { rewrite F4 by assumption. rewrite F3 by assumption. rewrite F2 by (left; reflexivity). exact Ea. }
  rewrite (write_ok h4 a cells (firstn (Z.to_nat k) D) Ea4) by (rewrite firstn_length_le; lia). cbn [bind].
  set (C5 := Arr (map Some (firstn (Z.to_nat k) D) ++ skipn (length (firstn (Z.to_nat k) D)) cells)).
  destruct (owns_upd h0 h4 _ a C5 O4) as [O5 [Ea5 F5]]; [left; reflexivity|discriminate|].
  eexists _, _. split; [reflexivity|].
  constructor; cbn [g_base g_hash g_gen g_hashInput g_genLength g_hashInputSize opt buf]; auto.
  - apply (live_frame h3); [exact LB3|]. intros q Q.
    assert (In q S4) by (apply in_or_app; auto).
    rewrite F5 by (intros ->; contradiction). apply F4.
    (* the base's pointers differ from the digest array of the derived object *)
    intros ->. apply NoDup_app_remove_l with (l := [a; b]) in N2. unfold S4 in N2.
    apply (NoDup_app_disj _ _ l) in N2; [contradiction|].
    unfold sha_ptrs. rewrite El. apply in_or_app. right. left. reflexivity.
  - apply (live_frame h4); [exact LH4|]. intros q Q. apply F5. intros ->. apply AS. apply in_or_app. auto.
  - exists (map Some (firstn (Z.to_nat k) D) ++ skipn (length (firstn (Z.to_nat k) D)) cells).
    split; [exact Ea5|].
    rewrite app_length, map_length, skipn_length, firstn_length_le by lia. lia.
  - exists (map Some i ++ skipn (length i) cells2). split.
    + rewrite F5 by auto. rewrite F4 by auto. exact Eb3.
    + rewrite app_length, map_length, skipn_length. lia.
Qed.

Lemma gen_uses_inv us : forall h0 h g, gen_inv h0 h g -> Forall use_ok us ->
  exists h1 g1, gen_uses dig h g us = Ok (h1, g1) /\ gen_inv h0 h1 g1.
Proof.
  induction us as [|[n i] us IH]; intros h0 h g I F; cbn [gen_uses]; [eauto|].
  inversion F; subst. destruct (gen_use_inv h0 h g n i I H1) as [h1 [g1 [E I1]]].
  rewrite E. cbn [bind]. eauto.
Qed.
End Dig.

Lemma destroy_gen_ok h0 h g : gen_inv h0 h g -> exists h1, destroy_gen h g = Ok h1 /\ all_returned h0 h1.
Proof.
  intros [LB LH FL O BG BH]. unfold destroy_gen, destroy_sha, sha_ptrs in *.
  destruct (free_opt h0 h [] _ _ O) as [h1 [E1 [O1 _]]]. rewrite E1. cbn [bind app] in *.
  destruct (free_opt h0 h1 [] _ _ O1) as [h2 [E2 [O2 _]]]. rewrite E2. cbn [bind app] in *.
  rewrite <- app_assoc in O2.
  destruct (free_opt h0 h2 [] _ _ O2) as [h3 [E3 [O3 _]]]. rewrite E3. cbn [bind app] in *.
  destruct (free_opt h0 h3 [] _ _ O3) as [h4 [E4 [O4 _]]]. rewrite E4. cbn [bind app] in *.
  destruct (free_opt h0 h4 [] _ _ O4) as [h5 [E5 [O5 _]]]. rewrite E5. cbn [bind app] in *.
  rewrite <- (app_nil_r (opt (so_last (g_base g)))) in O5.
  destruct (free_opt h0 h5 [] _ _ O5) as [h6 [E6 [O6 _]]]. rewrite E6.
  exists h6. split; [reflexivity|]. apply owns_nil. exact O6.
Qed.

Lemma gen_life_l dig h0 us : digest_sizes dig -> Forall use_ok us ->
  exists h g h1 g1 h2, new_gen h0 = Ok (h, g) /\ gen_uses dig h g us = Ok (h1, g1) /\
    destroy_gen h1 g1 = Ok h2 /\ all_returned h0 h2.
Proof.
  intros HD F. destruct (new_gen_inv h0) as [h [g [E I]]].
  destruct (gen_uses_inv dig HD us h0 h g I F) as [h1 [g1 [E1 I1]]].
  destruct (destroy_gen_ok h0 h1 g1 I1) as [h2 [E2 A]].
  exists h, g, h1, g1, h2. auto.
Qed.

(** * Deleted blocks stay deleted *)
Definition gone (h : heap) (p : ptr) : Prop := exists a, p = Some a /\ nth_error h a = Some Gone.
Lemma free_gone h p h1 q : free h p = Ok h1 -> gone h q -> gone h1 q.
Proof.
  intros E [a [-> A]]. exists a. split; [reflexivity|]. destruct p as [b|]; cbn [free] in E; [|inversion E; subst; exact A].
  destruct (nth_error h b) as [[]|] eqn:Eb; inversion E; subst; rewrite upd_nth; destruct (Nat.eqb_spec a b); auto; subst; rewrite Eb; reflexivity.
Qed.
Lemma free_makes_gone h p h1 : free h p = Ok h1 -> p <> None -> gone h1 p.
Proof.
  intros E N. destruct p as [b|]; [|congruence]. exists b. split; [reflexivity|]. cbn [free] in E.
  destruct (nth_error h b) as [[]|] eqn:Eb; inversion E; subst; rewrite upd_nth, Nat.eqb_refl, Eb; reflexivity.
Qed.
Lemma free_of_gone h p : gone h p -> free h p = UB Dangling.
Proof. intros [a [-> A]]. cbn [free]. rewrite A. reflexivity. Qed.
Lemma alloc_gone h b h1 p q : alloc h b = (h1, p) -> gone h q -> gone h1 q.
Proof.
  intros E [a [-> A]]. inversion E; subst. exists a. split; [reflexivity|].
  rewrite nth_error_app1; [exact A|]. apply nth_error_Some. congruence.
Qed.
Lemma write_gone h p bs h1 q : write_bytes h p bs = Ok h1 -> gone h q -> gone h1 q.
Proof.
  unfold write_bytes. intros E [a [-> A]]. exists a. split; [reflexivity|]. destruct p as [b|]; [|discriminate].
  destruct (nth_error h b) as [[]|] eqn:Eb; try discriminate.
  destruct (Nat.leb _ _); inversion E; subst. rewrite upd_nth. destruct (Nat.eqb_spec a b); [congruence|exact A].
Qed.
Lemma calc_gone dig h o m h1 q : calculateDigest dig h o m = Ok h1 -> gone h q -> gone h1 q.
Proof.
  unfold calculateDigest. destruct (so_sha o); [|discriminate]. destruct (nth_error h n) as [[]|]; try discriminate.
  apply write_gone.
Qed.
Lemma hash_bytes_gone dig h o p len h1 r q : hash_bytes dig h o p len = Ok (h1, r) -> gone h q -> gone h1 q.
Proof.
  unfold hash_bytes. destruct p as [a|]; [|intros E; inversion E; subst; auto].
  destruct (Nat.eqb len 0); [intros E; inversion E; subst; auto|].
  intros E. apply bind_ok in E. destruct E as [m [_ E]]. apply bind_ok in E. destruct E as [h2 [E2 E]].
  inversion E; subst. eapply calc_gone; exact E2.
Qed.
Lemma gen_use_gone dig h g n i h1 g1 q : gen_use dig h g n i = Ok (h1, g1) ->
  (gone h q -> gone h1 q) /\ g_hash g1 = g_hash g /\ g_base g1 = g_base g.
Proof.
  intros E. unfold gen_use in E. cbn zeta in E.
  apply bind_ok in E. destruct E as [[[h2 gp] gl] [E2 E]].
  apply bind_ok in E. destruct E as [[[h3 hp] hl] [E3 E]].
  apply bind_ok in E. destruct E as [h4 [E4 E]].
  apply bind_ok in E. destruct E as [[h5 d] [E5 E]].
  apply bind_ok in E. destruct E as [bs [_ E]].
  apply bind_ok in E. destruct E as [h6 [E6 E]].
  inversion E; subst. split; [|split; reflexivity].
  intros G.
  assert (G2 : gone h2 q).
  { destruct (g_genLength g <? n); [|inversion E2; subst; exact G].
    apply bind_ok in E2. destruct E2 as [h7 [E7 E2]]. destruct (alloc h7 _) as [h8 p8] eqn:A8.
    inversion E2; subst. eapply alloc_gone; [exact A8|]. eapply free_gone; [exact E7|exact G]. }
  assert (G3 : gone h3 q).
  { destruct (g_hashInputSize g <? Z.of_nat (length i)); [|inversion E3; subst; exact G2].
    apply bind_ok in E3. destruct E3 as [h7 [E7 E3]]. destruct (alloc h7 _) as [h8 p8] eqn:A8.
    inversion E3; subst. eapply alloc_gone; [exact A8|]. eapply free_gone; [exact E7|exact G2]. }
  eapply write_gone; [exact E6|]. eapply hash_bytes_gone; [exact E5|]. eapply write_gone; [exact E4|exact G3].
Qed.
Lemma pair_ops_hash dig ops : forall h a z h1 a1 z1, pair_ops dig h a z ops = Ok (h1, a1, z1) ->
  g_hash a1 = g_hash a /\ g_hash (zg_prf z1) = g_hash (zg_prf z).
Proof.
  induction ops as [|[n i|n i] ops IH]; intros h a z h1 a1 z1 E; cbn [pair_ops] in E.
  - inversion E; subst; auto.
  - apply bind_ok in E. destruct E as [[h2 g2] [E2 E]]. destruct (gen_use_gone _ _ _ _ _ _ _ None E2) as [_ [H _]].
    destruct (IH _ _ _ _ _ _ E). split; congruence.
  - apply bind_ok in E. destruct E as [[h2 g2] [E2 E]]. destruct (gen_use_gone _ _ _ _ _ _ _ None E2) as [_ [H _]].
    destruct (IH _ _ _ _ _ _ E) as [A B]. cbn [zg_prf] in B. split; congruence.
Qed.
Lemma destroy_sha_gone h o h1 q : destroy_sha h o = Ok h1 -> gone h q -> gone h1 q.
Proof.
  unfold destroy_sha. intros E G. apply bind_ok in E. destruct E as [h2 [E2 E]].
  eapply free_gone; [exact E|]. eapply free_gone; [exact E2|exact G].
Qed.
Lemma destroy_gen_gone h g h1 : destroy_gen h g = Ok h1 -> so_sha (g_hash g) <> None -> gone h1 (so_sha (g_hash g)).
Proof.
  unfold destroy_gen. intros E N. apply bind_ok in E. destruct E as [h2 [E2 E]].
  apply bind_ok in E. destruct E as [h3 [E3 E]]. apply bind_ok in E. destruct E as [h4 [E4 E]].
  eapply destroy_sha_gone; [exact E|]. unfold destroy_sha in E4. apply bind_ok in E4. destruct E4 as [h5 [E5 E4]].
  eapply free_gone; [exact E4|]. eapply free_makes_gone; [exact E5|exact N].
Qed.

(** everything in this file returns normally or is undefined *)
Definition ok_or_ub {A} (r : res A) : Prop := (exists a, r = Ok a) \/ (exists w, r = UB w).
Lemma bind_ok_or_ub {A B} (r : res A) (f : A -> res B) :
  ok_or_ub r -> (forall a, r = Ok a -> ok_or_ub (f a)) -> ok_or_ub (bind r f).
Proof. intros [[a ->]|[w ->]] H; cbn [bind]; [apply H; reflexivity|right; eauto]. Qed.
Lemma ok_or_ub_ok {A} (a : A) : ok_or_ub (Ok a). Proof. left; eauto. Qed.
Lemma ok_or_ub_ub {A} w : ok_or_ub (@UB A w). Proof. right; eauto. Qed.
Lemma free_total h p : ok_or_ub (free h p).
Proof. destruct p as [a|]; cbn [free]; [|apply ok_or_ub_ok]. destruct (nth_error h a) as [[]|]; auto using ok_or_ub_ok, @ok_or_ub_ub. Qed.
Lemma mapM_total {A B} (f : A -> res B) l : (forall a, In a l -> ok_or_ub (f a)) -> ok_or_ub (mapM f l).
Proof.
  induction l as [|a l IH]; intros H; cbn [mapM]; [apply ok_or_ub_ok|].
  apply bind_ok_or_ub; [apply H; left; reflexivity|]. intros b _.
  apply bind_ok_or_ub; [apply IH; intros; apply H; right; assumption|]. intros; apply ok_or_ub_ok.
Qed.
Lemma read_total h p n : ok_or_ub (read_bytes h p n).
Proof.
  unfold read_bytes. destruct p as [a|]; [|apply ok_or_ub_ub].
  destruct (nth_error h a) as [[]|]; try apply ok_or_ub_ub.
  apply mapM_total. intros i _. apply bind_ok_or_ub.
  - unfold aget. destruct (nth_error cells i); auto using ok_or_ub_ok, @ok_or_ub_ub.
  - intros c _. destruct c; auto using ok_or_ub_ok, @ok_or_ub_ub.
Qed.
Lemma write_total h p bs : ok_or_ub (write_bytes h p bs).
Proof.
  unfold write_bytes. destruct p as [a|]; [|apply ok_or_ub_ub].
  destruct (nth_error h a) as [[]|]; try apply ok_or_ub_ub. destruct (Nat.leb _ _); auto using ok_or_ub_ok, @ok_or_ub_ub.
Qed.
Lemma calc_total dig h o m : ok_or_ub (calculateDigest dig h o m).
Proof.
  unfold calculateDigest. destruct (so_sha o) as [a|]; [|apply ok_or_ub_ub].
  destruct (nth_error h a) as [[]|]; try apply ok_or_ub_ub. apply write_total.
Qed.
Lemma hash_bytes_total dig h o p n : ok_or_ub (hash_bytes dig h o p n).
Proof.
  unfold hash_bytes. destruct p; [|apply ok_or_ub_ok]. destruct (Nat.eqb n 0); [apply ok_or_ub_ok|].
  apply bind_ok_or_ub; [apply read_total|]. intros. apply bind_ok_or_ub; [apply calc_total|]. intros; apply ok_or_ub_ok.
Qed.
Lemma gen_use_total dig h g n i : ok_or_ub (gen_use dig h g n i).
Proof.
  unfold gen_use. cbn zeta. apply bind_ok_or_ub.
  { destruct (g_genLength g <? n); [|apply ok_or_ub_ok]. apply bind_ok_or_ub; [apply free_total|]. intros. apply ok_or_ub_ok. }
  intros [[h1 gp] gl] _. apply bind_ok_or_ub.
  { destruct (g_hashInputSize g <? Z.of_nat (length i)); [|apply ok_or_ub_ok]. apply bind_ok_or_ub; [apply free_total|]. intros. apply ok_or_ub_ok. }
  intros [[h2 hp] hl] _. apply bind_ok_or_ub; [apply write_total|]. intros h3 _.
  apply bind_ok_or_ub; [apply hash_bytes_total|]. intros [h4 d] _.
  apply bind_ok_or_ub; [apply read_total|]. intros bs _.
  apply bind_ok_or_ub; [apply write_total|]. intros; apply ok_or_ub_ok.
Qed.
Lemma destroy_sha_total h o : ok_or_ub (destroy_sha h o).
Proof. unfold destroy_sha. apply bind_ok_or_ub; [apply free_total|intros; apply free_total]. Qed.
Lemma destroy_gen_total h g : ok_or_ub (destroy_gen h g).
Proof.
  unfold destroy_gen. apply bind_ok_or_ub; [apply free_total|]. intros. apply bind_ok_or_ub; [apply free_total|]. intros.
  apply bind_ok_or_ub; [apply destroy_sha_total|]. intros; apply destroy_sha_total.
Qed.
Lemma destroy_zgen_total h z : ok_or_ub (destroy_zgen h z).
Proof. unfold destroy_zgen. apply bind_ok_or_ub; [apply destroy_gen_total|intros; apply destroy_sha_total]. Qed.
Lemma not_ok_ub {A} (r : res A) : ok_or_ub r -> (forall a, r <> Ok a) -> exists w, r = UB w.
Proof. intros [[a ->]|H] N; [exfalso; apply (N a); reflexivity|exact H]. Qed.

Lemma destroy_gen_dead h g : gone h (so_sha (g_hash g)) -> forall h1, destroy_gen h g <> Ok h1.
Proof.
  intros G h1 E. unfold destroy_gen in E.
  apply bind_ok in E. destruct E as [h2 [E2 E]]. apply bind_ok in E. destruct E as [h3 [E3 E]].
  apply bind_ok in E. destruct E as [h4 [E4 _]]. unfold destroy_sha in E4. apply bind_ok in E4. destruct E4 as [h5 [E5 _]].
  rewrite free_of_gone in E5; [discriminate|]. eapply free_gone; [exact E3|]. eapply free_gone; [exact E2|exact G].
Qed.
Lemma calc_dead dig h o m : gone h (so_sha o) -> calculateDigest dig h o m = UB Dangling.
Proof. intros [a [E A]]. unfold calculateDigest. rewrite E, A. reflexivity. Qed.
Lemma gen_use_dead dig h g n i : gone h (so_sha (g_hash g)) -> use_ok (n, i) -> forall r, gen_use dig h g n i <> Ok r.
Proof.
  intros G [Hn Hi] [h1 g1] E. cbn [fst snd] in *. unfold gen_use in E. cbn zeta in E.
  apply bind_ok in E. destruct E as [[[h2 gp] gl] [E2 E]].
  apply bind_ok in E. destruct E as [[[h3 hp] hl] [E3 E]].
  apply bind_ok in E. destruct E as [h4 [E4 E]].
  apply bind_ok in E. destruct E as [[h5 d] [E5 E]].
  assert (G2 : gone h2 (so_sha (g_hash g))).
  { destruct (g_genLength g <? n); [|inversion E2; subst; exact G].
    apply bind_ok in E2. destruct E2 as [h7 [E7 E2]]. destruct (alloc h7 _) as [h8 p8] eqn:A8.
    inversion E2; subst. eapply alloc_gone; [exact A8|]. eapply free_gone; [exact E7|exact G]. }
  assert (G3 : gone h3 (so_sha (g_hash g))).
  { destruct (g_hashInputSize g <? Z.of_nat (length i)); [|inversion E3; subst; exact G2].
    apply bind_ok in E3. destruct E3 as [h7 [E7 E3]]. destruct (alloc h7 _) as [h8 p8] eqn:A8.
    inversion E3; subst. eapply alloc_gone; [exact A8|]. eapply free_gone; [exact E7|exact G2]. }
  assert (G4 : gone h4 (so_sha (g_hash g))) by (eapply write_gone; [exact E4|exact G3]).
  unfold hash_bytes in E5. destruct hp as [b|]; [|discriminate E4].
  destruct (Nat.eqb_spec (length i) 0); [lia|].
  apply bind_ok in E5. destruct E5 as [m [_ E5]]. rewrite (calc_dead dig h4 _ m G4) in E5. discriminate.
Qed.

Lemma gen_uses_hash dig us : forall h g h1 g1, gen_uses dig h g us = Ok (h1, g1) -> g_hash g1 = g_hash g.
Proof.
  induction us as [|[n i] us IH]; intros h g h1 g1 E; cbn [gen_uses] in E; [inversion E; reflexivity|].
  apply bind_ok in E. destruct E as [[h2 g2] [E2 E]]. destruct (gen_use_gone _ _ _ _ _ _ _ None E2) as [_ [H _]].
  rewrite (IH _ _ _ _ E). exact H.
Qed.

Lemma shared_l dig h0 us ops h a h1 a1 h2 z h3 a3 z3 :
  new_gen h0 = Ok (h, a) -> gen_uses dig h a us = Ok (h1, a1) ->
  new_zgen_from h1 a1 = Ok (h2, z) -> pair_ops dig h2 a1 z ops = Ok (h3, a3, z3) ->
  (forall h4, destroy_zgen h3 z3 = Ok h4 -> exists w, destroy_gen h4 a3 = UB w) /\
  (forall h4, destroy_gen h3 a3 = Ok h4 ->
     (exists w, destroy_zgen h4 z3 = UB w) /\
     forall n i, use_ok (n, i) -> exists w, gen_use dig h4 (zg_prf z3) n i = UB w).
Proof.
  intros E0 E1 E2 E3.
  destruct (pair_ops_hash _ _ _ _ _ _ _ _ E3) as [Ha Hz].
  assert (Z1 : zg_prf z = a1).
  { unfold new_zgen_from in E2. apply bind_ok in E2. destruct E2 as [[x b] [_ E2]]. apply bind_ok in E2.
    destruct E2 as [[y c] [_ E2]]. inversion E2; reflexivity. }
  rewrite Z1 in Hz.
  assert (N : so_sha (g_hash a1) <> None).
  { rewrite (gen_uses_hash _ _ _ _ _ _ E1). destruct (new_gen_inv h0) as [h' [g' [E' I]]]. rewrite E0 in E'.
    inversion E'; subst. destruct (gi_hash _ _ _ I) as [x [y [c [Q _]]]]. congruence. }
  split.
  - intros h4 D. apply not_ok_ub; [apply destroy_gen_total|]. apply destroy_gen_dead. rewrite Ha.
    unfold destroy_zgen in D. apply bind_ok in D. destruct D as [h5 [D5 D]].
    eapply destroy_sha_gone; [exact D|]. rewrite <- Hz. eapply destroy_gen_gone; [exact D5|]. rewrite Hz. exact N.
  - intros h4 D. assert (G : gone h4 (so_sha (g_hash (zg_prf z3)))).
    { rewrite Hz, <- Ha. apply (destroy_gen_gone _ _ _ D). rewrite Ha. exact N. }
    split.
    + apply not_ok_ub; [apply destroy_zgen_total|]. intros h5 Q. unfold destroy_zgen in Q.
      apply bind_ok in Q. destruct Q as [h6 [Q6 _]]. exact (destroy_gen_dead _ _ G _ Q6).
    + intros n i U. apply not_ok_ub; [apply gen_use_total|]. apply gen_use_dead; assumption.
Qed.
