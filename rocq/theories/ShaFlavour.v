(** Lives of one hash object: calls and changes of its flavour in any order. *)
From Verif Require Import Base Lib NtlMissProofs MurmurModel ShaModel ShaSpec ShaProofs ShaLife.
Open Scope Z_scope.

(** one hash object, [fl] its flavour at present *)
Definition sha_inv (h0 h : heap) (o : sha_obj) (fl : Z) : Prop :=
  live_sha h o /\ so_flavour o = fl /\ owns h0 h (sha_ptrs o).

Lemma built_inv h0 h fl : owns h0 h [] -> sha_inv h0 (built h fl) (sha_at (length h) fl) fl.
Proof.
  intros O. split; [apply new_sha_live|]. split; [reflexivity|].
  unfold built. set (k := Hasher _). set (a := Arr _).
  destruct (owns_alloc h0 h k [] [] O) as [O1 [N1 _]]; [discriminate|]. cbn [app] in O1.
  destruct (owns_alloc h0 (h ++ [k]) a [length h] [] O1) as [O2 [N2 _]]; [discriminate|].
  rewrite <- app_assoc in O2. cbn [app] in O2. rewrite app_length in O2. cbn [length] in O2. rewrite Nat.add_1_r in O2.
  exact O2.
Qed.
Lemma setFlavour_inv h0 h o fl fl2 : sha_inv h0 h o fl ->
  exists h1 o1, setFlavour h o fl2 = Ok (h1, o1) /\ sha_inv h0 h1 o1 fl2.
Proof.
  intros [L [F O]]. unfold sha_ptrs in O.
  destruct (free_opt h0 h [] _ _ O) as [h1 [E1 [O1 _]]]. cbn [app] in O1.
  rewrite <- (app_nil_r (opt (so_last o))) in O1.
  destruct (free_opt h0 h1 [] _ _ O1) as [h2 [E2 [O2 _]]]. cbn [app] in O2.
  exists (built h2 fl2), (sha_at (length h2) fl2). split; [|apply built_inv; exact O2].
  rewrite <- new_sha_eq. unfold new_sha, setFlavour. rewrite E1. cbn [bind]. rewrite E2. reflexivity.
Qed.
Lemma destroy_inv h0 h o fl : sha_inv h0 h o fl -> exists h1, destroy_sha h o = Ok h1 /\ all_returned h0 h1.
Proof.
  intros [L [F O]]. unfold sha_ptrs in O.
  destruct (free_opt h0 h [] _ _ O) as [h1 [E1 [O1 _]]]. cbn [app] in O1.
  rewrite <- (app_nil_r (opt (so_last o))) in O1.
  destruct (free_opt h0 h1 [] _ _ O1) as [h2 [E2 [O2 _]]]. cbn [app] in O2.
  exists h2. unfold destroy_sha. rewrite E1. cbn [bind]. split; [exact E2|apply owns_nil; exact O2].
Qed.

Section Dig.
Variable dig : kind -> list Z -> list Z.
Hypothesis HD : digest_sizes dig.

Lemma calc_inv h0 h o fl m : sha_inv h0 h o fl ->
  exists h1, calculateDigest dig h o m = Ok h1 /\ sha_inv h0 h1 o fl /\
    read_bytes h1 (so_last o) (Z.to_nat (hashSize o)) = Ok (digest_of dig fl m).
Proof.
  intros [L [F O]]. destruct (calc_ok dig HD h o m L) as [b [Eb [E [L1 _]]]].
  destruct (calc_result dig HD h o m L) as [h1 [E1 [_ R1]]].
  assert (h1 = upd h b (Arr (map Some (digest_of dig (so_flavour o) m)))) by congruence. subst h1.
  eexists. split; [exact E|]. rewrite F in R1 at 2. split; [|exact R1]. split; [exact L1|]. split; [exact F|].
  apply owns_upd; [exact O| |discriminate].
  unfold sha_ptrs. rewrite Eb. apply in_or_app. right. left. reflexivity.
Qed.
Lemma call_inv h0 h o fl c : sha_inv h0 h o fl -> call_ok c ->
  exists h1 m, exec_call dig h o c = Ok (h1, so_last o) /\ sha_inv h0 h1 o fl /\ call_text c m /\
    read_bytes h1 (so_last o) (Z.to_nat (hashSize o)) = Ok (digest_of dig fl m).
Proof.
  intros H C. destruct c as [s len|n len]; cbn [exec_call call_text call_ok] in *.
  - destruct (calc_inv h0 h o fl (cut len s) H) as [h1 [E [L R]]]. exists h1, (cut len s).
    unfold hash_string. cbn zeta. rewrite cut_eq, E. cbn [bind]. auto.
  - destruct (calc_inv h0 h o fl (cut len (dec_text n)) H) as [h1 [E [L R]]]. exists h1, (cut len (dec_text n)).
    unfold hash_zzp. cbn zeta. rewrite cut_eq, E. cbn [bind].
    split; [reflexivity|]. split; [exact L|]. split; [|exact R].
    exists (dec_text n). split; [apply dec_text_decimal; exact C|reflexivity].
Qed.

Lemma life_ok ops : forall h0 h o fl, sha_inv h0 h o fl ->
  Forall (fun p => match p with Call c => call_ok c | Flavour _ => True end) ops ->
  exists h1 o1 ds, life dig h o ops = Ok (h1, o1, ds) /\
    sha_inv h0 h1 o1 (last_flavour fl ops) /\ life_digests dig fl ops ds.
Proof.
  induction ops as [|op ops IH]; intros h0 h o fl I F; cbn [life last_flavour life_digests].
  - exists h, o, []. auto.
  - inversion F; subst. destruct op as [c|fl2].
    + destruct (call_inv h0 h o fl c I H1) as [h1 [m [E [I1 [T R]]]]]. rewrite E. cbn [bind]. rewrite R. cbn [bind].
      destruct (IH h0 h1 o fl I1 H2) as [h2 [o2 [ds [E2 [I2 D2]]]]]. rewrite E2. cbn [bind].
      exists h2, o2, (digest_of dig fl m :: ds). split; [reflexivity|]. split; [exact I2|]. eauto.
    + destruct (setFlavour_inv h0 h o fl fl2 I) as [h1 [o1 [E I1]]]. rewrite E. cbn [bind].
      destruct (IH h0 h1 o1 fl2 I1 H2) as [h2 [o2 [ds [E2 [I2 D2]]]]]. exists h2, o2, ds. auto.
Qed.

Lemma life_l h0 fl ops :
  Forall (fun p => match p with Call c => call_ok c | Flavour _ => True end) ops ->
  exists h o h1 o1 ds h2, new_sha h0 fl = Ok (h, o) /\ life dig h o ops = Ok (h1, o1, ds) /\
    life_digests dig fl ops ds /\ hashSize o1 = digest_len (last_flavour fl ops) /\
    so_flavour o1 = last_flavour fl ops /\
    destroy_sha h1 o1 = Ok h2 /\ all_returned h0 h2.
Proof.
  intros F. exists (built h0 fl), (sha_at (length h0) fl).
  destruct (life_ok ops h0 _ _ fl (built_inv h0 h0 fl (owns_start h0)) F) as [h1 [o1 [ds [E [I D]]]]].
  destruct (destroy_inv _ _ _ _ I) as [h2 [E2 A]]. exists h1, o1, ds, h2.
  split; [apply new_sha_eq|]. split; [exact E|]. split; [exact D|].
  destruct I as [L [Fl _]]. split; [unfold hashSize; rewrite (live_size _ _ L), Fl; reflexivity|]. auto.
Qed.
End Dig.

(** * A ZZpPRF with a generator of its own *)
Lemma owns_gones h0 h ps k : owns h0 h ps -> owns h0 (h ++ repeat Gone k) ps.
Proof.
  intros [N [L [B [O G]]]]. split; [exact N|]. split; [rewrite app_length; lia|]. split; [|split].
  - intros p Hp. destruct (B p Hp) as [P [b [Eb Nb]]]. split; [exact P|]. exists b. split; [|exact Nb].
    rewrite nth_error_app1; [exact Eb|]. apply nth_error_Some. congruence.
  - intros i Hi. rewrite nth_error_app1 by lia. apply O. exact Hi.
  - intros i Hi NI. destruct (Nat.lt_ge_cases i (length h)) as [A|A].
    + rewrite nth_error_app1 by lia. apply G; [lia|exact NI].
    + rewrite nth_error_app2 by lia. rewrite app_length, repeat_length in Hi. apply nth_error_repeat. lia.
Qed.
Lemma zgen_life_l dig h0 us : digest_sizes dig -> Forall use_ok us ->
  exists h z h1 g1 h2, new_zgen h0 = Ok (h, z) /\ gen_uses dig h (zg_prf z) us = Ok (h1, g1) /\
    destroy_zgen h1 {| zg_base := zg_base z; zg_prf := g1 |} = Ok h2 /\ all_returned h0 h2.
Proof.
  intros HD F. unfold new_zgen, SHA1_FLAVOUR. rewrite new_sha_eq. cbn [bind].
  destruct (gen_life_l dig (built h0 0) us HD F) as [h [g [h1 [g1 [h2 [E [E1 [E2 [k A]]]]]]]]].
  rewrite E. cbn [bind].
  pose proof (built_inv h0 h0 0 (owns_start h0)) as [L [Fl O]].
  assert (I : sha_inv h0 h2 (sha_at (length h0) 0) 0).
  { subst h2. split; [|split; [reflexivity|apply owns_gones; exact O]].
    apply (live_frame (built h0 0)); [exact L|]. intros q Hq. rewrite nth_error_app1; [reflexivity|].
    apply nth_error_Some. destruct O as [_ [_ [B _]]]. destruct (B q Hq) as [_ [b [Eb _]]]. congruence. }
  destruct (destroy_inv _ _ _ _ I) as [h3 [E3 A3]].
  eexists h, _, h1, g1, h3. split; [reflexivity|]. cbn [zg_prf zg_base]. split; [exact E1|].
  split; [|exact A3]. unfold destroy_zgen. cbn [zg_prf zg_base]. rewrite E2. cbn [bind]. exact E3.
Qed.

(** * Names and texts *)
Lemma sha_name_all h0 fl h o : new_sha h0 fl = Ok (h, o) ->
  sha_name o = if (0 <=? fl) && (fl <=? 3) then Ok (skipn (Z.to_nat fl) [83; 72; 65]) else UB OutOfBounds.
Proof.
  rewrite new_sha_eq. intros E. inversion E; subst. unfold sha_name, sha_at. cbn [so_flavour].
  destruct (Z.ltb_spec fl 0), (Z.ltb_spec 3 fl), (Z.leb_spec 0 fl), (Z.leb_spec fl 3); try lia; reflexivity.
Qed.
Lemma hex_value_digit d : 0 <= d < 16 -> hex_value (hex_digit d) = d.
Proof. intros H. unfold hex_value, hex_digit. destruct (Z.ltb_spec d 10); [destruct (Z.leb_spec (48 + d) 57)|destruct (Z.leb_spec (55 + d) 57)]; lia. Qed.
Lemma readable_value d : Forall is_byte d -> forall i b, nth_error d i = Some b ->
  exists x y, nth_error (readableDigest d) (2 * i) = Some x /\ nth_error (readableDigest d) (2 * i + 1) = Some y /\
    16 * hex_value x + hex_value y = b.
Proof.
  induction 1 as [|c d C F IH]; intros i b E; [destruct i; discriminate|].
  cbn [readableDigest flat_map app]. fold (readableDigest d).
  destruct i as [|i].
  - inversion E; subst. exists (hex_digit (b / 16)), (hex_digit (b mod 16)). split; [reflexivity|]. split; [reflexivity|].
    unfold is_byte in C. rewrite !hex_value_digit; [rewrite <- Z.div_mod; lia|apply Z.mod_pos_bound; lia|].
    split; [apply Z.div_pos; lia|apply Z.div_lt_upper_bound; lia].
  - cbn [nth_error] in E. destruct (IH i b E) as [x [y [X [Y V]]]]. exists x, y.
    replace (2 * S i)%nat with (S (S (2 * i))) by lia. replace (S (S (2 * i)) + 1)%nat with (S (S (2 * i + 1))) by lia.
    cbn [nth_error]. auto.
Qed.
