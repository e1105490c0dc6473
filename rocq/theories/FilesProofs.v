(** Proofs about zzrndgen, hbtest and the file between them. *)
From Coq Require Import QArith Qround Qabs Lia.
From Verif Require Import Base Spec Lib NtlMiss NtlMissProofs StrIntModel HashBucketsModel HashBucketsSpec HashBucketsProofs
  PRFModel PRFSpec PRFProofs MurmurModel FilesModel FilesSpec FilesStats.
From Verif Require ShaSpec ShaProofs.
Open Scope Z_scope.

Lemma chars_eqb_eq a b : chars_eqb a b = true <-> a = b.
Proof. unfold chars_eqb. destruct (list_eq_dec Z.eq_dec a b); split; congruence. Qed.
Lemma name_eq f : (if chars_eqb f [] then default_file else f) = file_or_default f.
Proof. destruct f; reflexivity. Qed.

(** * zzrndgen *)
Lemma zparse_ok os : forall a, Forall (fun o => ~ zbad o /\ zopt_long o) os -> forall b n,
  0 < za_bits a < 2 ^ 63 -> za_bits a = b -> za_n a = w64 n ->
  zparse os a = Ok {| za_bits := last_of opt_bits b os; za_n := w64 (last_of opt_count n os);
                      za_file := last_of opt_out (za_file a) os |} /\
  0 < last_of opt_bits b os < 2 ^ 63.
Proof.
  induction os as [|o os IH]; intros a F b n R B N.
  - subst b. cbn. rewrite <- N. destruct a; split; [reflexivity|exact R].
  - inversion F as [|x y [NB L] F']; subst. destruct o as [z|z|f|]; cbn [zparse last_of fold_left opt_bits opt_count opt_out].
    + cbn [zbad zopt_long] in NB, L. destruct (Z.leb_spec z 0); [lia|].
      assert (W : w64 z = z) by (apply w64_small; unfold M64; lia).
      apply (IH {| za_bits := w64 z; za_n := za_n a; za_file := za_file a |} F' z n); cbn; [rewrite W; lia|exact W|exact N].
    + apply (IH {| za_bits := za_bits a; za_n := w64 z; za_file := za_file a |} F' (za_bits a) z); auto.
    + apply (IH {| za_bits := za_bits a; za_n := za_n a; za_file := f |} F' (za_bits a) n); auto.
    + exfalso. apply NB. exact Logic.I.
Qed.
Lemma zparse_bad os1 o os2 : forall a, Forall (fun o => ~ zbad o) os1 -> zbad o -> zparse (os1 ++ o :: os2) a = Exit 1.
Proof.
  induction os1 as [|p os1 IH]; intros a F B; cbn [app zparse].
  - destruct o as [z|z|f|]; cbn [zbad] in B; try contradiction; [|reflexivity].
    destruct (Z.leb_spec z 0); [reflexivity|lia].
  - inversion F; subst. destruct p as [z|z|f|]; cbn [zbad] in H1; try (apply IH; assumption); [|exfalso; auto].
    destruct (Z.leb_spec z 0); [lia|apply IH; assumption].
Qed.

Definition body_of (lines : list chars) : chars := concat (map (fun t => t ++ [10]) lines).
Lemma body_app a b : body_of (a ++ b) = body_of a ++ body_of b.
Proof. unfold body_of. rewrite map_app, concat_app. reflexivity. Qed.

Lemma body_snoc l t : body_of (l ++ [t]) = body_of l ++ t ++ [10].
Proof. rewrite body_app. f_equal. cbn. apply app_nil_r. Qed.

Section Gen.
Variable sha : list Z -> list Z.
Variable rand : nat -> Z.
Variable fuel : nat.
Variable writable : chars -> bool.
Hypothesis HS : is_sha sha.

Definition seed_of (st : prf) : Z := match p_autoSeed st with Some s => s | None => rand (p_pos st) end.
Lemma round_ok b n i st text : wf st -> bits_ok b -> n / 10 <> 0 ->
  exists st', zz_round sha rand fuel b n i (st, text) =
      Ok (st', text ++ dec_text (prf_value sha (seed_of st) (Z.of_nat i) b) ++ [10]) /\
    wf st' /\ seed_of st' = seed_of st.
Proof.
  intros W B N. unfold zz_round.
  destruct (generate_auto_pos sha HS rand fuel st (Z.of_nat i) b W B) as [st' [E [W' [_ [A _]]]]].
  exists st'. rewrite E. cbn [bind]. destruct (Z.eqb_spec (n / 10) 0); [contradiction|].
  split; [reflexivity|]. split; [exact W'|]. unfold seed_of at 1. rewrite A. reflexivity.
Qed.

Lemma generator_ok os pos : Forall (fun o => ~ zbad o /\ zopt_long o) os ->
  let b := last_of opt_bits 80 os in
  let n := last_of opt_count 1000000 os mod 2 ^ 64 in
  let name := file_or_default (last_of opt_out [] os) in
  (writable name = false -> zzrndgen sha rand fuel writable os pos = Exit 1) /\
  (writable name = true -> 1 <= n <= 9 -> zzrndgen sha rand fuel writable os pos = UB DivByZero) /\
  (writable name = true -> n = 0 \/ 10 <= n ->
     zzrndgen sha rand fuel writable os pos =
       Ok (name, body_of (map dec_text (b :: n :: map (fun i => prf_value sha (rand pos) (Z.of_nat i) b) (seq 0 (Z.to_nat n)))) ++ [10])) /\
  0 < b < 2 ^ 63.
Proof.
  intros F b n name.
  destruct (zparse_ok os zdefault F 80 1000000) as [E R]; [cbn [za_bits zdefault]; lia|reflexivity|reflexivity|].
  unfold zzrndgen. rewrite E. cbn [bind za_bits za_n za_file zdefault]. cbn zeta. rewrite name_eq.
  fold b name. change (w64 (last_of opt_count 1000000 os)) with n. fold b in R.
  assert (B : bits_ok b) by (unfold bits_ok, M64; clearbody b; lia).
  split; [intros ->; reflexivity|]. split; [|split; [|exact R]].
  - intros -> N. cbn [negb]. destruct (Z.to_nat n) as [|m] eqn:Em; [lia|]. cbn [for_up].
    unfold zz_round at 1.
    destruct (generate_auto_pos sha HS rand fuel (new_prf pos) (Z.of_nat 0) b (new_prf_wf pos) B) as [st' [G _]].
    rewrite G. cbn [bind]. assert (n / 10 = 0) as -> by (apply Z.div_small; lia). reflexivity.
  - intros -> N. cbn [negb].
    destruct (for_up_inv (fun i (s : prf * chars) => wf (fst s) /\ seed_of (fst s) = rand pos /\
        snd s = body_of (map dec_text (b :: n :: map (fun i => prf_value sha (rand pos) (Z.of_nat i) b) (seq 0 i))))
        (Z.to_nat n) 0 (zz_round sha rand fuel b n) (new_prf pos, put_line b ++ put_line n)) as [[st text] [G [_ [_ I]]]].
    + cbn [fst snd]. split; [apply new_prf_wf|]. split; [reflexivity|].
      unfold body_of, put_line. cbn [map seq concat]. rewrite app_nil_r. reflexivity.
    + intros i [st text] Hi [W [S I]]. cbn [fst snd] in W, S, I.
      assert (N10 : n / 10 <> 0).
      { destruct N as [N|N]; [lia|]. pose proof (Z.div_le_mono 10 n 10 ltac:(lia) N). change (10 / 10) with 1 in H. lia. }
      destruct (round_ok b n i st text W B N10) as [st' [G [W' S']]]. eexists. split; [exact G|].
      cbn [fst snd]. split; [exact W'|]. split; [congruence|].
      rewrite I, S. rewrite <- body_snoc. f_equal. rewrite seq_S, map_app. cbn [map]. rewrite map_app. reflexivity.
    + rewrite G. cbn [bind]. cbn [snd] in I. rewrite I. reflexivity.
Qed.
End Gen.

Lemma generated_is_file b n vs : 0 <= b -> 0 <= n -> Forall (fun v => 0 <= v) vs -> n = Z.of_nat (length vs) ->
  is_number_file b vs (body_of (map dec_text (b :: n :: vs)) ++ [10]).
Proof.
  intros B N F E. exists (map dec_text (b :: n :: vs)). split; [|reflexivity].
  subst n. cbn [map]. constructor; [apply ShaProofs.dec_text_decimal; exact B|].
  constructor; [apply ShaProofs.dec_text_decimal; exact N|].
  clear - F. induction F as [|v vs V F IH]; cbn [map]; constructor; auto. apply ShaProofs.dec_text_decimal. exact V.
Qed.

(** * Reading *)
Definition digits (t : chars) : Prop := Forall (fun c => 48 <= c <= 57) t.
Lemma is_digit_iff c : is_digit c = true <-> 48 <= c <= 57.
Proof. unfold is_digit. rewrite andb_true_iff, !Z.leb_le. reflexivity. Qed.
Lemma is_digit_not c : is_digit c = false <-> c < 48 \/ 57 < c.
Proof. rewrite <- not_true_iff_false, is_digit_iff. lia. Qed.
Lemma span_ok t : digits t -> forall rest n acc, no_digit_first rest ->
  span_digits (t ++ rest) n acc = ((n + length t)%nat, fold_left (fun a c => 10 * a + (c - 48)) t acc, rest).
Proof.
  induction 1 as [|d t D F IH]; intros rest n acc C; cbn [app length fold_left].
  - rewrite Nat.add_0_r. destruct rest as [|c rest]; [reflexivity|]. cbn [span_digits].
    assert (is_digit c = false) as -> by (apply is_digit_not; exact C). reflexivity.
  - cbn [span_digits]. assert (is_digit d = true) as -> by (apply is_digit_iff; exact D). rewrite IH by exact C.
    do 2 f_equal. lia.
Qed.
Lemma blank_iff c : is_space c = true <-> blank c.
Proof.
  unfold is_space, blank. rewrite orb_true_iff, andb_true_iff, Z.eqb_eq, !Z.leb_le. cbn [In]. split; intros H.
  - destruct H as [H|H]; [subst; auto|]. assert (c = 9 \/ c = 10 \/ c = 11 \/ c = 12 \/ c = 13) as X by lia. intuition auto.
  - decompose [or] H; subst; try lia; contradiction.
Qed.
Lemma skip_blanks sp c s : Forall blank sp -> ~ blank c -> skip_space (sp ++ c :: s) = c :: s.
Proof.
  intros F N. induction F as [|x sp X F IH]; cbn [app skip_space].
  - destruct (is_space c) eqn:E; [|reflexivity]. apply blank_iff in E. contradiction.
  - apply blank_iff in X. rewrite X. exact IH.
Qed.
Lemma numeral_first v t : numeral v t -> exists d t', t = d :: t' /\ 48 <= d <= 57 /\ digits t /\
  fold_left (fun a c => 10 * a + (c - 48)) t 0 = v.
Proof.
  intros [N [F V]]. destruct t as [|d t']; [congruence|]. exists d, t'. split; [reflexivity|].
  pose proof F as F0. inversion F; subst. split; [assumption|]. split; [exact F0|reflexivity].
Qed.
Lemma not_blank c : 14 <= c -> c <> 32 -> ~ blank c.
Proof. intros H N X. cbn in X. decompose [or] X; subst; try lia; contradiction. Qed.

Lemma get_size_word sp v t rest : Forall blank sp -> unsigned_word v t -> no_digit_first rest ->
  get_size {| in_rest := sp ++ t ++ rest; in_good := true |} = ({| in_rest := rest; in_good := true |}, Some v).
Proof.
  intros P [w [t' [Nw [L H]]]] R. destruct (numeral_first w t' Nw) as [d [t2 [Et [Hd [F V]]]]].
  unfold get_size. cbn [in_good negb in_rest].
  assert (LT : Nat.eqb (length t') 0 = false) by (rewrite Et; reflexivity).
  assert (LW : (2 ^ 64 <=? w) = false) by (apply Z.leb_gt; exact L).
  destruct H as [[[-> | ->] ->]|[-> ->]].
  - replace (skip_space (sp ++ t' ++ rest)) with (d :: t2 ++ rest) by (rewrite Et; symmetry; apply skip_blanks; [exact P|apply not_blank; lia]).
    destruct (Z.eqb_spec d 45); [lia|]. destruct (Z.eqb_spec d 43); [lia|].
    change (d :: t2 ++ rest) with ((d :: t2) ++ rest). rewrite <- Et. rewrite span_ok by (exact F || exact R). rewrite V, Nat.add_0_l, LT, LW. reflexivity.
  - cbn [app]. rewrite skip_blanks by (exact P || apply not_blank; lia). change (43 =? 45) with false. change (43 =? 43) with true. cbv iota beta.
    rewrite span_ok by (exact F || exact R). rewrite V, Nat.add_0_l, LT, LW. reflexivity.
  - cbn [app]. rewrite skip_blanks by (exact P || apply not_blank; lia). change (45 =? 45) with true. cbv iota beta.
    rewrite span_ok by (exact F || exact R). rewrite V, Nat.add_0_l, LT, LW. reflexivity.
Qed.
Lemma get_ZZ_word sp v t rest : Forall blank sp -> signed_word v t -> no_digit_first rest ->
  get_ZZ {| in_rest := sp ++ t ++ rest; in_good := true |} = Ok ({| in_rest := rest; in_good := true |}, v).
Proof.
  intros P H R. unfold get_ZZ. cbn [in_good negb in_rest].
  destruct H as [N|[t' [-> N]]]; destruct (numeral_first _ _ N) as [d [t2 [Et [Hd [F V]]]]].
  - replace (skip_space (sp ++ t ++ rest)) with (d :: t2 ++ rest) by (rewrite Et; symmetry; apply skip_blanks; [exact P|apply not_blank; lia]).
    destruct (Z.eqb_spec d 45); [lia|].
    change (d :: t2 ++ rest) with ((d :: t2) ++ rest). rewrite <- Et. rewrite span_ok by (exact F || exact R). rewrite V, Nat.add_0_l.
    rewrite Et. reflexivity.
  - cbn [app]. rewrite skip_blanks by (exact P || apply not_blank; lia). change (45 =? 45) with true. cbv iota beta.
    rewrite span_ok by (exact F || exact R). rewrite V, Nat.add_0_l. rewrite Et. cbn [length Nat.eqb]. rewrite Z.opp_involutive. reflexivity.
Qed.

Lemma decimal_numeral v t : ShaSpec.decimal v t -> numeral v t.
Proof. intros [N [F [V _]]]. repeat split; assumption. Qed.
Lemma newlines_blank pre : Forall (fun c => c = 10) pre -> Forall blank pre.
Proof. apply Forall_impl. intros c ->. cbn. auto. Qed.
Lemma get_size_ok pre v t rest : Forall (fun c => c = 10) pre -> ShaSpec.decimal v t -> v < 2 ^ 64 ->
  get_size {| in_rest := pre ++ t ++ 10 :: rest; in_good := true |} = ({| in_rest := 10 :: rest; in_good := true |}, Some v).
Proof.
  intros P D L. apply get_size_word; [apply newlines_blank; exact P| |cbn; lia].
  exists v, t. split; [apply decimal_numeral; exact D|]. split; [exact L|]. left. auto.
Qed.
Lemma get_ZZ_ok pre v t rest : Forall (fun c => c = 10) pre -> ShaSpec.decimal v t ->
  get_ZZ {| in_rest := pre ++ t ++ 10 :: rest; in_good := true |} = Ok ({| in_rest := 10 :: rest; in_good := true |}, v).
Proof.
  intros P D. apply get_ZZ_word; [apply newlines_blank; exact P| |cbn; lia].
  left. apply decimal_numeral; exact D.
Qed.

Lemma read_loop m vs ts : Forall2 signed_word vs ts -> forall text i0 zs, layout ts text ->
  exists s, for_up (length vs) i0 (fun _ '(s, zs) => do (s1, v) <- get_ZZ s; Ok (s1, zs ++ [v mod m]))
      ({| in_rest := text; in_good := true |}, zs) =
    Ok (s, zs ++ map (fun v => v mod m) vs).
Proof.
  induction 1 as [|v t vs ts D F IH]; intros text i0 zs L; cbn [length for_up map].
  - rewrite app_nil_r. eexists. reflexivity.
  - inversion L as [|sp t0 ts0 rest B L2 R e1 e2]; subst. rewrite (get_ZZ_word sp v t rest B D R). cbn [bind].
    destruct (IH rest (S i0) (zs ++ [v mod m]) L2) as [s E]. exists s. rewrite E. rewrite <- app_assoc. reflexivity.
Qed.

Lemma file_layout lines : forall vs, Forall2 ShaSpec.decimal vs lines -> layout lines (10 :: body_of lines ++ [10]).
Proof.
  induction lines as [|t lines IH]; intros vs F; [constructor|].
  inversion F as [|v ? vs' ? D F2]; subst.
  replace (10 :: body_of (t :: lines) ++ [10]) with ([10] ++ t ++ 10 :: body_of lines ++ [10]).
  2:{ unfold body_of. cbn [map concat app]. rewrite <- !app_assoc. reflexivity. }
  constructor; [constructor; [cbn; auto|constructor]|exact (IH vs' F2)|cbn; lia].
Qed.
Lemma file_is_text b vs text : is_number_file b vs text -> b < 2 ^ 64 -> Z.of_nat (length vs) < 2 ^ 64 -> is_number_text b vs text.
Proof.
  intros [lines [F2 Tx]] B N.
  inversion F2 as [|? tb ? lines1 Db F3 e1 e2]; subst lines. inversion F3 as [|? tn ? lines2 Dn F4 e3 e4]; subst lines1.
  exists tb, tn, lines2. split; [|split; [|split]].
  - replace text with ([] ++ tb ++ 10 :: body_of (tn :: lines2) ++ [10]).
    2:{ rewrite Tx. unfold body_of. cbn [map concat app]. rewrite <- !app_assoc. reflexivity. }
    constructor; [constructor| |cbn; lia]. eapply file_layout. exact F3.
  - exists b, tb. split; [apply decimal_numeral; exact Db|]. split; [exact B|]. left. auto.
  - exists (Z.of_nat (length vs)), tn. split; [apply decimal_numeral; exact Dn|]. split; [exact N|]. left. auto.
  - clear - F4. induction F4; constructor; [left; apply decimal_numeral; assumption|assumption].
Qed.

(** ** Malformed headers *)
Lemma skip_all sp : Forall blank sp -> skip_space sp = [].
Proof. induction 1 as [|x sp X F IH]; [reflexivity|]. cbn [skip_space]. apply blank_iff in X. rewrite X. exact IH. Qed.
Lemma get_size_blank sp : Forall blank sp ->
  get_size {| in_rest := sp; in_good := true |} = ({| in_rest := []; in_good := false |}, None).
Proof. intros F. unfold get_size. cbn [in_good negb in_rest]. rewrite skip_all by exact F. reflexivity. Qed.
Lemma no_digits s : no_digit_first s -> span_digits s 0 0 = (0%nat, 0, s).
Proof. intros N. exact (span_ok [] (Forall_nil _) s 0%nat 0 N). Qed.
Lemma get_size_none sp s : Forall blank sp -> no_number s ->
  exists rest, get_size {| in_rest := sp ++ s; in_good := true |} = ({| in_rest := rest; in_good := false |}, Some 0).
Proof.
  intros F N. destruct s as [|c s]; [contradiction|]. destruct N as [NB [ND NS]].
  unfold get_size. cbn [in_good negb in_rest]. rewrite skip_blanks by (exact F || exact NB).
  destruct (Z.eqb_spec c 45) as [->|N45]; [rewrite no_digits by auto; eexists; reflexivity|].
  destruct (Z.eqb_spec c 43) as [->|N43]; [rewrite no_digits by auto; eexists; reflexivity|].
  rewrite no_digits by exact ND. eexists; reflexivity.
Qed.
Lemma get_size_large sp t w t' rest : Forall blank sp -> numeral w t' -> 2 ^ 64 <= w ->
  t = t' \/ t = 43 :: t' \/ t = 45 :: t' -> no_digit_first rest ->
  get_size {| in_rest := sp ++ t ++ rest; in_good := true |} = ({| in_rest := rest; in_good := false |}, Some (2 ^ 64 - 1)).
Proof.
  intros P Nw L H R. destruct (numeral_first w t' Nw) as [d [t2 [Et [Hd [F V]]]]].
  unfold get_size. cbn [in_good negb in_rest].
  assert (LT : Nat.eqb (length t') 0 = false) by (rewrite Et; reflexivity).
  assert (LW : (2 ^ 64 <=? w) = true) by (apply Z.leb_le; exact L).
  destruct H as [-> |[-> | ->]].
  - replace (skip_space (sp ++ t' ++ rest)) with (d :: t2 ++ rest) by (rewrite Et; symmetry; apply skip_blanks; [exact P|apply not_blank; lia]).
    destruct (Z.eqb_spec d 45); [lia|]. destruct (Z.eqb_spec d 43); [lia|].
    change (d :: t2 ++ rest) with ((d :: t2) ++ rest). rewrite <- Et. rewrite span_ok by (exact F || exact R). rewrite V, Nat.add_0_l, LT, LW. reflexivity.
  - cbn [app]. rewrite skip_blanks by (exact P || apply not_blank; lia). change (43 =? 45) with false. change (43 =? 43) with true. cbv iota beta.
    rewrite span_ok by (exact F || exact R). rewrite V, Nat.add_0_l, LT, LW. reflexivity.
  - cbn [app]. rewrite skip_blanks by (exact P || apply not_blank; lia). change (45 =? 45) with true. cbv iota beta.
    rewrite span_ok by (exact F || exact R). rewrite V, Nat.add_0_l, LT, LW. reflexivity.
Qed.
Lemma get_ZZ_none tail : no_integer tail -> get_ZZ {| in_rest := tail; in_good := true |} = Abort.
Proof.
  intros [sp [s [-> [F N]]]]. unfold get_ZZ. cbn [in_good negb in_rest]. destruct s as [|c s].
  - rewrite app_nil_r, skip_all by exact F. reflexivity.
  - destruct N as [ND [NM NB]]. rewrite skip_blanks by (exact F || exact NB).
    destruct (Z.eqb_spec c 45) as [->|N45]; [rewrite no_digits by auto; reflexivity|].
    rewrite no_digits by exact ND. reflexivity.
Qed.
Lemma get_ZZ_stuck r : get_ZZ {| in_rest := r; in_good := false |} = Abort.
Proof. reflexivity. Qed.
(** fewer numbers than asked for *)
Lemma read_loop_short (f : Z -> Z) vs ts : Forall2 signed_word vs ts -> forall tail text n i0 zs, words_then ts tail text ->
  no_integer tail -> (length vs < n)%nat ->
  for_up n i0 (fun _ '(s, zs) => do (s1, v) <- get_ZZ s; Ok (s1, zs ++ [f v])) ({| in_rest := text; in_good := true |}, zs) = Abort.
Proof.
  induction 1 as [|v t vs ts D F IH]; intros tail text n i0 zs L N Hn; (destruct n as [|n]; [cbn in Hn; lia|]); cbn [for_up].
  - inversion L; subst. rewrite (get_ZZ_none _ N). reflexivity.
  - inversion L as [|sp t0 ts0 rest tl B L2 R e1 e2]; subst. rewrite (get_ZZ_word sp v t rest B D R). cbn [bind].
    apply (IH tail); [exact L2|exact N|cbn in Hn; lia].
Qed.
Lemma read_loop_f (f : Z -> Z) vs ts : Forall2 signed_word vs ts -> forall text i0 zs, layout ts text ->
  exists s, for_up (length vs) i0 (fun _ '(s, zs) => do (s1, v) <- get_ZZ s; Ok (s1, zs ++ [f v]))
      ({| in_rest := text; in_good := true |}, zs) = Ok (s, zs ++ map f vs).
Proof.
  induction 1 as [|v t vs ts D F IH]; intros text i0 zs L; cbn [length for_up map].
  - rewrite app_nil_r. eexists. reflexivity.
  - inversion L as [|sp t0 ts0 rest B L2 R e1 e2]; subst. rewrite (get_ZZ_word sp v t rest B D R). cbn [bind].
    destruct (IH rest (S i0) (zs ++ [f v]) L2) as [s E]. exists s. rewrite E. rewrite <- app_assoc. reflexivity.
Qed.
Lemma words_layout ts tail text : words_then ts tail text -> layout ts text.
Proof. induction 1; constructor; assumption. Qed.
Lemma file_is_integers b vs text : is_number_file b vs text -> Z.of_nat (length vs) < 2 ^ 64 -> is_integer_text b vs text.
Proof.
  intros [lines [F2 Tx]] NV. inversion F2 as [|? tb ? lines1 Db F3 e1 e2]; subst lines.
  inversion F3 as [|? tn ? lines2 Dn F4 e3 e4]; subst lines1.
  exists tb, tn, lines2. split; [|split; [left; apply decimal_numeral; exact Db|split]].
  - assert (Tx2 : text = [] ++ tb ++ 10 :: body_of (tn :: lines2) ++ [10]).
    { rewrite Tx. unfold body_of. cbn [map concat app]. rewrite <- !app_assoc. reflexivity. }
    rewrite Tx2. constructor; [constructor| |cbn; lia]. eapply file_layout. exact F3.
  - exists (Z.of_nat (length vs)), tn. split; [apply decimal_numeral; exact Dn|]. split; [exact NV|]. left. auto.
  - clear - F4. induction F4; constructor; [left; apply decimal_numeral; assumption|assumption].
Qed.
Lemma s64_large b : 2 ^ 63 <= b < 2 ^ 64 -> s64 b <= 0.
Proof.
  intros B. unfold s64, w64, M64. rewrite (Z.mod_small b) by lia.
  repeat match goal with |- context[if ?c then _ else _] => destruct c eqn:? end; try lia;
  repeat match goal with H : (_ <? _) = _ |- _ => first [apply Z.ltb_lt in H|apply Z.ltb_ge in H] end; lia.
Qed.
Lemma get_size_bad sp t rest : Forall blank sp -> bad_width t -> no_digit_first rest ->
  exists s b, get_size {| in_rest := sp ++ t ++ rest; in_good := true |} = (s, Some b) /\ s64 b <= 0.
Proof.
  intros P [[b [U B]]|[w [t' [N [L H]]]]] R.
  - rewrite (get_size_word sp b t rest P U R). eexists _, _. split; [reflexivity|].
    assert (RB : 0 <= b < 2 ^ 64).
    { destruct U as [v [t' [[_ [F D]] [Lt [[_ ->]|[_ ->]]]]]]; [|apply Z.mod_pos_bound; lia].
      split; [|exact Lt]. rewrite <- D. clear - F. unfold ShaSpec.dec_value.
      assert (G : forall l a, 0 <= a -> Forall (fun c => 48 <= c <= 57) l -> 0 <= fold_left (fun a c => 10 * a + (c - 48)) l a).
      { induction l as [|c l IH]; intros a A Fl; [exact A|]. inversion Fl; subst. cbn [fold_left]. apply IH; [lia|assumption]. }
      apply G; [lia|exact F]. }
    destruct B as [->|B]; [reflexivity|]. apply s64_large; lia.
  - rewrite (get_size_large sp t w t' rest P N L H R). eexists _, _. split; [reflexivity|]. vm_compute. discriminate.
Qed.

(** * hbtest *)
Section Test.
Variables mh3 sha1 sha256 : halgo Z.
Variable files : chars -> option chars.

Lemma hparse_ok os : forall a d, (forall o c, In o os -> ~ hbad o c) -> forall kz lz,
  match hg_algo a with Some al => al | None => mh3 end = d -> hg_k a = w64 kz -> hg_l a = w64 lz ->
  exists r, hparse mh3 sha1 sha256 os a = Ok r /\
    match hg_algo r with Some al => al | None => mh3 end = last_of (opt_algo mh3 sha1 sha256) d os /\
    hg_k r = w64 (last_of opt_k kz os) /\ hg_l r = w64 (last_of opt_l lz os) /\
    hg_file r = last_of opt_in (hg_file a) os.
Proof.
  induction os as [|o os IH]; intros a d NB kz lz A K L.
  - exists a. cbn. auto.
  - assert (NB' : forall o c, In o os -> ~ hbad o c) by (intros; apply NB; right; assumption).
    destruct o as [n|z|z|f|]; cbn [hparse last_of fold_left opt_k opt_l opt_in opt_algo].
    + unfold chars_eqb, s_mh3, s_sha1, s_sha256, s_sha512.
      destruct (list_eq_dec Z.eq_dec n [77; 72; 51]) as [e|e].
      { destruct (IH {| hg_algo := Some mh3; hg_k := hg_k a; hg_l := hg_l a; hg_file := hg_file a |} mh3 NB' kz lz) as [r H]; auto.
        exists r. exact H. }
      destruct (list_eq_dec Z.eq_dec n [83; 72; 65; 49]) as [e1|e1].
      { destruct (IH {| hg_algo := Some sha1; hg_k := hg_k a; hg_l := hg_l a; hg_file := hg_file a |} sha1 NB' kz lz) as [r H]; auto.
        exists r. exact H. }
      destruct (list_eq_dec Z.eq_dec n [83; 72; 65; 50; 53; 54]) as [e2|e2].
      { destruct (IH {| hg_algo := Some sha256; hg_k := hg_k a; hg_l := hg_l a; hg_file := hg_file a |} sha256 NB' kz lz) as [r H]; auto.
        exists r. exact H. }
      destruct (list_eq_dec Z.eq_dec n [83; 72; 65; 53; 49; 50]) as [e3|e3].
      { exfalso. apply (NB (Ha n) 2); [left; reflexivity|]. right. split; congruence. }
      destruct (IH a d NB' kz lz A K L) as [r H]. exists r. exact H.
    + destruct (IH {| hg_algo := hg_algo a; hg_k := w64 z; hg_l := hg_l a; hg_file := hg_file a |} d NB' z lz) as [r H]; auto.
      exists r. exact H.
    + destruct (IH {| hg_algo := hg_algo a; hg_k := hg_k a; hg_l := w64 z; hg_file := hg_file a |} d NB' kz z) as [r H]; auto.
      exists r. exact H.
    + destruct (IH {| hg_algo := hg_algo a; hg_k := hg_k a; hg_l := hg_l a; hg_file := f |} d NB' kz lz) as [r H]; auto.
      exists r. exact H.
    + exfalso. apply (NB Hh 1); [left; reflexivity|]. left. auto.
Qed.
Lemma hparse_bad os1 o os2 c : forall a, (forall o c, In o os1 -> ~ hbad o c) -> hbad o c ->
  hparse mh3 sha1 sha256 (os1 ++ o :: os2) a = Exit c.
Proof.
  induction os1 as [|p os1 IH]; intros a NB B; cbn [app hparse].
  - destruct B as [[E1 E2]|[E1 E2]]; subst; reflexivity.
  - assert (NB' : forall o c, In o os1 -> ~ hbad o c) by (intros; apply NB; right; assumption).
    destruct p as [n|z|z|f|]; try (apply IH; assumption).
    + unfold chars_eqb, s_mh3, s_sha1, s_sha256, s_sha512.
      destruct (list_eq_dec Z.eq_dec n [77; 72; 51]); [apply IH; assumption|].
      destruct (list_eq_dec Z.eq_dec n [83; 72; 65; 49]); [apply IH; assumption|].
      destruct (list_eq_dec Z.eq_dec n [83; 72; 65; 50; 53; 54]); [apply IH; assumption|].
      destruct (list_eq_dec Z.eq_dec n [83; 72; 65; 53; 49; 50]) as [e3|e3]; [|apply IH; assumption].
      exfalso. apply (NB (Ha n) 2); [left; reflexivity|]. right. split; congruence.
    + exfalso. apply (NB Hh 1); [left; reflexivity|]. left. auto.
Qed.

Hypothesis V : algo_valid mh3 /\ algo_valid sha1 /\ algo_valid sha256.
Lemma algo_chosen os d : algo_valid d -> algo_valid (last_of (opt_algo mh3 sha1 sha256) d os).
Proof.
  destruct V as [V1 [V2 V3]]. revert d. induction os as [|o os IH]; intros d D; [exact D|].
  cbn [last_of fold_left]. apply IH. destruct o as [n|z|z|f|]; cbn [opt_algo]; auto.
  destruct (list_eq_dec Z.eq_dec n [77; 72; 51]); auto.
  destruct (list_eq_dec Z.eq_dec n [83; 72; 65; 49]); auto.
  destruct (list_eq_dec Z.eq_dec n [83; 72; 65; 50; 53; 54]); auto.
Qed.

Lemma hbtest_missing os : (forall o c, In o os -> ~ hbad o c) ->
  files (file_or_default (last_of opt_in [] os)) = None -> hbtest mh3 sha1 sha256 files os = Exit 1.
Proof.
  intros NB N. unfold hbtest.
  destruct (hparse_ok os hdefault mh3 NB 10000 140) as [r [E [A [K [L F]]]]]; try reflexivity.
  rewrite E. cbn [bind]. cbn zeta. rewrite A.
  destruct (new_hb_ok (Z.to_nat (hg_k r)) (Z.to_nat (hg_l r)) (Some (last_of (opt_algo mh3 sha1 sha256) mh3 os)))
    as [h0 [E0 _]]; [apply algo_chosen; apply V|]. rewrite E0. cbn [bind].
  rewrite name_eq, F. cbn [hdefault hg_file]. rewrite N. reflexivity.
Qed.

Lemma hbtest_ok os text b vs : (forall o c, In o os -> ~ hbad o c) ->
  files (file_or_default (last_of opt_in [] os)) = Some text ->
  is_number_text b vs text -> 0 < b < 2 ^ 63 ->
  let k := Z.to_nat (last_of opt_k 10000 os mod 2 ^ 64) in
  let l := Z.to_nat (last_of opt_l 140 os mod 2 ^ 64) in
  let al := last_of (opt_algo mh3 sha1 sha256) mh3 os in
  let zs := map (fun v => v mod 2 ^ b) vs in
  (k = 0%nat -> hbtest mh3 sha1 sha256 files os = UB DivByZero) /\
  ((exists i, (i < k)%nat /\ (l < length (belonging al k i zs))%nat) -> hbtest mh3 sha1 sha256 files os = Exit 1) /\
  ((0 < k)%nat -> (forall i, (i < k)%nat -> (length (belonging al k i zs) <= l)%nat) ->
   exists h r, hbtest mh3 sha1 sha256 files os = Ok (h, r) /\ reachable h /\ hb_k h = k /\
     (forall i, (i < k)%nat -> nth_error (hb_buckets h) i = Some (mkMvec (belonging al k i zs) false)) /\
     length (hb_buckets h) = k /\ printStats h false = Ok r).
Proof.
  intros NB Ft [tb [tn [ts [LY [Ub [Un F4]]]]]] B k l al zs.
  unfold hbtest.
  destruct (hparse_ok os hdefault mh3 NB 10000 140) as [r [E [A [K [L F]]]]]; try reflexivity.
  rewrite E. cbn [bind]. cbn zeta. rewrite A. fold al.
  assert (VA : algo_valid al) by (apply algo_chosen; apply V).
  rewrite K, L. change (Z.to_nat (w64 (last_of opt_k 10000 os))) with k. change (Z.to_nat (w64 (last_of opt_l 140 os))) with l.
  destruct (new_hb_ok k l (Some al) VA) as [h0 [E0 [W0 [K0 [L0 [A0 B0]]]]]]. rewrite E0. cbn [bind].
  rewrite name_eq, F. cbn [hdefault hg_file]. rewrite Ft.
  inversion LY as [|sp1 ? ? rest1 B1 LY1 R1 e1 e2]; subst. inversion LY1 as [|sp2 ? ? rest2 B2 LY2 R2 e3 e4]; subst.
  rewrite (get_size_word sp1 b tb _ B1 Ub R1).
  rewrite (s64_small b) by lia. destruct (Z.leb_spec b 0); [lia|].
  rewrite (get_size_word sp2 (Z.of_nat (length vs)) tn _ B2 Un R2).
  assert (KZ : w64 (last_of opt_k 10000 os) = Z.of_nat k).
  { unfold k. rewrite Z2Nat.id; [reflexivity|]. apply Z.mod_pos_bound. reflexivity. }
  rewrite KZ. rewrite Nat2Z.id.
  assert (RN : read_numbers (2 ^ b) (length vs) {| in_rest := rest2; in_good := true |} = Ok zs).
  { unfold read_numbers. destruct (read_loop (2 ^ b) vs ts F4 rest2 0%nat [] LY2) as [s Es].
    rewrite Es. reflexivity. }
  destruct k as [|k'] eqn:Ek.
  - split; [reflexivity|]. split; [intros [i [Hi _]]; lia|lia].
  - split; [discriminate|].
    destruct (Z.eqb_spec (Z.of_nat (S k')) 0); [lia|]. rewrite RN. cbn [bind].
    assert (LZ : length zs = length vs) by (unfold zs; apply map_length).
    rewrite <- LZ. change (for_up (length zs) 0 (fun i h => do z <- aget zs i; hb_add h z) h0) with (hb_add_list h0 zs (length zs)).
    destruct (add_history_l al (S k') l zs VA ltac:(lia)) as [h0' [E0' [AH1 AH2]]].
    assert (h0' = h0) by congruence. subst h0'. split.
    + intros HH. rewrite (AH2 HH). reflexivity.
    + intros _ HH. destruct (AH1 HH) as [h [Eh Hb]]. rewrite Eh. cbn [bind].
      pose proof (hb_add_list_wf zs (length zs) 0 h0 h W0 Eh) as [Wh [Kh [Lh _]]].
      assert (R : reachable h).
      { exists unit, (fun g => (0, g)), (S k'), l, (Some al), h0, tt, tt, [TAddList zs (length zs)].
        split; [exact VA|]. split; [exact E0|]. split; [constructor; [cbn; lia|constructor]|].
        cbn [run_table apply_top]. rewrite Eh. reflexivity. }
      assert (Kk : hb_k h = S k') by congruence.
      destruct (printStats_l h false R ltac:(lia)) as [s [v [_ [P _]]]].
      rewrite P. cbn [bind]. eexists h, _. split; [reflexivity|]. split; [exact R|]. split; [exact Kk|].
      split; [exact Hb|]. split; [destruct Wh as [WL _]; congruence|exact P].
Qed.

(** what is left once the options are read *)
Lemma hbtest_reads os text : (forall o c, In o os -> ~ hbad o c) ->
  files (file_or_default (last_of opt_in [] os)) = Some text ->
  let k := Z.to_nat (last_of opt_k 10000 os mod 2 ^ 64) in
  let l := Z.to_nat (last_of opt_l 140 os mod 2 ^ 64) in
  exists h0 : hb Z, new_hb k l (Some (last_of (opt_algo mh3 sha1 sha256) mh3 os)) = Ok h0 /\
  (forall s, get_size {| in_rest := text; in_good := true |} = (s, None) -> hbtest mh3 sha1 sha256 files os = UB Uninit) /\
  (forall s b, get_size {| in_rest := text; in_good := true |} = (s, Some b) -> s64 b <= 0 -> hbtest mh3 sha1 sha256 files os = Abort) /\
  (forall s b s2, get_size {| in_rest := text; in_good := true |} = (s, Some b) -> 0 < s64 b ->
     get_size s = (s2, None) -> hbtest mh3 sha1 sha256 files os = UB Uninit) /\
  (forall s b s2, get_size {| in_rest := text; in_good := true |} = (s, Some b) -> 0 < s64 b ->
     get_size s = (s2, Some 0) ->
     hbtest mh3 sha1 sha256 files os = if Nat.eqb k 0 then UB DivByZero else bind (printStats h0 false) (fun r => Ok (h0, r))).
Proof.
  intros NB Ft k l. unfold hbtest.
  destruct (hparse_ok os hdefault mh3 NB 10000 140) as [r [E [A [K [L F]]]]]; try reflexivity.
  rewrite E. cbn [bind]. cbn zeta. rewrite A.
  set (al := last_of (opt_algo mh3 sha1 sha256) mh3 os).
  assert (VA : algo_valid al) by (apply algo_chosen; apply V).
  rewrite K, L. change (Z.to_nat (w64 (last_of opt_k 10000 os))) with k. change (Z.to_nat (w64 (last_of opt_l 140 os))) with l.
  destruct (new_hb_ok k l (Some al) VA) as [h0 [E0 _]]. rewrite E0. cbn [bind].
  rewrite name_eq, F. cbn [hdefault hg_file]. rewrite Ft. exists h0. split; [reflexivity|].
  split; [|split; [|split]].
  - intros s G. rewrite G. reflexivity.
  - intros s b G B. rewrite G. destruct (Z.leb_spec (s64 b) 0); [reflexivity|lia].
  - intros s b s2 G B G2. rewrite G. destruct (Z.leb_spec (s64 b) 0); [lia|]. rewrite G2. reflexivity.
  - intros s b s2 G B G2. rewrite G. destruct (Z.leb_spec (s64 b) 0); [lia|]. rewrite G2.
    assert (KZ : w64 (last_of opt_k 10000 os) = Z.of_nat k).
    { unfold k. rewrite Z2Nat.id; [reflexivity|]. apply Z.mod_pos_bound. reflexivity. }
    rewrite KZ. destruct k as [|k']; [reflexivity|]. destruct (Z.eqb_spec (Z.of_nat (S k')) 0); [lia|]. reflexivity.
Qed.
Lemma hbtest_short os text : (forall o c, In o os -> ~ hbad o c) ->
  files (file_or_default (last_of opt_in [] os)) = Some text ->
  forall s b s2 n, get_size {| in_rest := text; in_good := true |} = (s, Some b) -> 0 < b < 2 ^ 63 ->
  get_size s = (s2, Some n) ->
  (forall f : Z -> Z, for_up (Z.to_nat n) 0 (fun _ '(s, zs) => do (s1, v) <- get_ZZ s; Ok (s1, zs ++ [f v])) (s2, []) = Abort) ->
  hbtest mh3 sha1 sha256 files os = if last_of opt_k 10000 os mod 2 ^ 64 =? 0 then UB DivByZero else Abort.
Proof.
  intros NB Ft s b s2 n G B G2 RD. unfold hbtest.
  destruct (hparse_ok os hdefault mh3 NB 10000 140) as [r [E [A [K [L F]]]]]; try reflexivity.
  rewrite E. cbn [bind]. cbn zeta. rewrite A.
  set (al := last_of (opt_algo mh3 sha1 sha256) mh3 os).
  assert (VA : algo_valid al) by (apply algo_chosen; apply V).
  destruct (new_hb_ok (Z.to_nat (hg_k r)) (Z.to_nat (hg_l r)) (Some al) VA) as [h0 [E0 _]]. rewrite E0. cbn [bind].
  rewrite name_eq, F. cbn [hdefault hg_file]. rewrite Ft, G, (s64_small b) by lia. destruct (Z.leb_spec b 0); [lia|]. rewrite G2, K.
  change (w64 (last_of opt_k 10000 os)) with (last_of opt_k 10000 os mod 2 ^ 64).
  destruct (_ =? 0); [reflexivity|]. unfold read_numbers. rewrite (RD (fun v => v mod 2 ^ b)). reflexivity.
Qed.
End Test.
