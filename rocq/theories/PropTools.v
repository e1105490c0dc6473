(** Properties of the measuring programs polyfact and bptest *)
From Coq Require Import QArith Lia Znumtheory.
From Verif Require Import Base Spec Lib NtlMiss StrIntModel HashBucketsModel HashBucketsSpec PRFModel PRFSpec PRFProofs
  PolyModel PolySpec PolyProofs InterpProofs EopsiModel EopsiSpec EopsiBlind FilesModel FilesSpec ToolsModel ToolsSpec ToolsProofs ToolsBp PropHash PropFiles PropEopsi.
From Verif Require EopsiProofs ShaLife NtlMissProofs.
Open Scope Z_scope.

Lemma build_roots p rs : prime p -> Forall (fun r => 0 <= r < p) rs ->
  let f := build_from_roots p rs in
  monic p f /\ degree f = length rs /\ (forall x, value p f x = product_of_differences rs x mod p) /\ (forall x, root p f x <-> In x rs).
Proof.
  intros HP F. assert (P1 : 1 < p) by (destruct HP; lia). cbv zeta.
  destruct (build_shape p rs P1) as [M L]. split; [exact M|]. split; [unfold degree; rewrite L; lia|].
  assert (VV : forall x, value p (build_from_roots p rs) x = product_of_differences rs x mod p).
  { intros x. rewrite value_ev. apply build_from_roots_ev. }
  split; [exact VV|]. intros x. unfold root. rewrite VV.
  assert (Z0 : product_of_differences rs x mod p = 0 <-> exists r, In r rs /\ x mod p = r mod p).
  { rewrite <- (roots_product_zero p HP rs x). unfold cong. rewrite Zmod_0_l. reflexivity. }
  rewrite Z0. rewrite Forall_forall in F. split.
  - intros [B [r [I E]]]. rewrite !Z.mod_small in E by auto. subst r. exact I.
  - intros I. split; [apply F; exact I|]. exists x. auto.
Qed.
Lemma bits_small p b : num_bits p = b -> b < 2 ^ 63 -> num_bits p + 7 < 2 ^ 64.
Proof. lia. Qed.
Lemma drawn_in p sha seed i : prime p -> 0 <= drawn sha p seed i < p.
Proof. intros H. destruct H. apply Z.mod_pos_bound. lia. Qed.

(** C96: options of polyfact, and the polynomials it makes *)
Theorem C96_polyfact_refuses : forall sha rand fuel found clock canzass os1 o os2 now pos,
  Forall (fun o => ~ pbad o) os1 -> pbad o ->
  polyfact sha rand fuel found clock canzass (os1 ++ o :: os2) now pos = Exit 1.
Proof. intros. unfold polyfact. rewrite pparse_bad by assumption. reflexivity. Qed.
Print Assumptions C96_polyfact_refuses.
Theorem C96_polyfact_polynomials : forall sha rand fuel found clock canzass os now pos,
  is_sha sha -> Forall (fun o => ~ pbad o /\ popt_long o) os ->
  let bits := last_of opt_pbits 128 os in
  let n := last_of opt_pcount 100 os in
  let d := Z.to_nat (last_of opt_pdegree 60 os) in
  let p := found bits in
  let result := polyfact sha rand fuel found clock canzass os now pos in
  (1 < bits -> prime p /\ num_bits p = bits) ->
  (bits = 1 -> result = Abort) /\
  (1 < bits -> quiet_asked os = false -> n < 10 -> result = UB DivByZero) /\
  (1 < bits -> quiet_asked os = true \/ 10 <= n -> n < 2 ^ 61 ->
   exists r, result = Ok r /\ pr_modulo r = p /\ length (pr_polys r) = Z.to_nat n /\
     (forall j f, nth_error (pr_polys r) j = Some f ->
        let rs := map (fun i => drawn sha p (now mod p) (Z.of_nat (j * d + i))) (seq 0 d) in
        monic p f /\ degree f = d /\ (forall x, value p f x = product_of_differences rs x mod p) /\ (forall x, root p f x <-> In x rs)) /\
     (quiet_asked os = true -> pr_dots r = 0) /\ (quiet_asked os = false -> 10 <= pr_dots r <= 19)).
Proof.
  intros sha rand fuel found clock canzass os now pos HS F bits n d p result HP.
  destruct (pparse_ok os pdefault F) as [_ [RB [_ _]]]; [cbn; lia|cbn; lia|cbn; lia|]. cbn [pdefault pf_bits] in RB. fold bits in RB.
  split; [intros B; apply polyfact_tiny; assumption|]. split.
  - intros B Q N. destruct (HP B) as [PP NP]. apply polyfact_few; try assumption.
    + fold bits p. destruct PP; lia.
    + fold bits p. apply (bits_small p bits); lia.
  - intros B Q N. destruct (HP B) as [PP NP]. assert (P1 : 1 < p) by (destruct PP; lia).
    destruct (polyfact_ok sha HS rand fuel found clock canzass os now pos F B P1 (bits_small p bits NP ltac:(lia)) N Q)
      as [r [E [M [PL [DT _]]]]]. fold p n d in PL, DT, M.
    exists r. split; [exact E|]. split; [exact M|]. split; [rewrite PL, map_length, seq_length; reflexivity|]. split; [|split].
    + intros j f Hj. rewrite PL, nth_error_map in Hj.
      destruct (nth_error (seq 0 (Z.to_nat n)) j) as [j'|] eqn:Ej; [|discriminate]. cbn [option_map] in Hj. injection Hj as <-.
      assert (j' = j).
      { assert (j < Z.to_nat n)%nat by (rewrite <- (seq_length (Z.to_nat n) 0); apply nth_error_Some; congruence).
        rewrite (nth_error_nth' _ 0%nat), seq_nth in Ej by (rewrite ?seq_length; lia). injection Ej as <-. reflexivity. }
      subst j'. cbv zeta. unfold ppoly.
      destruct (build_roots p (proots p sha (now mod p) d j) PP) as [A [B' [C D']]].
      { apply Forall_forall. intros x Hx. apply in_map_iff in Hx. destruct Hx as [i [<- _]]. apply drawn_in. exact PP. }
      split; [exact A|]. split; [transitivity (length (proots p sha (now mod p) d j)); [exact B'|unfold proots; rewrite map_length, seq_length; reflexivity]|]. split; [exact C|exact D'].
    + intros Q'. rewrite DT, Q'. reflexivity.
    + intros Q'. rewrite DT, Q'. apply dots_range. destruct Q as [Q|Q]; [congruence|exact Q].
Qed.
Print Assumptions C96_polyfact_polynomials.

(** C97: the figures polyfact shows *)
Theorem C97_polyfact_figures : forall sha rand fuel found clock canzass os now pos,
  is_sha sha -> Forall (fun o => ~ pbad o /\ popt_long o) os ->
  let bits := last_of opt_pbits 128 os in
  let n := last_of opt_pcount 100 os in
  let p := found bits in
  1 < bits -> prime p -> num_bits p = bits -> quiet_asked os = true \/ 10 <= n -> n < 2 ^ 61 ->
  let generating j := Z.quot (clock (4 * j + 1)%nat - clock (4 * j)%nat) 1000 in
  let factoring j := Z.quot (clock (4 * j + 3)%nat - clock (4 * j + 2)%nat) 1000 in
  exists r, polyfact sha rand fuel found clock canzass os now pos = Ok r /\
    figures_right (map factoring (seq 0 (Z.to_nat n))) (2 * n - 1) (pr_fact r) /\
    (quiet_asked os = true -> pr_gen r = None) /\
    (quiet_asked os = false -> exists g, pr_gen r = Some g /\ figures_right (map generating (seq 0 (Z.to_nat n))) (2 * n - 1) g).
Proof.
  intros sha rand fuel found clock canzass os now pos HS F bits n p B PP NP Q N generating factoring.
  destruct (pparse_ok os pdefault F) as [_ [RB [_ RN]]]; [cbn; lia|cbn; lia|cbn; lia|]. cbn [pdefault pf_bits pf_n] in RB, RN. fold bits in RB. fold n in RN.
  assert (P1 : 1 < p) by (destruct PP; lia).
  destruct (polyfact_ok sha HS rand fuel found clock canzass os now pos F B P1 (bits_small p bits NP ltac:(lia)) N Q)
    as [r [E [_ [_ [_ [FF GG]]]]]]. fold n in FF, GG. rewrite Z2Nat.id in FF, GG by lia.
  exists r. split; [exact E|]. split; [exact FF|]. destruct (pr_gen r) as [g|].
  - destruct GG as [Q1 G1]. split; [intros Q2; congruence|]. intros _. exists g. auto.
  - split; [reflexivity|]. intros Q2. congruence.
Qed.
Print Assumptions C97_polyfact_figures.

(** ten experiments of degree 2 with the prime 61 (6 bits) at time 100, lap i lasting i milliseconds *)
Definition ex_clock (i : nat) : Z := Z.of_nat (i * i) * 1000000.
Example C96_nonvacuous :
  Forall (fun o => ~ pbad o /\ popt_long o) [Pb 6; Pn 10; Pd 2] /\ prime 61 /\ num_bits 61 = 6 /\
  match polyfact ex_sha ex_rand 9 (fun _ => 61) ex_clock (fun _ f => [(f, 1)]) [Pb 6; Pn 10; Pd 2] 100 0 with
  | Ok r => nth 1 (pr_polys r) [] = build_from_roots 61 [drawn ex_sha 61 39 2; drawn ex_sha 61 39 3] /\ length (pr_polys r) = 10%nat /\
      pr_dots r = 10 /\ fg_min (pr_fact r) = 5000 /\ fg_max (pr_fact r) = 77000 /\ fg_total (pr_fact r) = 410000 /\ (fg_avg (pr_fact r) == 41000)%Q
  | _ => False
  end.
Proof.
  split. { repeat constructor; cbn; lia. }
  split; [exact prime_61|]. split; [reflexivity|]. vm_compute. repeat split; reflexivity.
Qed.
Example C97_nonvacuous : exists r,
  polyfact ex_sha ex_rand 9 (fun _ => 61) ex_clock (fun _ f => [(f, 1)]) [Pb 6; Pn 3; Pq; Pd 2] 100 0 = Ok r /\
  figures_right [5000; 13000; 21000] 5 (pr_fact r) /\ (fg_avg (pr_fact r) == 13000)%Q /\ (fg_sd2 (pr_fact r) == 25600000)%Q.
Proof.
  destruct (C97_polyfact_figures ex_sha ex_rand 9 (fun _ => 61) ex_clock (fun _ f => [(f, 1)]) [Pb 6; Pn 3; Pq; Pd 2] 100 0 ex_is_sha)
    as [r [E [FR _]]]; [repeat constructor; cbn; lia|cbn; lia|exact prime_61|reflexivity|left; reflexivity|cbn; lia|].
  exists r. split; [exact E|]. change (map _ (seq 0 _)) with [5000; 13000; 21000] in FR. split; [exact FR|].
  destruct FR as [_ [A [_ [_ [_ S]]]]]. split; [rewrite A; reflexivity|].
  rewrite S; [reflexivity|]. intros x [<-|[<-|[<-|[]]]]; lia.
Qed.

Lemma fits_or_not k l (g : nat -> nat) : (exists j, (j < k)%nat /\ (l < g j)%nat) \/ (forall j, (j < k)%nat -> (g j <= l)%nat).
Proof.
  induction k as [|k [[j [A B]]|IH]]; [right; intros; lia|left; exists j; split; [lia|exact B]|].
  destruct (le_lt_dec (g k) l) as [H|H]; [|left; exists k; split; [lia|exact H]].
  right. intros j Hj. destruct (Nat.eq_dec j k) as [e|e]; [subst; exact H|apply IH; lia].
Qed.

(** C98: options of bptest, its table, polynomials and evaluations *)
Theorem C98_bptest_refuses : forall sha rand fuel found clock mh3 sha1 sha256 files os1 o os2 c pos,
  (forall o c, In o os1 -> ~ bbad o c) -> bbad o c ->
  bptest sha rand fuel found clock mh3 sha1 sha256 files (os1 ++ o :: os2) pos = Exit c.
Proof. intros. unfold bptest. rewrite (bparse_bad _ _ _ _ _ _ c) by assumption. reflexivity. Qed.
Print Assumptions C98_bptest_refuses.
Theorem C98_bptest_stops : forall sha rand fuel found clock mh3 sha1 sha256 files os pos,
  (forall o, In o os -> (forall c, ~ bbad o c) /\ bopt_long o) ->
  let bits := last_of opt_bbits 113 os in
  (bits = 1 -> bptest sha rand fuel found clock mh3 sha1 sha256 files os pos = Abort) /\
  (1 < bits -> files (file_or_default (last_of opt_bin [] os)) = None ->
   bptest sha rand fuel found clock mh3 sha1 sha256 files os pos = Exit 1).
Proof.
  intros. split; [intros; apply bptest_tiny; assumption|intros; apply bptest_no_file; assumption].
Qed.
Print Assumptions C98_bptest_stops.
Theorem C98_bptest_data : forall sha rand fuel found clock mh3 sha1 sha256 files os text width vs pos,
  is_sha sha -> algo_valid mh3 -> algo_valid sha1 -> algo_valid sha256 ->
  (forall o, In o os -> (forall c, ~ bbad o c) /\ bopt_long o) ->
  files (file_or_default (last_of opt_bin [] os)) = Some text -> is_integer_text width vs text ->
  let bits := last_of opt_bbits 113 os in
  let p := found bits in
  let k := Z.to_nat (last_of opt_bk 10000 os) in
  let l := Z.to_nat (last_of opt_bl 140 os) in
  let al := last_of (opt_balgo mh3 sha1 sha256) mh3 os in
  let D := (2 * l + 1)%nat in
  let zs := map (fun v => (v * 2 ^ (bits mod 2 ^ 32)) mod p) vs in
  let result := bptest sha rand fuel found clock mh3 sha1 sha256 files os pos in
  1 < bits -> prime p -> num_bits p = bits ->
  ((exists j, (j < k)%nat /\ (l < length (belonging al k j zs))%nat) -> result = Exit 1) /\
  ((forall j, (j < k)%nat -> (length (belonging al k j zs) <= l)%nat) ->
   exists r, result = Ok r /\ br_modulo r = p /\ length (hb_buckets (br_table r)) = k /\ length (br_polys r) = k /\ length (br_evals r) = k /\
     br_unknowns r = repeat 0 D ++ map (fun i => drawn sha p 0 (Z.of_nat i)) (seq 0 D) /\
     (forall j bucket f row, nth_error (hb_buckets (br_table r)) j = Some bucket ->
        nth_error (br_polys r) j = Some f -> nth_error (br_evals r) j = Some row ->
        (exists fill, mv_items bucket = belonging al k j zs ++ fill /\ Forall (fun x => 0 <= x < p) fill) /\
        length (mv_items bucket) = l /\
        monic p f /\ degree f = l /\ (forall x, root p f x <-> In x (mv_items bucket)) /\
        (forall x, value p f x = product_of_differences (mv_items bucket) x mod p) /\
        length row = (2 * D)%nat /\
        (forall i, (i < D)%nat -> nth i row 0 =
           (value p f 0 + drawn sha p (LE [84; 111; 112; 115; 121; 32; 75; 114; 101; 116; 116; 115] mod p) (Z.of_nat (j * D + i))) mod p) /\
        (forall i, (i < D)%nat -> nth (D + i) row 0 = value p f (drawn sha p 0 (Z.of_nat i))))).
Proof.
  intros sha rand fuel found clock mh3 sha1 sha256 files os text width vs pos HS V1 V2 V3 G Ft IS bits p k l al D zs result B PP NP.
  destruct (bparse_ok mh3 sha1 sha256 os bdefault mh3 G eq_refl) as [a [_ [_ [_ [_ [Bt [_ [_ [RL RB]]]]]]]]]; [cbn; lia|cbn; lia|cbn; lia|].
  cbn [bdefault bp_bits] in Bt. fold bits in Bt.
  assert (P1 : 1 < p) by (destruct PP; lia).
  destruct (bptest_ok mh3 sha1 sha256 files (conj V1 (conj V2 V3)) sha HS rand fuel found clock os text width vs pos G B Ft IS P1
    (bits_small p bits NP ltac:(lia))) as [H1 H2].
  fold bits p in H1, H2. rewrite NP in H1, H2. fold zs k l al D in H1, H2. fold result in H1, H2.
  split; [exact H1|]. intros HH. destruct (H2 HH) as [r [R [E [M [HK [HL [RB' [EP [EU [EE _]]]]]]]]]].
  exists r. split; [exact E|]. split; [exact M|]. split; [exact HL|]. split; [rewrite EP, map_length, seq_length; reflexivity|].
  split; [rewrite EE, map_length, seq_length; reflexivity|]. split; [exact EU|].
  intros j bk f row Hb Hf Hr.
  assert (LJ : (j < k)%nat) by (rewrite <- HL; apply nth_error_Some; congruence).
  destruct (RB' j LJ) as [fl [m [ER [LR [FF EB]]]]]. rewrite Hb in EB. injection EB as EB. subst bk. cbn [mv_items].
  rewrite EP, EopsiProofs.nth_error_map_seq in Hf by exact LJ. injection Hf as Hf.
  rewrite EE, EopsiProofs.nth_error_map_seq in Hr by exact LJ. injection Hr as Hr.
  assert (FR : Forall (fun x => 0 <= x < p) (R j)).
  { rewrite ER. apply Forall_app. split; [|exact FF]. apply Forall_forall. intros x Hx. unfold belonging in Hx. apply filter_In in Hx.
    destruct Hx as [Hx _]. apply in_map_iff in Hx. destruct Hx as [v [<- _]]. apply Z.mod_pos_bound. lia. }
  destruct (build_roots p (R j) PP FR) as [A [B' [C D']]]. rewrite Hf in A, B', C, D'.
  split; [exists fl; split; [exact ER|exact FF]|]. split; [exact LR|]. split; [exact A|]. split; [rewrite B'; exact LR|].
  split; [exact D'|]. split; [exact C|]. split; [rewrite <- Hr, map_length, seq_length; lia|].
  set (us := repeat 0 D ++ map (fun i => drawn sha p 0 (Z.of_nat i)) (seq 0 D)) in *.
  assert (LU : length us = (2 * D)%nat) by (unfold us; rewrite app_length, repeat_length, map_length, seq_length; lia).
  assert (CE : forall i, (i < 2 * D)%nat -> nth i row 0 = bp_cell p sha (le_val topsy mod p) D j (map (prod_value p (R j)) us) i).
  { intros i Hi. rewrite <- Hr. apply nth_error_nth. rewrite EopsiProofs.nth_error_map_seq by lia. reflexivity. }
  assert (NU : forall i u, nth_error us i = Some u -> nth i (map (prod_value p (R j)) us) 0 = value p f u).
  { intros i u Hu. rewrite C. apply nth_error_nth. rewrite nth_error_map, Hu. reflexivity. }
  split; intros i Hi; rewrite CE by lia; unfold bp_cell.
  - destruct (Nat.ltb_spec i D); [|lia]. rewrite (NU i 0); [rewrite <- LE_le_val; reflexivity|].
    unfold us. rewrite nth_error_app1 by (rewrite repeat_length; lia). apply ShaLife.nth_error_repeat. lia.
  - destruct (Nat.ltb_spec (D + i) D); [lia|]. apply NU.
    unfold us. rewrite nth_error_app2 by (rewrite repeat_length; lia). rewrite repeat_length.
    replace (D + i - D)%nat with i by lia. rewrite EopsiProofs.nth_error_map_seq by exact Hi. reflexivity.
Qed.
Print Assumptions C98_bptest_data.

(** C99: the seven times bptest prints *)
Theorem C99_bptest_times : forall sha rand fuel found clock mh3 sha1 sha256 files os pos r,
  algo_valid mh3 -> algo_valid sha1 -> algo_valid sha256 -> is_sha sha ->
  (forall o, In o os -> (forall c, ~ bbad o c) /\ bopt_long o) ->
  let bits := last_of opt_bbits 113 os in
  prime (found bits) -> num_bits (found bits) = bits ->
  (exists text width vs, files (file_or_default (last_of opt_bin [] os)) = Some text /\ is_integer_text width vs text) ->
  bptest sha rand fuel found clock mh3 sha1 sha256 files os pos = Ok r ->
  let phase i := Z.quot (clock (2 * i + 1)%nat - clock (2 * i)%nat) 1000 in
  br_times r = [phase 0%nat; phase 1%nat; phase 2%nat; phase 3%nat; phase 4%nat; phase 5%nat; phase 6%nat].
Proof.
  intros sha rand fuel found clock mh3 sha1 sha256 files os pos r V1 V2 V3 HS G bits PP NP [text [width [vs [Ft IS]]]] E phase.
  destruct (bparse_ok mh3 sha1 sha256 os bdefault mh3 G eq_refl) as [a [_ [_ [_ [_ [Bt [_ [_ [_ RB]]]]]]]]]; [cbn; lia|cbn; lia|cbn; lia|].
  cbn [bdefault bp_bits] in Bt. fold bits in Bt.
  assert (P1 : 1 < found bits) by (destruct PP; lia).
  assert (B : 1 < bits).
  { destruct (Z.eq_dec bits 1) as [e|e]; [|lia]. rewrite (bptest_tiny mh3 sha1 sha256 files sha rand fuel found clock os pos G e) in E. discriminate. }
  destruct (bptest_ok mh3 sha1 sha256 files (conj V1 (conj V2 V3)) sha HS rand fuel found clock os text width vs pos G B Ft IS P1
    (bits_small _ bits NP ltac:(lia))) as [H1 H2].
  destruct (fits_or_not (Z.to_nat (last_of opt_bk 10000 os)) (Z.to_nat (last_of opt_bl 140 os))
    (fun j => length (belonging (last_of (opt_balgo mh3 sha1 sha256) mh3 os) (Z.to_nat (last_of opt_bk 10000 os)) j
       (map (fun v => (v * 2 ^ (num_bits (found bits) mod 2 ^ 32)) mod found bits) vs)))) as [C|C].
  - rewrite (H1 C) in E. discriminate.
  - destruct (H2 C) as [r' [R [E' [_ [_ [_ [_ [_ [_ [_ T]]]]]]]]]]. rewrite E in E'. apply Ok_inj in E'. subst r'. exact T.
Qed.
Print Assumptions C99_bptest_times.

(** C100: what bptest calls blinded evaluations reveals every bucket polynomial *)
Theorem C100_second_half_reveals : forall sha rand fuel found clock mh3 sha1 sha256 files os text width vs pos,
  is_sha sha -> algo_valid mh3 -> algo_valid sha1 -> algo_valid sha256 ->
  (forall o, In o os -> (forall c, ~ bbad o c) /\ bopt_long o) ->
  files (file_or_default (last_of opt_bin [] os)) = Some text -> is_integer_text width vs text ->
  let bits := last_of opt_bbits 113 os in
  let p := found bits in
  let l := Z.to_nat (last_of opt_bl 140 os) in
  let D := (2 * l + 1)%nat in
  let points := map (fun i => drawn sha p 0 (Z.of_nat i)) (seq 0 D) in
  1 < bits -> prime p -> num_bits p = bits -> NoDup points ->
  forall r, bptest sha rand fuel found clock mh3 sha1 sha256 files os pos = Ok r ->
  forall j bucket row, nth_error (hb_buckets (br_table r)) j = Some bucket -> nth_error (br_evals r) j = Some row ->
  exists f, nth_error (br_polys r) j = Some f /\ interpolate p points (skipn D row) = Ok f /\
    (forall x, root p f x <-> In x (mv_items bucket)).
Proof.
  intros sha rand fuel found clock mh3 sha1 sha256 files os text width vs pos HS V1 V2 V3 G Ft IS bits p l D points B PP NP ND r E j bk row Hb Hr.
  destruct (C98_bptest_data sha rand fuel found clock mh3 sha1 sha256 files os text width vs pos HS V1 V2 V3 G Ft IS B PP NP) as [H1 H2].
  fold bits p in H1, H2.
  destruct (fits_or_not (Z.to_nat (last_of opt_bk 10000 os)) (Z.to_nat (last_of opt_bl 140 os))
    (fun j => length (belonging (last_of (opt_balgo mh3 sha1 sha256) mh3 os) (Z.to_nat (last_of opt_bk 10000 os)) j
       (map (fun v => (v * 2 ^ (bits mod 2 ^ 32)) mod p) vs)))) as [C|C].
  - rewrite (H1 C) in E. discriminate.
  - destruct (H2 C) as [r' [E' [_ [HL [LP [LE' [_ HJ]]]]]]]. rewrite E in E'. apply Ok_inj in E'. subst r'.
    assert (LJ : (j < length (br_polys r))%nat) by (rewrite LP, <- HL; apply nth_error_Some; congruence).
    destruct (nth_error (br_polys r) j) as [f|] eqn:Ef; [|apply nth_error_None in Ef; lia].
    destruct (HJ j bk f row Hb Ef Hr) as [_ [LB [MO [DG [RT [_ [LR [_ SH]]]]]]]]. fold l in LB, DG, LR, SH. fold D in LR, SH.
    exists f. split; [reflexivity|]. split; [|exact RT].
    assert (SK : skipn D row = map (value p f) points).
    { apply NtlMissProofs.nth_ext_error. intros i. rewrite nth_error_skipn.
      destruct (Nat.ltb_spec i D) as [Hi|Hi].
      - rewrite (nth_error_nth' row 0) by lia. rewrite SH by exact Hi. unfold points. rewrite map_map, EopsiProofs.nth_error_map_seq by exact Hi. reflexivity.
      - rewrite (proj2 (nth_error_None row (D + i))) by lia. symmetry. apply nth_error_None. unfold points. rewrite !map_length, seq_length. lia. }
    rewrite SK. apply interpolate_recovers; try assumption.
    + apply Forall_forall. intros x Hx. apply in_map_iff in Hx. destruct Hx as [i [<- _]]. apply drawn_in. exact PP.
    + apply MO.
    + unfold points. rewrite map_length, seq_length. unfold degree in DG. unfold D. lia.
Qed.
Print Assumptions C100_second_half_reveals.

(** a file with the numbers 3, 5 and 60 of 6 bits; the prime 61, three buckets of two elements *)
Definition ex_file : chars := [54; 10; 51; 10; 51; 10; 53; 10; 54; 48; 10; 10].
Definition ex_files (f : chars) : option chars := if chars_eqb f [122; 122; 46; 100; 97; 116] then Some ex_file else None.
Definition ex_bopts : list bopt := [Bk 3; Bl 2; Bp 6; Bj 4].
Lemma ex_bopts_good : forall o, In o ex_bopts -> (forall c, ~ bbad o c) /\ bopt_long o.
Proof. intros o H. cbn in H. destruct H as [<-|[<-|[<-|[<-|[]]]]]; split; try (intros c HB; cbn in HB; lia); cbn; lia. Qed.
Lemma ex_is_file : is_integer_text 6 [3; 5; 60] ex_file.
Proof.
  apply FilesProofs.file_is_integers; [|reflexivity].
  exists [[54]; [51]; [51]; [53]; [54; 48]]. split; [|reflexivity].
  repeat constructor; try discriminate; try lia; cbn; try lia.
Qed.

Example C98_nonvacuous :
  bptest files_sha ex_rand 9 (fun _ => 61) ex_clock ex_algo ex_algo ex_algo ex_files (ex_bopts ++ [Bl 1]) 0 = Exit 1 /\
  match bptest files_sha ex_rand 9 (fun _ => 61) ex_clock ex_algo ex_algo ex_algo ex_files ex_bopts 0 with
  | Ok r => map mv_items (firstn 1 (hb_buckets (br_table r))) = [[(3 * 64) mod 61; (5 * 64) mod 61]] /\
      nth 0 (br_polys r) [] = [(9 * 15) mod 61; (- (9 + 15)) mod 61; 1] /\ length (br_evals r) = 3%nat /\
      br_unknowns r = [0; 0; 0; 0; 0; 0; 7; 14; 21; 28]
  | _ => False
  end.
Proof. split; [vm_compute; reflexivity|]. vm_compute. repeat split; reflexivity. Qed.
Example C99_nonvacuous : exists r,
  bptest files_sha ex_rand 9 (fun _ => 61) ex_clock ex_algo ex_algo ex_algo ex_files ex_bopts 0 = Ok r /\
  br_times r = [1000; 5000; 9000; 13000; 17000; 21000; 25000].
Proof.
  match goal with |- exists r, ?e = Ok r /\ _ => assert (X : match e with Ok _ => True | _ => False end) by (vm_compute; exact Logic.I);
    destruct e as [r| | | |] eqn:E; try contradiction end.
  exists r. split; [reflexivity|].
  refine (C99_bptest_times files_sha ex_rand 9 (fun _ => 61) ex_clock ex_algo ex_algo ex_algo ex_files ex_bopts 0 r
    ex_algo_valid ex_algo_valid ex_algo_valid files_is_sha ex_bopts_good prime_61 eq_refl _ E).
  exists ex_file, 6, [3; 5; 60]. split; [reflexivity|]. exact ex_is_file.
Qed.
(** the first bucket's polynomial, from its row *)
Example C100_nonvacuous : exists r row,
  bptest files_sha ex_rand 9 (fun _ => 61) ex_clock ex_algo ex_algo ex_algo ex_files ex_bopts 0 = Ok r /\
  nth_error (br_evals r) 0 = Some row /\ NoDup (map (fun i => drawn files_sha 61 0 (Z.of_nat i)) (seq 0 5)) /\
  exists f, nth_error (br_polys r) 0 = Some f /\ interpolate 61 [0; 7; 14; 21; 28] (skipn 5 row) = Ok f.
Proof.
  match goal with |- exists r row, ?e = Ok r /\ _ => assert (X : match e with Ok r => length (hb_buckets (br_table r)) = 3%nat /\ length (br_evals r) = 3%nat | _ => False end) by (vm_compute; split; reflexivity);
    destruct e as [r| | | |] eqn:E; try contradiction end.
  destruct X as [X1 X2].
  destruct (nth_error (br_evals r) 0) as [row|] eqn:Er; [|apply nth_error_None in Er; lia].
  destruct (nth_error (hb_buckets (br_table r)) 0) as [bk|] eqn:Eb; [|apply nth_error_None in Eb; lia].
  assert (EP : map (fun i => drawn files_sha 61 0 (Z.of_nat i)) (seq 0 5) = [0; 7; 14; 21; 28]) by (vm_compute; reflexivity).
  assert (ND : NoDup (map (fun i => drawn files_sha 61 0 (Z.of_nat i)) (seq 0 5))) by (rewrite EP; repeat constructor; cbn; intuition congruence).
  exists r, row. split; [reflexivity|]. split; [exact Er|]. split; [exact ND|].
  destruct (C100_second_half_reveals files_sha ex_rand 9 (fun _ => 61) ex_clock ex_algo ex_algo ex_algo ex_files ex_bopts ex_file 6 [3; 5; 60] 0
    files_is_sha ex_algo_valid ex_algo_valid ex_algo_valid ex_bopts_good eq_refl ex_is_file ltac:(cbn; lia) prime_61 eq_refl ND r E 0%nat bk row Eb Er)
    as [f [H1 [H2 _]]].
  exists f. split; [exact H1|]. rewrite <- EP. exact H2.
Qed.

(** C112: number files bptest and hbtest cannot read to the end, and files that differ in their layout only *)
Theorem C112_same_numbers : forall sha rand fuel found clock mh3 sha1 sha256 os pos text1 text2 width1 width2 vs,
  is_integer_text width1 vs text1 -> is_integer_text width2 vs text2 ->
  bptest sha rand fuel found clock mh3 sha1 sha256 (fun _ => Some text1) os pos =
  bptest sha rand fuel found clock mh3 sha1 sha256 (fun _ => Some text2) os pos.
Proof.
  intros sha rand fuel found clock mh3 sha1 sha256 os pos text1 text2 width1 width2 vs H1 H2.
  destruct (integers_read _ _ _ H1) as [s1 [t1 [A1 [B1 C1]]]]. destruct (integers_read _ _ _ H2) as [s2 [t2 [A2 [B2 C2]]]].
  unfold bptest. destruct (bparse mh3 sha1 sha256 os bdefault) as [a| | | |]; [|reflexivity..]. cbn [bind].
  destruct (gen_prime found (bp_bits a)) as [p| | | |]; [|reflexivity..]. cbn [bind]. cbn zeta.
  destruct (new_hb _ _ _) as [h0| | | |]; [|reflexivity..]. cbn [bind].
  rewrite A1, A2. cbn [bind]. rewrite B1, B2. destruct (bp_k a =? 0); [reflexivity|]. rewrite Nat2Z.id, C1, C2. reflexivity.
Qed.
Print Assumptions C112_same_numbers.
Theorem C112_unreadable : forall sha rand fuel found clock mh3 sha1 sha256 files os pos text,
  algo_valid mh3 -> algo_valid sha1 -> algo_valid sha256 ->
  (forall o, In o os -> (forall c, ~ bbad o c) /\ bopt_long o) -> 1 < last_of opt_bbits 113 os ->
  files (file_or_default (last_of opt_bin [] os)) = Some text ->
  let result := bptest sha rand fuel found clock mh3 sha1 sha256 files os pos in
  (no_integer text -> result = Abort) /\
  (forall sp t b rest, text = sp ++ t ++ rest -> Forall blank sp -> signed_word b t -> Forall blank rest -> result = UB Uninit) /\
  (forall sp t b sp2 s empty width, text = sp ++ t ++ sp2 ++ s -> Forall blank sp -> signed_word b t -> Forall blank sp2 -> no_number s ->
     is_integer_text width [] empty ->
     result = bptest sha rand fuel found clock mh3 sha1 sha256 (fun _ => Some empty) os pos) /\
  (forall tb tn ts tail b n vs, words_then (tb :: tn :: ts) tail text -> signed_word b tb ->
     unsigned_word n tn -> Forall2 signed_word vs ts -> Z.of_nat (length vs) < n -> no_integer tail -> result = Abort) /\
  (forall tb tn b w tail, words_then [tb; tn] tail text -> signed_word b tb ->
     (exists t, numeral w t /\ (tn = t \/ tn = 43 :: t \/ tn = 45 :: t)) -> 2 ^ 64 <= w -> result = Abort).
Proof.
  intros sha rand fuel found clock mh3 sha1 sha256 files os pos text V1 V2 V3 G B Ft result.
  destruct (bptest_reads mh3 sha1 sha256 files (conj V1 (conj V2 V3)) sha rand fuel found clock os text pos G B Ft) as [R1 [R2 [R3 R4]]].
  fold result in R1, R2, R3, R4.
  assert (ND : forall x, Forall blank x -> no_digit_first x).
  { intros x F. destruct F as [|c x C F]; [exact Logic.I|]. cbn in C |- *. lia. }
  split; [|split; [|split; [|split]]].
  - intros N. apply R1. apply FilesProofs.get_ZZ_none. exact N.
  - intros sp t b rest -> F U F2. eapply R2; [apply FilesProofs.get_ZZ_word; [exact F|exact U|apply ND; exact F2]|apply FilesProofs.get_size_blank; exact F2].
  - intros sp t b sp2 s empty width -> F U F2 N IE.
    assert (ND2 : no_digit_first (sp2 ++ s)).
    { destruct F2 as [|c sp2 C F2]; [|exact (ND (c :: nil) (Forall_cons c C (Forall_nil blank)))].
      destruct s as [|c s]; [contradiction|]. exact (proj1 (proj2 N)). }
    destruct (FilesProofs.get_size_none sp2 s F2 N) as [rest E].
    exact (R4 _ b _ empty width (FilesProofs.get_ZZ_word sp b t _ F U ND2) E IE).
  - intros tb tn ts tail b n vs L Ub Un F Hn N.
    inversion L as [|sp1 t1 ts1 rest1 tl1 B1 L1 N1 e1 e2]; subst. inversion L1 as [|sp2 t2 ts2 rest2 tl2 B2 L2 N2 e3 e4]; subst.
    eapply R3; [apply (FilesProofs.get_ZZ_word sp1 b tb _ B1 Ub N1)|apply (FilesProofs.get_size_word sp2 n tn _ B2 Un N2)|].
    intros f. apply (FilesProofs.read_loop_short f vs ts F tail); [exact L2|exact N|lia].
  - intros tb tn b w tail L Ub [t [Nw H]] W.
    inversion L as [|sp1 t1 ts1 rest1 tl1 B1 L1 N1 e1 e2]; subst. inversion L1 as [|sp2 t2 ts2 rest2 tl2 B2 L2 N2 e3 e4]; subst.
    eapply R3; [apply (FilesProofs.get_ZZ_word sp1 b tb _ B1 Ub N1)|apply (FilesProofs.get_size_large sp2 tn w t _ B2 Nw W H N2)|].
    intros f. destruct (Z.to_nat (2 ^ 64 - 1)) as [|n] eqn:En; [|reflexivity].
    exfalso. assert (Z.of_nat (Z.to_nat (2 ^ 64 - 1)) = 2 ^ 64 - 1) by (apply Z2Nat.id; lia). rewrite En in H0. discriminate.
Qed.
Print Assumptions C112_unreadable.
Theorem C112_hbtest_short : forall mh3 sha1 sha256 files os text tb tn ts tail b n vs,
  algo_valid mh3 -> algo_valid sha1 -> algo_valid sha256 -> (forall o c, In o os -> ~ hbad o c) ->
  files (file_or_default (last_of opt_in [] os)) = Some text ->
  words_then (tb :: tn :: ts) tail text -> unsigned_word b tb -> 0 < b < 2 ^ 63 ->
  unsigned_word n tn -> Forall2 signed_word vs ts -> Z.of_nat (length vs) < n -> no_integer tail ->
  hbtest mh3 sha1 sha256 files os = if last_of opt_k 10000 os mod 2 ^ 64 =? 0 then UB DivByZero else Abort.
Proof.
  intros mh3 sha1 sha256 files os text tb tn ts tail b n vs V1 V2 V3 NB Ft L Ub B Un F Hn N.
  inversion L as [|sp1 t1 ts1 rest1 tl1 B1 L1 N1 e1 e2]; subst. inversion L1 as [|sp2 t2 ts2 rest2 tl2 B2 L2 N2 e3 e4]; subst.
  eapply (FilesProofs.hbtest_short mh3 sha1 sha256 files (conj V1 (conj V2 V3)) os _ NB Ft);
    [apply (FilesProofs.get_size_word sp1 b tb _ B1 Ub N1)|exact B|apply (FilesProofs.get_size_word sp2 n tn _ B2 Un N2)|].
  intros f. apply (FilesProofs.read_loop_short f vs ts F tail); [exact L2|exact N|lia].
Qed.
Print Assumptions C112_hbtest_short.
(** "x", "-7 ", "7 x", "7 2 5"; then "7 2 05 -1" and "-9 +2 5-1 x" *)
Definition bad_files : list chars := [[120]; [45; 55; 32]; [55; 32; 120]; [55; 32; 50; 32; 53]].
Example C112_nonvacuous :
  map (fun text => match bptest files_sha ex_rand 9 (fun _ => 61) ex_clock ex_algo ex_algo ex_algo (fun _ => Some text) ex_bopts 0 with
                   | Ok r => Ok (length (br_polys r)) | Exit c => Exit c | UB u => UB u | Abort => Abort | NoFuel => NoFuel end) bad_files =
    [Abort; UB Uninit; Ok 3%nat; Abort] /\
  no_integer [120] /\ no_number [120] /\ signed_word (- 7) [45; 55] /\
  words_then [[55]; [50]; [53]] [] [55; 32; 50; 32; 53] /\ words_then [[55]; [45; 51]; [53]] [32; 120] [55; 32; 45; 51; 32; 53; 32; 120] /\
  unsigned_word (2 ^ 64 - 3) [45; 51] /\ no_integer [] /\ no_integer [32; 120] /\
  is_integer_text 7 [5; -1] [55; 32; 50; 32; 48; 53; 32; 45; 49] /\ is_integer_text (-9) [5; -1] [45; 57; 32; 43; 50; 32; 53; 45; 49; 32; 120] /\
  hbtest ex_algo ex_algo ex_algo (fun _ => Some [55; 32; 50; 32; 53]) [] = Abort.
Proof.
  assert (B : forall c, c < 9 \/ 13 < c < 32 \/ 32 < c -> ~ blank c).
  { intros c H X. cbn in X. decompose [or] X; subst; try lia; contradiction. }
  assert (BL : Forall blank [32]) by (constructor; [left; reflexivity|constructor]).
  assert (NU : forall d, 48 <= d <= 57 -> numeral (d - 48) [d]).
  { intros d D. split; [discriminate|]. split; [repeat constructor; lia|]. cbn. lia. }
  assert (N5 : numeral 5 [48; 53]) by (split; [discriminate|]; split; [repeat constructor; lia|reflexivity]).
  split; [vm_compute; reflexivity|].
  split; [exists [], [120]; split; [reflexivity|]; split; [constructor|]; split; [lia|]; split; [lia|]; apply B; lia|].
  split; [split; [apply B; lia|]; split; [lia|]; intros [X|X]; discriminate|].
  split; [right; exists [55]; split; [reflexivity|]; apply (NU 55); lia|].
  split; [apply (Words_word [] [55] _ [32; 50; 32; 53] []); [constructor| |cbn; lia];
          apply (Words_word [32] [50] _ [32; 53] []); [exact BL| |cbn; lia];
          apply (Words_word [32] [53] _ [] []); [exact BL|constructor|exact Logic.I]|].
  split; [apply (Words_word [] [55] _ [32; 45; 51; 32; 53; 32; 120] [32; 120]); [constructor| |cbn; lia];
          apply (Words_word [32] [45; 51] _ [32; 53; 32; 120] [32; 120]); [exact BL| |cbn; lia];
          apply (Words_word [32] [53] _ [32; 120] [32; 120]); [exact BL|constructor|cbn; lia]|].
  split; [exists 3, [51]; split; [apply (NU 51); lia|]; split; [lia|]; right; split; reflexivity|].
  split; [exists [], []; split; [reflexivity|]; split; constructor|].
  split; [exists [32], [120]; split; [reflexivity|]; split; [exact BL|]; split; [lia|]; split; [lia|]; apply B; lia|].
  split; [|split; [|vm_compute; reflexivity]].
  - exists [55], [50], [[48; 53]; [45; 49]]. split; [|split; [|split]].
    + apply (Lay_word [] [55] _ [32; 50; 32; 48; 53; 32; 45; 49]); [constructor| |cbn; lia].
      apply (Lay_word [32] [50] _ [32; 48; 53; 32; 45; 49]); [exact BL| |cbn; lia].
      apply (Lay_word [32] [48; 53] _ [32; 45; 49]); [exact BL| |cbn; lia].
      apply (Lay_word [32] [45; 49] _ []); [exact BL|constructor|exact Logic.I].
    + left. apply (NU 55); lia.
    + exists 2, [50]. split; [apply (NU 50); lia|]. split; [reflexivity|]. left. auto.
    + constructor; [left; exact N5|]. constructor; [right; exists [49]; split; [reflexivity|]; apply (NU 49); lia|constructor].
  - exists [45; 57], [43; 50], [[53]; [45; 49]]. split; [|split; [|split]].
    + apply (Lay_word [] [45; 57] _ [32; 43; 50; 32; 53; 45; 49; 32; 120]); [constructor| |cbn; lia].
      apply (Lay_word [32] [43; 50] _ [32; 53; 45; 49; 32; 120]); [exact BL| |cbn; lia].
      apply (Lay_word [32] [53] _ [45; 49; 32; 120]); [exact BL| |cbn; lia].
      apply (Lay_word [] [45; 49] _ [32; 120]); [constructor|constructor|cbn; lia].
    + right. exists [57]. split; [reflexivity|]. apply (NU 57); lia.
    + exists 2, [50]. split; [apply (NU 50); lia|]. split; [reflexivity|]. left. auto.
    + constructor; [left; apply (NU 53); lia|]. constructor; [right; exists [49]; split; [reflexivity|]; apply (NU 49); lia|constructor].
Qed.
