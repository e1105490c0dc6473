(** Properties of printStats, zzrndgen, hbtest and the number file *)
From Coq Require Import QArith Qround Qabs Lia.
From Verif Require Import Base Spec Lib NtlMiss StrIntModel HashBucketsModel HashBucketsSpec
  PRFModel PRFSpec PRFProofs MurmurModel FilesModel FilesSpec FilesStats FilesProofs PropHash HashBucketsProofs.
From Verif Require ShaSpec ShaProofs.
Open Scope Z_scope.

(** C92: average, deviation and the buckets listed by printStats *)
Theorem C92_print_figures : forall (T : Type) (h : hb T) full, reachable h -> (0 < hb_k h)%nat ->
  exists r, printStats h full = Ok r /\ print_stats h = Ok (rp_int r) /\
    (rp_avg r == mean (sizes h))%Q /\
    (rp_var r == rounded_variance (sizes h))%Q /\
    (rp_var r <= population_variance (sizes h))%Q /\
    ((rp_var r == 0)%Q <-> forall d, In d (deviations (sizes h)) -> (d < 1)%Q) /\
    length (rp_shown r) = (if full then hb_k h else Nat.min (hb_k h) 30) /\
    (forall j, (j < length (rp_shown r))%nat -> exists b, nth_error (hb_buckets h) j = Some b /\
       nth_error (rp_shown r) j = Some (j, length (mv_items b))).
Proof.
  intros T h full R K. destruct (printStats_l h full R K) as [s [v [E [P V]]]].
  pose proof (HashBucketsProofs.reachable_wf h R) as [WL _].
  assert (SL : (0 < length (sizes h))%nat) by (unfold sizes; rewrite map_length; lia).
  eexists. split; [exact P|]. cbn [rp_int rp_avg rp_var rp_shown]. split; [exact E|].
  split; [reflexivity|]. split; [exact V|].
  split; [rewrite V; apply rounded_le; exact SL|]. split; [rewrite V; apply rounded_zero; exact SL|].
  assert (N : (if full || Nat.ltb (hb_k h) 30 then hb_k h else 30%nat) = (if full then hb_k h else Nat.min (hb_k h) 30)).
  { destruct full; cbn [orb]; [reflexivity|]. destruct (Nat.ltb_spec (hb_k h) 30); lia. }
  rewrite N, map_length, seq_length. split; [reflexivity|].
  intros j Hj. assert (LJ : (j < hb_k h)%nat) by (destruct full; lia).
  destruct (aget_lt (hb_buckets h) j ltac:(lia)) as [b [_ Eb]]. exists b. split; [exact Eb|].
  replace b with (nth j (hb_buckets h) (mkMvec [] false)) by (exact (nth_error_nth _ _ _ Eb)).
  apply (map_nth_error (fun i => (i, length (mv_items (nth i (hb_buckets h) (mkMvec [] false)))))).
  rewrite (nth_error_nth' _ 0%nat) by (rewrite seq_length; exact Hj). rewrite seq_nth by exact Hj. reflexivity.
Qed.
Print Assumptions C92_print_figures.
Theorem C92_no_buckets : forall (T : Type) (h : hb T) full, reachable h -> hb_k h = 0%nat ->
  printStats h full = UB OutOfBounds.
Proof. intros T h full R K. unfold printStats. rewrite (C67_print_stats_empty T h R K). reflexivity. Qed.
Print Assumptions C92_no_buckets.

(** sizes 3 1 1 0: mean 5/4, deviations 7/4 1/4 1/4 5/4; reported (1 + 1)/4 *)
Example C92_nonvacuous : exists (h : hb Z) r, reachable h /\ printStats h false = Ok r /\ sizes h = [3; 1; 1; 0] /\
  (rp_var r == 1 # 2)%Q /\ (population_variance (sizes h) == 19 # 16)%Q /\ rp_shown r = [(0, 3); (1, 1); (2, 1); (3, 0)]%nat.
Proof.
  pose (h0 := match new_hb 4 5 (Some demo_algo) with Ok h => h | _ => mkHb 0 0 0 [] None None end).
  pose (h := match hb_add_list h0 [4; 8; 1; 12; 2] 5 with Ok h => h | _ => h0 end).
  exists h. eexists. split.
  { exists unit, (fun g => (0, g)), 4%nat, 5%nat, (Some demo_algo), h0, tt, tt, [TAddList [4; 8; 1; 12; 2] 5].
    split; [exact demo_algo_valid|]. split; [reflexivity|]. split; [constructor; [cbn; lia|constructor]|reflexivity]. }
  split; [reflexivity|]. split; [reflexivity|]. split; [reflexivity|]. split; reflexivity.
Qed.

(** C93: zzrndgen *)
Theorem C93_generator : forall sha rand fuel writable os pos,
  is_sha sha -> (forall o, In o os -> ~ zbad o /\ zopt_long o) ->
  let b := last_of opt_bits 80 os in
  let n := last_of opt_count 1000000 os mod 2 ^ 64 in
  let name := file_or_default (last_of opt_out [] os) in
  (writable name = false -> zzrndgen sha rand fuel writable os pos = Exit 1) /\
  (writable name = true -> 1 <= n <= 9 -> zzrndgen sha rand fuel writable os pos = UB DivByZero) /\
  (writable name = true -> n = 0 \/ 10 <= n ->
     exists vs text, zzrndgen sha rand fuel writable os pos = Ok (name, text) /\
       is_number_file b vs text /\ Z.of_nat (length vs) = n /\ Forall (fun v => 0 <= v < 2 ^ b) vs /\
       forall i, (i < length vs)%nat -> nth_error vs i = Some (prf_value sha (rand pos) (Z.of_nat i) b)).
Proof.
  intros sha rand fuel writable os pos HS F b n name.
  destruct (generator_ok sha rand fuel writable HS os pos) as [G1 [G2 [G3 R]]]; [apply Forall_forall; exact F|].
  split; [exact G1|]. split; [exact G2|]. intros W N. specialize (G3 W N). fold b n name in G3. fold b in R.
  assert (N0 : 0 <= n) by lia.
  set (vs := map (fun i => prf_value sha (rand pos) (Z.of_nat i) b) (seq 0 (Z.to_nat n))) in *.
  assert (LV : Z.of_nat (length vs) = n) by (unfold vs; rewrite map_length, seq_length, Z2Nat.id; lia).
  assert (RV : Forall (fun v => 0 <= v < 2 ^ b) vs).
  { apply Forall_forall. unfold vs. intros v. rewrite in_map_iff. intros [i [<- _]]. apply prf_value_range. lia. }
  eexists vs, _. split; [exact G3|]. split.
  { apply generated_is_file; [lia|exact N0| |symmetry; exact LV].
    eapply Forall_impl; [|exact RV]. cbn. lia. }
  split; [exact LV|]. split; [exact RV|]. intros i Hi. unfold vs. unfold vs in Hi. rewrite map_length, seq_length in Hi.
  apply (map_nth_error (fun i => prf_value sha (rand pos) (Z.of_nat i) b)).
  rewrite (nth_error_nth' _ 0%nat) by (rewrite seq_length; exact Hi). rewrite seq_nth by exact Hi. reflexivity.
Qed.
Print Assumptions C93_generator.
Theorem C93_refused : forall sha rand fuel writable os1 o os2 pos,
  (forall o, In o os1 -> ~ zbad o) -> zbad o -> zzrndgen sha rand fuel writable (os1 ++ o :: os2) pos = Exit 1.
Proof.
  intros sha rand fuel writable os1 o os2 pos F B. unfold zzrndgen.
  rewrite zparse_bad; [reflexivity|apply Forall_forall; exact F|exact B].
Qed.
Print Assumptions C93_refused.
Example C93_nonvacuous :
  zzrndgen demo_sha (fun _ => 5) 9 (fun _ => true) [Zn 3; Zb 4; Zn 10; Zo [120]] 0 =
    Ok ([120], [52; 10; 49; 48; 10] ++ concat (map (fun i => put_line (prf_value demo_sha 5 i 4)) [0; 1; 2; 3; 4; 5; 6; 7; 8; 9]) ++ [10]) /\
  zzrndgen demo_sha (fun _ => 5) 9 (fun _ => true) [Zn 3] 0 = UB DivByZero.
Proof. split; vm_compute; reflexivity. Qed.

(** C94: hbtest on a number file *)
Theorem C94_table_of_the_file : forall mh3 sha1 sha256 files os text b vs,
  algo_valid mh3 -> algo_valid sha1 -> algo_valid sha256 -> (forall o c, In o os -> ~ hbad o c) ->
  files (file_or_default (last_of opt_in [] os)) = Some text ->
  is_number_file b vs text -> 0 < b < 2 ^ 63 -> Z.of_nat (length vs) < 2 ^ 64 ->
  let k := Z.to_nat (last_of opt_k 10000 os mod 2 ^ 64) in
  let l := Z.to_nat (last_of opt_l 140 os mod 2 ^ 64) in
  let al := last_of (opt_algo mh3 sha1 sha256) mh3 os in
  let zs := map (fun v => v mod 2 ^ b) vs in
  (k = 0%nat -> hbtest mh3 sha1 sha256 files os = UB DivByZero) /\
  ((exists i, (i < k)%nat /\ (l < length (belonging al k i zs))%nat) -> hbtest mh3 sha1 sha256 files os = Exit 1) /\
  ((0 < k)%nat -> (forall i, (i < k)%nat -> (length (belonging al k i zs) <= l)%nat) ->
   exists h r, hbtest mh3 sha1 sha256 files os = Ok (h, r) /\ reachable h /\ hb_k h = k /\
     (forall i, (i < k)%nat -> nth_error (hb_buckets h) i = Some (mkMvec (belonging al k i zs) false)) /\
     length (hb_buckets h) = k /\ printStats h false = Ok r).
Proof.
  intros mh3 sha1 sha256 files os text b vs V1 V2 V3 NB Ft Hf B N.
  apply (hbtest_ok mh3 sha1 sha256 files (conj V1 (conj V2 V3)) os text b vs NB Ft); [|exact B]. apply file_is_text; [exact Hf|lia|exact N].
Qed.
Print Assumptions C94_table_of_the_file.
Theorem C94_refused : forall mh3 sha1 sha256 files os1 o os2 c,
  (forall o c, In o os1 -> ~ hbad o c) -> hbad o c -> hbtest mh3 sha1 sha256 files (os1 ++ o :: os2) = Exit c.
Proof. intros. unfold hbtest. rewrite (hparse_bad mh3 sha1 sha256 os1 o os2 c); [reflexivity|assumption|assumption]. Qed.
Print Assumptions C94_refused.
Theorem C94_no_file : forall mh3 sha1 sha256 files os,
  algo_valid mh3 -> algo_valid sha1 -> algo_valid sha256 -> (forall o c, In o os -> ~ hbad o c) ->
  files (file_or_default (last_of opt_in [] os)) = None -> hbtest mh3 sha1 sha256 files os = Exit 1.
Proof. intros mh3 sha1 sha256 files os V1 V2 V3. exact (hbtest_missing mh3 sha1 sha256 files (conj V1 (conj V2 V3)) os). Qed.
Print Assumptions C94_no_file.
Example C94_nonvacuous :
  exists h r, hbtest demo_algo demo_algo demo_algo
    (fun f => if chars_eqb f [120] then Some [52; 10; 51; 10; 53; 10; 54; 10; 49; 49; 10; 10] else None)
    [Hk 5; Hi [120]; Hl 2; Hk 3; Ha [83; 72; 65; 49]] = Ok (h, r) /\
    map mv_items (hb_buckets h) = [[6]; []; [5; 11]].
Proof.
  match goal with |- exists h r, ?e = Ok (h, r) /\ map mv_items (hb_buckets h) = ?l =>
    assert (X : match e with Ok (h, _) => map mv_items (hb_buckets h) = l | _ => False end) by (vm_compute; reflexivity);
    destruct e as [[h r]| | | |]; try contradiction; exists h, r; split; [reflexivity|exact X] end.
Qed.

(** C95: what zzrndgen wrote, hbtest reads *)
Theorem C95_round_trip : forall sha rand fuel writable zos pos name text mh3 sha1 sha256 files hos,
  is_sha sha -> (forall o, In o zos -> ~ zbad o /\ zopt_long o) ->
  algo_valid mh3 -> algo_valid sha1 -> algo_valid sha256 -> (forall o c, In o hos -> ~ hbad o c) ->
  zzrndgen sha rand fuel writable zos pos = Ok (name, text) ->
  file_or_default (last_of opt_in [] hos) = name -> files name = Some text ->
  let k := Z.to_nat (last_of opt_k 10000 hos mod 2 ^ 64) in
  let l := Z.to_nat (last_of opt_l 140 hos mod 2 ^ 64) in
  let al := last_of (opt_algo mh3 sha1 sha256) mh3 hos in
  let vs := map (fun i => prf_value sha (rand pos) (Z.of_nat i) (last_of opt_bits 80 zos))
                (seq 0 (Z.to_nat (last_of opt_count 1000000 zos mod 2 ^ 64))) in
  (0 < k)%nat -> (forall i, (i < k)%nat -> (length (belonging al k i vs) <= l)%nat) ->
  exists h r, hbtest mh3 sha1 sha256 files hos = Ok (h, r) /\
    forall i, (i < k)%nat -> nth_error (hb_buckets h) i = Some (mkMvec (belonging al k i vs) false).
Proof.
  intros sha rand fuel writable zos pos name text mh3 sha1 sha256 files hos HS F V1 V2 V3 NB E EN EF k l al vs K L.
  destruct (generator_ok sha rand fuel writable HS zos pos) as [G1 [G2 [G3 R]]]; [apply Forall_forall; exact F|].
  destruct (C93_generator sha rand fuel writable zos pos HS F) as [_ [_ G4]].
  set (b := last_of opt_bits 80 zos) in *. set (n := last_of opt_count 1000000 zos mod 2 ^ 64) in *.
  set (nm := file_or_default (last_of opt_out [] zos)) in *.
  assert (NR : 0 <= n < 2 ^ 64) by (apply Z.mod_pos_bound; lia).
  destruct (writable nm) eqn:W; [|rewrite G1 in E by reflexivity; discriminate].
  assert (N : n = 0 \/ 10 <= n).
  { destruct (Z.eq_dec n 0); [left; assumption|]. destruct (Z.le_gt_cases 10 n); [right; assumption|].
    rewrite G2 in E by (reflexivity || lia). discriminate. }
  destruct (G4 eq_refl N) as [vs' [text' [E' [IS [LV [RV NT]]]]]].
  rewrite E' in E. inversion E; subst nm text'. clear E.
  assert (VV : vs' = vs).
  { apply NtlMissProofs.nth_ext_error. intros i.
    assert (LL : length vs = Z.to_nat n) by (unfold vs; rewrite map_length, seq_length; reflexivity).
    destruct (Nat.lt_ge_cases i (length vs')) as [Hi|Hi].
    - rewrite NT by exact Hi. symmetry. apply (map_nth_error (fun i => prf_value sha (rand pos) (Z.of_nat i) b)).
      rewrite (nth_error_nth' _ 0%nat) by (rewrite seq_length; lia). rewrite seq_nth by lia. reflexivity.
    - rewrite (proj2 (nth_error_None vs' i)) by lia. symmetry. apply nth_error_None. lia. }
  subst vs'.
  assert (ZS : map (fun v => v mod 2 ^ b) vs = vs).
  { rewrite <- (map_id vs) at 2. apply map_ext_in. intros v Hv. rewrite Forall_forall in RV. apply Z.mod_small. apply RV. exact Hv. }
  destruct (C94_table_of_the_file mh3 sha1 sha256 files hos text b vs V1 V2 V3 NB) as [_ [_ H]];
    [rewrite EN; exact EF|exact IS|exact R|lia|].
  rewrite ZS in H. destruct (H K L) as [h [r [Eh [_ [_ [Hb _]]]]]]. exists h, r. split; [exact Eh|exact Hb].
Qed.
Print Assumptions C95_round_trip.
Definition files_sha (x : list Z) : list Z := map (fun i => (7 * fold_right Z.add 0 x + Z.of_nat i) mod 256) (seq 0 20).
Lemma files_is_sha : is_sha files_sha.
Proof.
  intros x. split; [reflexivity|]. apply Forall_forall. intros b Hb. apply in_map_iff in Hb.
  destruct Hb as [i [<- _]]. apply Z.mod_pos_bound. lia.
Qed.
Example C95_nonvacuous :
  exists text h r, zzrndgen files_sha (fun _ => 5) 9 (fun _ => true) [Zn 10; Zb 4] 0 = Ok (default_file, text) /\
    hbtest demo_algo demo_algo demo_algo (fun f => if chars_eqb f default_file then Some text else None) [Hk 3; Hl 9] = Ok (h, r) /\
    map mv_items (hb_buckets h) =
      map (fun i => filter (fun v => v mod 3 =? i) (map (fun i => prf_value files_sha 5 i 4) [0; 1; 2; 3; 4; 5; 6; 7; 8; 9])) [0; 1; 2].
Proof.
  pose (text := match zzrndgen files_sha (fun _ => 5) 9 (fun _ => true) [Zn 10; Zb 4] 0 with Ok (_, t) => t | _ => [] end).
  exists text.
  match goal with |- exists h r, ?a /\ ?e = Ok (h, r) /\ map mv_items (hb_buckets h) = ?l =>
    assert (Y : a) by (unfold text; vm_compute; reflexivity);
    assert (X : match e with Ok (h, _) => map mv_items (hb_buckets h) = l | _ => False end) by (vm_compute; reflexivity);
    destruct e as [[h r]| | | |]; try contradiction; exists h, r; split; [exact Y|]; split; [reflexivity|exact X] end.
Qed.

(** C104: any blanks, signs and leading zeros, and anything after the last number *)
Theorem C104_any_layout : forall mh3 sha1 sha256 files os text b vs,
  algo_valid mh3 -> algo_valid sha1 -> algo_valid sha256 -> (forall o c, In o os -> ~ hbad o c) ->
  files (file_or_default (last_of opt_in [] os)) = Some text ->
  is_number_text b vs text -> 0 < b < 2 ^ 63 ->
  let k := Z.to_nat (last_of opt_k 10000 os mod 2 ^ 64) in
  let l := Z.to_nat (last_of opt_l 140 os mod 2 ^ 64) in
  let al := last_of (opt_algo mh3 sha1 sha256) mh3 os in
  let zs := map (fun v => v mod 2 ^ b) vs in
  (k = 0%nat -> hbtest mh3 sha1 sha256 files os = UB DivByZero) /\
  ((exists i, (i < k)%nat /\ (l < length (belonging al k i zs))%nat) -> hbtest mh3 sha1 sha256 files os = Exit 1) /\
  ((0 < k)%nat -> (forall i, (i < k)%nat -> (length (belonging al k i zs) <= l)%nat) ->
   exists h r, hbtest mh3 sha1 sha256 files os = Ok (h, r) /\ reachable h /\ hb_k h = k /\
     (forall i, (i < k)%nat -> nth_error (hb_buckets h) i = Some (mkMvec (belonging al k i zs) false)) /\
     length (hb_buckets h) = k /\ printStats h false = Ok r).
Proof. intros mh3 sha1 sha256 files os text b vs V1 V2 V3. exact (hbtest_ok mh3 sha1 sha256 files (conj V1 (conj V2 V3)) os text b vs). Qed.
Print Assumptions C104_any_layout.
(** the text of one number ends at the first character that is no digit: "4", blank, "+2", tab, "05-1:" *)
Example C104_nonvacuous : is_number_text 4 [5; -1] [52; 32; 43; 50; 9; 48; 53; 45; 49; 58] /\
  match hbtest demo_algo demo_algo demo_algo (fun _ => Some [52; 32; 43; 50; 9; 48; 53; 45; 49; 58]) [Hk 7] with
  | Ok (h, _) => map mv_items (hb_buckets h) = [[]; [15]; []; []; []; [5]; []] | _ => False end.
Proof.
  split; [|vm_compute; reflexivity].
  assert (N4 : numeral 4 [52]) by (repeat split; [discriminate|repeat constructor; lia]).
  assert (N2 : numeral 2 [50]) by (repeat split; [discriminate|repeat constructor; lia]).
  assert (N5 : numeral 5 [48; 53]) by (repeat split; [discriminate|repeat constructor; lia]).
  assert (N1 : numeral 1 [49]) by (repeat split; [discriminate|repeat constructor; lia]).
  exists [52], [43; 50], [[48; 53]; [45; 49]]. split; [|split; [|split]].
  - apply (Lay_word [] [52] _ [32; 43; 50; 9; 48; 53; 45; 49; 58]); [constructor| |cbn; lia].
    apply (Lay_word [32] [43; 50] _ [9; 48; 53; 45; 49; 58]); [repeat constructor| |cbn; lia].
    apply (Lay_word [9] [48; 53] _ [45; 49; 58]); [constructor; [cbn; auto|constructor]| |cbn; lia].
    apply (Lay_word [] [45; 49] _ [58]); [constructor|constructor|cbn; lia].
  - exists 4, [52]. split; [exact N4|]. split; [reflexivity|]. left. auto.
  - exists 2, [50]. split; [exact N2|]. split; [reflexivity|]. left. auto.
  - constructor; [left; exact N5|]. constructor; [right; exists [49]; auto|constructor].
Qed.

(** C107: a file whose first two words are not a width and a count *)
Theorem C107_malformed_header : forall mh3 sha1 sha256 files os text,
  algo_valid mh3 -> algo_valid sha1 -> algo_valid sha256 -> (forall o c, In o os -> ~ hbad o c) ->
  files (file_or_default (last_of opt_in [] os)) = Some text ->
  let k := Z.to_nat (last_of opt_k 10000 os mod 2 ^ 64) in
  (Forall blank text -> hbtest mh3 sha1 sha256 files os = UB Uninit) /\
  (forall sp s, text = sp ++ s -> Forall blank sp -> no_number s -> hbtest mh3 sha1 sha256 files os = Abort) /\
  (forall sp t rest, text = sp ++ t ++ rest -> Forall blank sp -> bad_width t -> no_digit_first rest ->
     hbtest mh3 sha1 sha256 files os = Abort) /\
  (forall sp t b rest, text = sp ++ t ++ rest -> Forall blank sp -> unsigned_word b t -> 0 < b < 2 ^ 63 -> Forall blank rest ->
     hbtest mh3 sha1 sha256 files os = UB Uninit) /\
  (forall sp t b sp2 s, text = sp ++ t ++ sp2 ++ s -> Forall blank sp -> unsigned_word b t -> 0 < b < 2 ^ 63 ->
     Forall blank sp2 -> no_number s ->
     (k = 0%nat -> hbtest mh3 sha1 sha256 files os = UB DivByZero) /\
     ((0 < k)%nat -> exists h r, hbtest mh3 sha1 sha256 files os = Ok (h, r) /\ length (hb_buckets h) = k /\
        forall i, (i < k)%nat -> nth_error (hb_buckets h) i = Some (mkMvec [] false))).
Proof.
  intros mh3 sha1 sha256 files os text V1 V2 V3 NB Ft k.
  pose proof (algo_chosen mh3 sha1 sha256 (conj V1 (conj V2 V3)) os mh3 V1) as VA.
  destruct (hbtest_reads mh3 sha1 sha256 files (conj V1 (conj V2 V3)) os text NB Ft) as [h0 [E0 [R1 [R2 [R3 R4]]]]]. fold k in E0, R4.
  set (l := Z.to_nat (last_of opt_l 140 os mod 2 ^ 64)) in *.
  assert (ND : forall x, Forall blank x -> no_digit_first x).
  { intros x F. destruct F as [|c x C F]; [exact Logic.I|]. cbn in C |- *. lia. }
  split; [|split; [|split; [|split]]].
  - intros F. eapply R1. apply get_size_blank. exact F.
  - intros sp s -> F N. destruct (get_size_none sp s F N) as [rest G]. eapply R2; [exact G|]. vm_compute. discriminate.
  - intros sp t rest -> F B N. destruct (get_size_bad sp t rest F B N) as [s [b [G H]]]. eapply R2; [exact G|exact H].
  - intros sp t b rest -> F U B F2. eapply R3; [apply (get_size_word sp b t rest F U); apply ND; exact F2| |apply get_size_blank; exact F2].
    rewrite s64_small by lia. lia.
  - intros sp t b sp2 s -> F U B F2 N.
    assert (ND2 : no_digit_first (sp2 ++ s)).
    { destruct F2 as [|c sp2 C F2]; [|exact (ND (c :: nil) (Forall_cons c C (Forall_nil blank)))].
      destruct s as [|c s]; [contradiction|]. exact (proj1 (proj2 N)). }
    destruct (get_size_none sp2 s F2 N) as [rest G].
    assert (E := R4 _ b _ (get_size_word sp b t _ F U ND2) ltac:(rewrite s64_small by lia; lia) G).
    split; [intros K0; rewrite E, K0; reflexivity|]. intros K. rewrite E.
    destruct (Nat.eqb_spec k 0) as [K0|_]; [lia|].
    destruct (new_hb_ok k l (Some (last_of (opt_algo mh3 sha1 sha256) mh3 os)) VA) as [h1 [E1 [W1 [K1 [L1 [A1 B1]]]]]].
    assert (h1 = h0) by congruence. subst h1.
    assert (R : reachable h0).
    { exists unit, (fun g => (0, g)), k, l, (Some (last_of (opt_algo mh3 sha1 sha256) mh3 os)), h0, tt, tt, [].
      split; [exact VA|]. split; [exact E0|]. split; [constructor|reflexivity]. }
    destruct (printStats_l h0 false R ltac:(lia)) as [s0 [v [_ [P _]]]].
    rewrite P. cbn [bind]. eexists h0, _. split; [reflexivity|].
    split; [destruct W1 as [WL _]; congruence|]. intros i Hi. rewrite B1. apply nth_error_repeat'. exact Hi.
Qed.
Print Assumptions C107_malformed_header.
(** "x", "0 2 1 1", "18446744073709551616", "4", "4 x" *)
Example C107_nonvacuous :
  no_number [120] /\ no_number [45; 120] /\ bad_width [48] /\ bad_width [45; 49] /\
  bad_width [49; 56; 52; 52; 54; 55; 52; 52; 48; 55; 51; 55; 48; 57; 53; 53; 49; 54; 49; 54] /\
  map (fun text => match hbtest demo_algo demo_algo demo_algo (fun _ => Some text) [Hk 3] with
                   | Ok (h, _) => Ok (map mv_items (hb_buckets h)) | Exit c => Exit c | UB u => UB u | Abort => Abort | NoFuel => NoFuel end)
    [[32; 10]; [120]; [48; 32; 50; 32; 49; 32; 49]; [52]; [52; 32; 120]] =
    [UB Uninit; Abort; Abort; UB Uninit; Ok [[]; []; []]].
Proof.
  assert (B : forall c, c < 9 \/ 13 < c < 32 \/ 32 < c -> ~ blank c).
  { intros c H X. cbn in X. decompose [or] X; subst; try lia; contradiction. }
  assert (NU : forall d, 48 <= d <= 57 -> numeral (d - 48) [d]).
  { intros d D. split; [discriminate|]. split; [repeat constructor; lia|]. cbn. lia. }
  split; [|split; [|split; [|split; [|split]]]].
  - split; [apply B; lia|]. split; [lia|]. intros [X|X]; discriminate.
  - split; [apply B; lia|]. split; [lia|]. intros _. cbn. lia.
  - left. exists 0. split; [|left; reflexivity]. exists 0, [48]. split; [apply (NU 48); lia|]. split; [lia|]. left. auto.
  - left. exists (2 ^ 64 - 1). split; [|right; lia]. exists 1, [49]. split; [apply (NU 49); lia|]. split; [lia|]. right. auto.
  - right. eexists _, _. split; [split; [|split; [|reflexivity]]|split; [|left; reflexivity]].
    + discriminate.
    + repeat constructor; lia.
    + vm_compute. discriminate.
  - vm_compute. reflexivity.
Qed.
