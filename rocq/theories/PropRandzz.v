(** C121: the example program randomzzgen. *)
From Coq Require Import Lia.
From Verif Require Import Base Lib NtlMiss PRFModel PRFSpec PRFProofs MurmurModel FilesModel FilesSpec FilesProofs
  RandzzModel RandzzSpec RandzzProofs.

(** Integers below one are skipped, each with a new prompt; the first integer
    from one on is taken, cut to the largest int.  The program then lists ten
    numbers of at most that many bits, number i (from 1) being the PRF of the
    first rand() value at index i-1. *)
Theorem C121_listing : forall sha rand fuel pos ts vs t v tail input, is_sha sha ->
  Forall2 int_word vs ts -> Forall (fun v => - 2 ^ 31 <= v <= 0) vs -> int_word v t -> 1 <= v ->
  words_then (ts ++ [t]) tail input -> (length ts < fuel)%nat ->
  let bits := Z.min v (2 ^ 31 - 1) in
  exists head lines,
    randomzzgen sha rand fuel input pos = Ok (concat (repeat prompt_text (S (length ts))) ++ head ++ concat lines) /\
    is_heading bits head /\ length lines = 10%nat /\
    forall i l, nth_error lines i = Some l ->
      is_line (Z.of_nat i + 1) (prf_value sha (rand pos) (Z.of_nat i) bits) l /\
      0 <= prf_value sha (rand pos) (Z.of_nat i) bits < 2 ^ bits.
Proof.
  intros sha rand fuel pos ts vs t v tail input HS H1 H2 H3 Hv HW HF bits.
  assert (Hb : 1 <= bits < 2 ^ 31) by (unfold bits; lia).
  unfold randomzzgen. rewrite (ask_value ts vs t v tail input fuel) by assumption. cbn [bind]. fold bits.
  unfold randomSeed. cbn [p_pos new_prf].
  match goal with |- context [for_up _ _ _ (?s, ?tx)] =>
    destruct (lines_ok sha HS rand bits (rand pos) Hb 10 s tx) as (st' & E & _) end.
  { exact (new_prf_wf pos). }
  rewrite E. cbn [bind]. clear E.
  exists (t_head1 ++ dec_text bits ++ t_head2 ++ [10]), (map (the_line sha bits (rand pos)) (seq 0 10)).
  split; [|split; [|split]].
  - rewrite <- app_assoc. reflexivity.
  - exists (dec_text bits). split; [apply ShaProofs.dec_text_decimal; lia|reflexivity].
  - rewrite map_length, seq_length. reflexivity.
  - intros i l Hl.
    assert (Hi : (i < 10)%nat).
    { assert (X := proj1 (nth_error_Some (map (the_line sha bits (rand pos)) (seq 0 10)) i)). rewrite Hl in X.
      specialize (X ltac:(discriminate)). rewrite map_length, seq_length in X. exact X. }
    assert (R := prf_value_range sha (rand pos) (Z.of_nat i) bits ltac:(lia)).
    split; [|exact R].
    rewrite nth_error_map in Hl.
    assert (Es : nth_error (seq 0 10) i = Some i).
    { rewrite (nth_error_nth' (seq 0 10) 0%nat) by (rewrite seq_length; exact Hi). now rewrite seq_nth. }
    rewrite Es in Hl. cbn [option_map] in Hl. injection Hl as <-. unfold the_line.
    exists (dec_text (Z.of_nat i + 1)), (dec_text (prf_value sha (rand pos) (Z.of_nat i) bits)),
      (dec_text (num_bits (prf_value sha (rand pos) (Z.of_nat i) bits))).
    split; [apply ShaProofs.dec_text_decimal; lia|]. split; [apply ShaProofs.dec_text_decimal; lia|].
    split; [apply ShaProofs.dec_text_decimal; apply num_bits_nonneg|].
    reflexivity.
Qed.
Print Assumptions C121_listing.

(** The loop never ends once the stream has failed without giving a number
    from one on: after at least one number below one the input ends, or a word
    that is no number follows, or an integer below every int: no amount of
    steps is enough. *)
Theorem C121_never_ends : forall sha rand fuel pos ts vs tail input,
  Forall2 int_word vs ts -> Forall (fun v => - 2 ^ 31 <= v <= 0) vs -> words_then ts tail input ->
  (ts <> [] /\ Forall blank tail) \/
  (exists sp s, tail = sp ++ s /\ Forall blank sp /\ no_number s) \/
  (exists sp t v rest, tail = sp ++ t ++ rest /\ Forall blank sp /\ int_word v t /\ v < - 2 ^ 31 /\ no_digit_first rest) ->
  randomzzgen sha rand fuel input pos = NoFuel.
Proof.
  intros sha rand fuel pos ts vs tail input H1 H2 HW HC. unfold randomzzgen.
  assert (X : ask fuel {| in_rest := input; in_good := true |} None = NoFuel); [|now rewrite X].
  assert (Y : forall f, ask (length ts + f) {| in_rest := input; in_good := true |} None = NoFuel).
  { intros f. destruct (ask_words ts vs H1 H2 tail input None f HW) as (cur & C1 & _ & ->).
    assert (Z0 : ask f {| in_rest := tail; in_good := true |} cur = NoFuel); [|now rewrite Z0].
    destruct f as [|f]; [reflexivity|]. cbn [ask].
    destruct HC as [[HN HB]|[(sp & s & -> & HB & HN)|(sp & t & v & rest & -> & HB & HI & Hv & ND)]].
    - rewrite get_int_blank by exact HB. destruct (C1 HN) as (b & -> & Hb).
      destruct (Z.ltb_spec b 1); [|lia]. now rewrite ask_stuck.
    - destruct (get_int_none sp s HB HN) as (r & ->). cbn [Z.ltb Z.compare]. now rewrite ask_stuck by lia.
    - rewrite (get_int_word _ v) by assumption.
      assert (CV : clamp v = - 2 ^ 31) by (unfold clamp; lia).
      assert (IV : is_int v = false) by (unfold is_int; destruct (Z.leb_spec (- 2 ^ 31) v); [lia|reflexivity]).
      rewrite CV, IV. destruct (Z.ltb_spec (- 2 ^ 31) 1); [|lia]. now rewrite ask_stuck by lia. }
  destruct (Nat.le_gt_cases (length ts) fuel) as [L|L].
  - replace fuel with (length ts + (fuel - length ts))%nat by lia. apply Y.
  - (* less fuel than words: a prefix of the words uses it up *)
    clear HC Y. revert fuel input vs H1 H2 HW L. generalize (@None Z).
    induction ts as [|t ts IH]; intros cur fuel input vs H1 H2 HW L; [cbn in L; lia|].
    destruct fuel as [|f]; [reflexivity|]. inversion H1 as [|v t0 vs0 ts0 Hv H1']; subst.
    inversion H2 as [|? ? Hr H2']; subst.
    inversion HW as [|sp t0 ts0 rest tail0 P HT2 ND E1 E2 E3]; subst.
    cbn [ask]. rewrite (get_int_word _ v) by assumption.
    assert (CV : clamp v < 1) by (unfold clamp; lia).
    assert (IV : is_int v = true) by (unfold is_int; apply andb_true_intro; split; [apply Z.leb_le|apply Z.ltb_lt]; lia).
    rewrite IV. destruct (Z.ltb_spec (clamp v) 1); [|lia].
    rewrite (IH _ f rest vs0) by (assumption || (cbn in L; lia)). reflexivity.
Qed.
Print Assumptions C121_never_ends.

(** With nothing but blanks as input the program reads an uninitialised
    variable. *)
Theorem C121_no_input : forall sha rand fuel pos input, Forall blank input -> (0 < fuel)%nat ->
  randomzzgen sha rand fuel input pos = UB Uninit.
Proof.
  intros sha rand [|f] pos input H L; [lia|]. unfold randomzzgen. cbn [ask]. rewrite get_int_blank by exact H. reflexivity.
Qed.
Print Assumptions C121_no_input.

(** "0\n-3 +12x": two prompts more, then 12 bits *)
Example C121_nonvacuous :
  let input := [48; 10; 45; 51; 32; 43; 49; 50; 120] in
  Forall2 int_word [0; -3] [[48]; [45; 51]] /\ Forall (fun v => - 2 ^ 31 <= v <= 0) [0; -3] /\ int_word 12 [43; 49; 50] /\
  words_then ([[48]; [45; 51]] ++ [[43; 49; 50]]) [120] input /\
  (match randomzzgen demo_sha (fun _ => 5) 3 input 0 with Ok t => length t = 325%nat | _ => False end) /\
  words_then [[48]; [45; 51]] [120] [48; 10; 45; 51; 120] /\ no_number [120].
Proof.
  cbn zeta. split; [|split; [|split; [|split; [|split; [|split]]]]].
  - constructor; [|constructor; [|constructor]].
    + exists 0, [48]. split; [|left; split; [now left|reflexivity]]. repeat split; [discriminate|repeat constructor; lia].
    + exists 3, [51]. split; [|right; split; reflexivity]. repeat split; [discriminate|repeat constructor; lia].
  - repeat constructor; lia.
  - exists 12, [49; 50]. split; [|left; split; [now right|reflexivity]]. repeat split; [discriminate|repeat constructor; lia].
  - apply (Words_word [] [48] _ [10; 45; 51; 32; 43; 49; 50; 120]); [constructor| |cbn; lia].
    apply (Words_word [10] [45; 51] _ [32; 43; 49; 50; 120]); [repeat constructor; cbn; tauto| |cbn; lia].
    apply (Words_word [32] [43; 49; 50] _ [120]); [repeat constructor; cbn; tauto| |cbn; lia]. constructor.
  - vm_compute. reflexivity.
  - apply (Words_word [] [48] _ [10; 45; 51; 120]); [constructor| |cbn; lia].
    apply (Words_word [10] [45; 51] _ [120]); [repeat constructor; cbn; tauto| |cbn; lia]. constructor.
  - cbn. repeat split; lia.
Qed.
