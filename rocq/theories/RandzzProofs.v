(** Proofs about the example program. *)
From Coq Require Import Lia.
From Verif Require Import Base Lib NtlMiss PRFModel PRFSpec PRFProofs MurmurModel FilesModel FilesSpec FilesProofs RandzzModel RandzzSpec.

Definition clamp (v : Z) : Z := Z.max (- 2 ^ 31) (Z.min v (2 ^ 31 - 1)).
Definition is_int (v : Z) : bool := (- 2 ^ 31 <=? v) && (v <? 2 ^ 31).

Lemma get_int_word sp v t rest : Forall blank sp -> int_word v t -> no_digit_first rest ->
  get_int {| in_rest := sp ++ t ++ rest; in_good := true |} =
    ({| in_rest := rest; in_good := is_int v |}, Some (clamp v)).
Proof.
  intros P [w [t' [Nw H]]] R. destruct (numeral_first w t' Nw) as [d [t2 [Et [Hd [F V]]]]].
  unfold get_int. cbn [in_good negb in_rest].
  assert (LT : Nat.eqb (length t') 0 = false) by (rewrite Et; reflexivity).
  assert (FIN : forall x, (if x <? - 2 ^ 31 then ({| in_rest := rest; in_good := false |}, Some (- 2 ^ 31))
           else if 2 ^ 31 <=? x then ({| in_rest := rest; in_good := false |}, Some (2 ^ 31 - 1))
           else ({| in_rest := rest; in_good := true |}, Some x)) = ({| in_rest := rest; in_good := is_int x |}, Some (clamp x))).
  { intros x. unfold is_int, clamp. destruct (Z.ltb_spec x (- 2 ^ 31)) as [A|A].
    - destruct (Z.leb_spec (- 2 ^ 31) x); [lia|]. cbn [andb]. do 2 f_equal. lia.
    - destruct (Z.leb_spec (- 2 ^ 31) x); [|lia]. destruct (Z.leb_spec (2 ^ 31) x) as [B|B].
      + destruct (Z.ltb_spec x (2 ^ 31)); [lia|]. cbn [andb]. do 2 f_equal. lia.
      + destruct (Z.ltb_spec x (2 ^ 31)); [|lia]. cbn [andb]. do 2 f_equal. lia. }
  destruct H as [[[-> | ->] ->]|[-> ->]].
  - replace (skip_space (sp ++ t' ++ rest)) with (d :: t2 ++ rest) by (rewrite Et; symmetry; apply skip_blanks; [exact P|apply not_blank; lia]).
    destruct (Z.eqb_spec d 45); [lia|]. destruct (Z.eqb_spec d 43); [lia|].
    change (d :: t2 ++ rest) with ((d :: t2) ++ rest). rewrite <- Et. rewrite span_ok by (exact F || exact R). rewrite V, Nat.add_0_l, LT. apply FIN.
  - cbn [app]. rewrite skip_blanks by (exact P || apply not_blank; lia). change (43 =? 45) with false. change (43 =? 43) with true. cbv iota beta.
    rewrite span_ok by (exact F || exact R). rewrite V, Nat.add_0_l, LT. apply FIN.
  - cbn [app]. rewrite skip_blanks by (exact P || apply not_blank; lia). change (45 =? 45) with true. cbv iota beta.
    rewrite span_ok by (exact F || exact R). rewrite V, Nat.add_0_l, LT. apply FIN.
Qed.

Lemma get_int_blank sp : Forall blank sp ->
  get_int {| in_rest := sp; in_good := true |} = ({| in_rest := []; in_good := false |}, None).
Proof. intros H. unfold get_int. cbn [in_good negb in_rest]. now rewrite skip_all. Qed.

Lemma get_int_none sp s : Forall blank sp -> no_number s ->
  exists rest, get_int {| in_rest := sp ++ s; in_good := true |} = ({| in_rest := rest; in_good := false |}, Some 0).
Proof.
  intros P H. destruct s as [|c rest]; [destruct H|]. destruct H as (B & D & S0).
  unfold get_int. cbn [in_good negb in_rest]. rewrite skip_blanks by assumption.
  destruct (Z.eqb_spec c 45) as [->|N1].
  - rewrite no_digits by auto. cbn [Nat.eqb]. eauto.
  - destruct (Z.eqb_spec c 43) as [->|N2].
    + rewrite no_digits by auto. cbn [Nat.eqb]. eauto.
    + rewrite no_digits by exact D. cbn [Nat.eqb]. eauto.
Qed.

(** once the stream has failed the variable keeps its value *)
Lemma ask_stuck b : b < 1 -> forall fuel r, ask fuel {| in_rest := r; in_good := false |} (Some b) = NoFuel.
Proof.
  intros Hb. induction fuel as [|f IH]; intros r; [reflexivity|]. cbn [ask]. unfold get_int. cbn [in_good negb].
  destruct (Z.ltb_spec b 1); [|lia]. rewrite IH. reflexivity.
Qed.

Lemma ask_words ts vs : Forall2 int_word vs ts -> Forall (fun v => - 2 ^ 31 <= v <= 0) vs ->
  forall tail input cur fuel, words_then ts tail input ->
  exists cur', (ts <> [] -> exists b, cur' = Some b /\ b < 1) /\ (ts = [] -> cur' = cur) /\
  ask (length ts + fuel) {| in_rest := input; in_good := true |} cur =
    do (k, b) <- ask fuel {| in_rest := tail; in_good := true |} cur'; Ok ((length ts + k)%nat, b).
Proof.
  induction 1 as [|v t vs ts HW HF IH]; intros HV tail input cur fuel HT.
  - inversion HT; subst. exists cur. repeat split; try congruence. cbn [length Nat.add].
    destruct (ask fuel _ cur) as [[k b]| | | |]; reflexivity.
  - inversion HT as [|sp t0 ts0 rest tail0 P HT2 ND E1 E2 E3]; subst. inversion HV as [|? ? Hv HV2]; subst.
    destruct (IH HV2 tail rest (Some (clamp v)) fuel HT2) as (cur' & C1 & C2 & EQ).
    assert (CV : clamp v = v) by (unfold clamp; lia).
    assert (IV : is_int v = true) by (unfold is_int; apply andb_true_intro; split; [apply Z.leb_le|apply Z.ltb_lt]; lia).
    exists cur'. split.
    + intros _. destruct ts as [|t2 ts2]; [|apply C1; discriminate]. rewrite C2 by reflexivity. exists (clamp v). split; [reflexivity|lia].
    + split; [discriminate|]. cbn [length Nat.add ask]. rewrite (get_int_word _ v) by assumption. rewrite IV.
      destruct (Z.ltb_spec (clamp v) 1); [|lia]. rewrite EQ.
      destruct (ask fuel _ cur') as [[k b]| | | |]; reflexivity.
Qed.

Lemma words_app ts t : forall tail input, words_then (ts ++ [t]) tail input ->
  exists sp, words_then ts (sp ++ t ++ tail) input /\ Forall blank sp /\ no_digit_first tail.
Proof.
  induction ts as [|a ts IH]; intros tail input H; cbn [app] in H.
  - inversion H as [|sp t0 ts0 rest tail0 P HT2 ND E1 E2 E3]; subst. inversion HT2; subst. exists sp. repeat split; try assumption. constructor.
  - inversion H as [|sp t0 ts0 rest tail0 P HT2 ND E1 E2 E3]; subst. destruct (IH _ _ HT2) as (sp2 & W & B & N).
    exists sp2. repeat split; try assumption. now constructor.
Qed.

Lemma ask_value ts vs t v tail input fuel : Forall2 int_word vs ts -> Forall (fun v => - 2 ^ 31 <= v <= 0) vs ->
  int_word v t -> 1 <= v -> words_then (ts ++ [t]) tail input -> (length ts < fuel)%nat ->
  ask fuel {| in_rest := input; in_good := true |} None = Ok (S (length ts), Z.min v (2 ^ 31 - 1)).
Proof.
  intros H1 H2 H3 Hv HW HF. destruct (words_app _ _ _ _ HW) as (sp & W & B & N).
  replace fuel with (length ts + S (fuel - length ts - 1))%nat by lia.
  destruct (ask_words ts vs H1 H2 _ _ None (S (fuel - length ts - 1)) W) as (cur' & _ & _ & ->).
  cbn [ask]. rewrite (get_int_word _ v) by assumption.
  assert (CV : clamp v = Z.min v (2 ^ 31 - 1)) by (unfold clamp; lia). rewrite CV.
  destruct (Z.ltb_spec (Z.min v (2 ^ 31 - 1)) 1); [lia|]. cbn [bind]. do 2 f_equal. lia.
Qed.

Section Run.
Variable sha : list Z -> list Z.
Hypothesis HS : is_sha sha.
Variable rand : nat -> Z.

Definition the_line (bits seed : Z) (i : nat) : chars :=
  dec_text (Z.of_nat i + 1) ++ t_dash ++ dec_text (prf_value sha seed (Z.of_nat i) bits) ++ t_open ++
  dec_text (num_bits (prf_value sha seed (Z.of_nat i) bits)) ++ t_close ++ [10].

Lemma lines_ok bits seed (Hb : 1 <= bits < 2 ^ 31) n : forall st text, wf st ->
  exists st', for_up n 0 (line sha rand bits seed) (st, text) =
    Ok (st', text ++ concat (map (the_line bits seed) (seq 0 n))) /\ wf st'.
Proof.
  intros st text W.
  destruct (for_up_inv (fun k (s : prf * chars) => wf (fst s) /\ snd s = text ++ concat (map (the_line bits seed) (seq 0 k)))
              n 0%nat (line sha rand bits seed) (st, text)) as (s2 & E & W2 & T2).
  - cbn [fst snd seq map concat]. now rewrite app_nil_r.
  - intros i [st1 t1] Hi [W1 T1]. cbn [fst snd] in *. unfold line.
    assert (Hw : w64 bits = bits) by (unfold w64, M64; apply Z.mod_small; lia). rewrite Hw.
    destruct (generate_pos sha HS rand 0 st1 seed (Z.of_nat i) bits W1) as (st2 & -> & W3 & _).
    { unfold bits_ok, M64. lia. }
    cbn [bind]. eexists. split; [reflexivity|]. cbn [fst snd]. split; [exact W3|].
    rewrite T1. rewrite seq_S, map_app, concat_app. cbn [map concat Nat.add]. rewrite app_nil_r, <- app_assoc.
    reflexivity.
  - destruct s2 as [st2 t2]. cbn [fst snd Nat.add] in *. exists st2. rewrite E, T2. split; [reflexivity|exact W2].
Qed.
End Run.
