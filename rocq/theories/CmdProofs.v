(** Proofs about the command lines. *)
From Coq Require Import Reals.
From Verif Require Import Base Spec Lib PolyModel HashBucketsModel SimulModel FilesModel ToolsModel CherparsModel CmdModel CmdSpec.
Open Scope Z_scope.

(** *** atol *)
Lemma is_space_blank c : is_space c = true <-> blank c.
Proof. unfold is_space, blank. rewrite orb_true_iff, andb_true_iff, Z.eqb_eq, !Z.leb_le. tauto. Qed.
Lemma skip_blanks bs s : Forall blank bs -> skip_spaces (bs ++ s) = skip_spaces s.
Proof. induction 1 as [|c bs B _ IH]; [reflexivity|]. cbn [app skip_spaces]. apply is_space_blank in B. rewrite B. exact IH. Qed.
Lemma skip_not s : ~ starts blank s -> skip_spaces s = s.
Proof.
  destruct s as [|c s]; [reflexivity|]. cbn [starts skip_spaces]. intros H. destruct (is_space c) eqn:E; [|reflexivity].
  exfalso. apply H, is_space_blank, E.
Qed.
Lemma digits_ok ds rest : Forall digit ds -> ~ starts digit rest -> forall acc,
  digits_value acc (ds ++ rest) = acc * 10 ^ Z.of_nat (length ds) + place_value ds.
Proof.
  intros F NR. induction F as [|c ds D _ IH]; intros acc.
  - cbn [app length place_value]. change (Z.of_nat 0) with 0. rewrite Z.pow_0_r. destruct rest as [|c r]; cbn [digits_value]; [lia|].
    destruct ((48 <=? c) && (c <=? 57)) eqn:E; [|lia]. exfalso. apply NR. cbn [starts]. unfold digit.
    apply andb_true_iff in E. rewrite !Z.leb_le in E. exact E.
  - cbn [app digits_value]. unfold digit in D. assert (E : (48 <=? c) && (c <=? 57) = true).
    { apply andb_true_iff. rewrite !Z.leb_le. exact D. }
    rewrite E, IH. cbn [length place_value]. rewrite Nat2Z.inj_succ, Z.pow_succ_r by lia. ring.
Qed.
Lemma clamp_nearest z : nearest_long z (clamp z).
Proof. unfold nearest_long, clamp. lia. Qed.
Lemma nearest_unique z r : nearest_long z r -> r = clamp z.
Proof. unfold nearest_long, clamp. lia. Qed.

Lemma number_atol s z : number s z -> atol s = z.
Proof.
  intros (bs & sg & ds & rest & -> & B & SG & D & NR & NA & N). apply nearest_unique in N. rewrite N. clear N z.
  unfold atol. rewrite (skip_blanks bs _ B). destruct SG as [-> | [-> | ->]].
  - cbn [app]. destruct (list_eq_dec Z.eq_dec [] [45]) as [X|_]; [discriminate|].
    specialize (NA eq_refl).
    assert (S1 : ~ starts (fun c => blank c \/ c = 45 \/ c = 43) (ds ++ rest)).
    { destruct ds as [|d ds]; [apply NA; reflexivity|]. cbn [app starts]. inversion D as [|? ? DD _]; subst.
      unfold digit in DD. unfold blank. lia. }
    rewrite skip_not.
    2:{ intros X. apply S1. destruct (ds ++ rest); [exact X|]. cbn [starts] in *. tauto. }
    pose proof (digits_ok ds rest D NR 0) as DV. rewrite Z.mul_0_l, Z.add_0_l in DV.
    destruct (ds ++ rest) as [|c t]; [rewrite <- DV; reflexivity|]. cbn [starts] in S1. rewrite <- DV.
    destruct c as [|q|q]; try reflexivity.
    do 6 (destruct q as [q|q|]; try reflexivity); exfalso; apply S1; auto.
  - cbn [app skip_spaces is_space]. destruct (list_eq_dec Z.eq_dec [45] [45]) as [_|X]; [|contradiction].
    change (is_space 45) with false. cbn iota. rewrite (digits_ok ds rest D NR 0). f_equal; lia.
  - cbn [app skip_spaces]. change (is_space 43) with false. cbn iota.
    destruct (list_eq_dec Z.eq_dec [43] [45]) as [X|_]; [discriminate|].
    rewrite (digits_ok ds rest D NR 0). f_equal; lia.
Qed.

(** every text is a number in this sense *)
Lemma span {P : Z -> Prop} (dec : forall c, {P c} + {~ P c}) (s : text) :
  exists a b, s = a ++ b /\ Forall P a /\ ~ starts P b.
Proof.
  induction s as [|c s (a & b & -> & F & N)]; [exists [], []; repeat split; [constructor|exact (fun x => x)]|].
  destruct (dec c) as [Y|Y].
  - exists (c :: a), b. repeat split; [constructor; assumption|exact N].
  - exists [], (c :: a ++ b). repeat split; [constructor|exact Y].
Qed.
Lemma digit_dec c : {digit c} + {~ digit c}.
Proof. unfold digit. destruct (Z_le_dec 48 c), (Z_le_dec c 57); (left; lia) || (right; lia). Qed.
Lemma blank_dec c : {blank c} + {~ blank c}.
Proof. destruct (is_space c) eqn:E; [left; apply is_space_blank, E|right; intros X; apply is_space_blank in X; congruence]. Qed.
Lemma number_total s : number s (atol s).
Proof.
  assert (X : exists z, number s z).
  { destruct (span blank_dec s) as (bs & s1 & -> & B & NB).
    assert (Y : exists sg s2, s1 = sg ++ s2 /\ (sg = [] \/ sg = [45] \/ sg = [43]) /\
                  (sg = [] -> ~ starts (fun c => c = 45 \/ c = 43) s2)).
    { destruct s1 as [|c s1]; [exists [], []; cbn; auto|].
      destruct (Z.eq_dec c 45) as [->|N1]; [exists [45], s1; repeat split; auto; discriminate|].
      destruct (Z.eq_dec c 43) as [->|N2]; [exists [43], s1; repeat split; auto; discriminate|].
      exists [], (c :: s1). repeat split; auto. intros _ [H|H]; auto. }
    destruct Y as (sg & s2 & -> & SG & NS).
    destruct (span digit_dec s2) as (ds & rest & -> & D & ND).
    eexists. exists bs, sg, ds, rest. split; [reflexivity|]. split; [exact B|]. split; [exact SG|]. split; [exact D|].
    split; [exact ND|]. split; [|apply clamp_nearest].
    intros -> ->. cbn [app] in NB, NS. specialize (NS eq_refl). destruct rest as [|c r]; [exact (fun x => x)|].
    cbn [starts] in *. tauto. }
  destruct X as [z N]. rewrite (number_atol s z N). exact N.
Qed.
Lemma number_iff s z : number s z <-> atol s = z.
Proof. split; [apply number_atol|]. intros <-. apply number_total. Qed.

(** *** getopt *)
Section Read.
Variables os flags withs : text.
Hypothesis LK : forall c, lookup os c =
  if in_dec Z.eq_dec c flags then Some false else if in_dec Z.eq_dec c withs then Some true else None.
Hypothesis ND : ~ In 45 flags.
Hypothesis NW : ~ In 45 withs.
Hypothesis DJ : forall c, In c withs -> ~ In c flags.

Lemma lk_flag c : In c flags -> lookup os c = Some false.
Proof. intros H. rewrite LK. destruct (in_dec Z.eq_dec c flags); [reflexivity|contradiction]. Qed.
Lemma lk_with c : In c withs -> lookup os c = Some true.
Proof.
  intros H. rewrite LK. destruct (in_dec Z.eq_dec c flags) as [F|F]; [elim (DJ c H F)|].
  destruct (in_dec Z.eq_dec c withs); [reflexivity|contradiction].
Qed.
Lemma lk_none c : ~ In c flags -> ~ In c withs -> lookup os c = None.
Proof.
  intros H1 H2. rewrite LK. destruct (in_dec Z.eq_dec c flags); [contradiction|].
  destruct (in_dec Z.eq_dec c withs); [contradiction|reflexivity].
Qed.
Definition flag_events (fs : text) : list event := map (fun c => Opt c []) fs.
Lemma cluster_flags fs rest : Forall (fun c => In c flags) fs ->
  cluster os (fs ++ rest) = (flag_events fs ++ fst (cluster os rest), snd (cluster os rest)).
Proof.
  induction 1 as [|c fs H F IH]; [cbn [app flag_events map]; destruct (cluster os rest); reflexivity|].
  cbn [app cluster flag_events map]. rewrite (lk_flag c H). unfold flag_events in IH. rewrite IH. reflexivity.
Qed.
Lemma until_app fs l : until_bad (flag_events fs ++ l) = (bare fs ++ fst (until_bad l), snd (until_bad l)).
Proof.
  induction fs as [|c fs IH]; [cbn [flag_events map app bare]; destruct (until_bad l); reflexivity|].
  cbn [flag_events map app until_bad bare]. unfold flag_events in IH. rewrite IH. reflexivity.
Qed.
Lemma until_opt c v l : until_bad (Opt c v :: l) = ((c, v) :: fst (until_bad l), snd (until_bad l)).
Proof. cbn [until_bad]. destruct (until_bad l); reflexivity. Qed.

Lemma getopts_word c t r : ~ (c = 45 /\ t = []) ->
  getopts os None ((45 :: c :: t) :: r) = fst (cluster os (c :: t)) ++ getopts os (snd (cluster os (c :: t))) r.
Proof.
  intros H. cbn [getopts]. destruct ((c =? 45) && match t with [] => true | _ => false end) eqn:E.
  - exfalso. apply andb_true_iff in E. destruct E as [E1 E2]. apply Z.eqb_eq in E1. destruct t; [auto|discriminate].
  - destruct (cluster os (c :: t)). reflexivity.
Qed.
Lemma getopts_plain w r : plain w -> getopts os None (w :: r) = getopts os None r.
Proof.
  intros [H | ->]; [|reflexivity]. destruct w as [|x w]; [reflexivity|]. cbn [hd] in H. cbn [getopts].
  destruct x as [|q|q]; try reflexivity.
  do 6 (destruct q as [q|q|]; try reflexivity); elim H; reflexivity.
Qed.

Definition broken (e : ending) : bool := match e with Clean => false | Broken => true end.


Lemma reading_getopts l e args : reading flags withs l e args ->
  until_bad (getopts os None args) = (l, broken e).
Proof.
  induction 1 as [|r|w r l e PL _ IH|fs r l e NE F _ IH|fs c v r l e F W NV _ IH|fs c v r l e F W _ IH|fs c F W|fs c t r F N1 N2 NS].
  - reflexivity.
  - reflexivity.
  - rewrite (getopts_plain w r PL). exact IH.
  - destruct fs as [|f fs]; [contradiction|]. inversion F as [|? ? F1 F2]; subst.
    rewrite getopts_word by (intros [-> _]; contradiction).
    pose proof (cluster_flags (f :: fs) [] F) as E. rewrite app_nil_r in E. rewrite E. cbn [cluster fst snd].
    rewrite app_nil_r, until_app, IH. reflexivity.
  - assert (X : exists d t, fs ++ c :: v = d :: t /\ d <> 45).
    { destruct fs as [|f fs]; [exists c, v; split; [reflexivity|intros ->; contradiction]|].
      inversion F; subst. exists f, (fs ++ c :: v). split; [reflexivity|intros ->; contradiction]. }
    destruct X as (d & t & X & N45). rewrite X. rewrite getopts_word by tauto. rewrite <- X.
    rewrite (cluster_flags fs (c :: v) F). cbn [cluster]. rewrite (lk_with c W).
    destruct v as [|v0 v]; [contradiction|]. cbn [fst snd]. rewrite <- app_assoc, until_app.
    cbn [app]. rewrite until_opt, IH. reflexivity.
  - assert (X : exists d t, fs ++ [c] = d :: t /\ d <> 45).
    { destruct fs as [|f fs]; [exists c, []; split; [reflexivity|intros ->; contradiction]|].
      inversion F; subst. exists f, (fs ++ [c]). split; [reflexivity|intros ->; contradiction]. }
    destruct X as (d & t & X & N45). rewrite X. rewrite getopts_word by tauto. rewrite <- X.
    rewrite (cluster_flags fs [c] F). cbn [cluster]. rewrite (lk_with c W). cbn [fst snd].
    rewrite app_nil_r, until_app. cbn [getopts]. rewrite until_opt, IH. reflexivity.
  - assert (X : exists d t, fs ++ [c] = d :: t /\ d <> 45).
    { destruct fs as [|f fs]; [exists c, []; split; [reflexivity|intros ->; contradiction]|].
      inversion F; subst. exists f, (fs ++ [c]). split; [reflexivity|intros ->; contradiction]. }
    destruct X as (d & t & X & N45). rewrite X. rewrite getopts_word by tauto. rewrite <- X.
    rewrite (cluster_flags fs [c] F). cbn [cluster]. rewrite (lk_with c W). cbn [fst snd].
    rewrite app_nil_r, until_app. cbn [getopts until_bad fst snd]. rewrite app_nil_r. reflexivity.
  - assert (X : exists d t', fs ++ c :: t = d :: t' /\ ~ (d = 45 /\ t' = [])).
    { destruct fs as [|f fs]; [exists c, t; split; [reflexivity|intros [A B]; apply NS; auto]|].
      inversion F; subst. exists f, (fs ++ c :: t). split; [reflexivity|intros [-> _]; contradiction]. }
    destruct X as (d & t' & X & N45). rewrite X. rewrite getopts_word by exact N45. rewrite <- X.
    rewrite (cluster_flags fs (c :: t) F). cbn [cluster]. rewrite (lk_none c N1 N2).
    destruct (cluster os t) as [e0 p0]. cbn [fst snd]. rewrite <- app_assoc, until_app. cbn [app until_bad fst snd].
    rewrite app_nil_r. reflexivity.
Qed.

Lemma reading_total : forall n args, (length args <= n)%nat -> exists l e, reading flags withs l e args.
Proof.
  induction n as [|n IH]; intros args L.
  - destruct args; [|cbn [length] in L; lia]. exists [], Clean. constructor.
  - destruct args as [|w r]; [exists [], Clean; constructor|]. cbn [length] in L.
    destruct (IH r ltac:(lia)) as (l & e & RR).
    destruct w as [|x w]; [exists l, e; apply R_plain; [left; cbn; lia|exact RR]|].
    destruct (Z.eq_dec x 45) as [->|NX]; [|exists l, e; apply R_plain; [left; exact NX|exact RR]].
    destruct w as [|c0 t0]; [exists l, e; apply R_plain; [right; reflexivity|exact RR]|].
    destruct (list_eq_dec Z.eq_dec (c0 :: t0) [45]) as [E|NE]; [injection E as -> ->; exists [], Clean; apply R_stop|].
    destruct (span (fun c => in_dec Z.eq_dec c flags) (c0 :: t0)) as (fs & b & E & F & NB). rewrite E.
    destruct b as [|c t].
    + rewrite app_nil_r in *. exists (bare fs ++ l), e. apply R_flags; [subst fs; discriminate|exact F|exact RR].
    + cbn [starts] in NB. destruct (in_dec Z.eq_dec c withs) as [W|NWc].
      * destruct t as [|t1 t].
        -- destruct r as [|v r].
           ++ exists (bare fs), Broken. apply R_missing; assumption.
           ++ cbn [length] in L. destruct (IH r ltac:(lia)) as (l2 & e2 & R2).
              exists (bare fs ++ (c, v) :: l2), e2. apply R_separate; assumption.
        -- exists (bare fs ++ (c, t1 :: t) :: l), e. apply R_attached; [exact F|exact W|discriminate|exact RR].
      * exists (bare fs), Broken. apply R_unknown; [exact F|exact NB|exact NWc|].
        intros (-> & -> & ->). cbn [app] in E. contradiction.
Qed.
Lemma reading_iff l e args : reading flags withs l e args <-> until_bad (getopts os None args) = (l, broken e).
Proof.
  split; [apply reading_getopts|]. intros H. destruct (reading_total (length args) args (le_n _)) as (l2 & e2 & R2).
  pose proof (reading_getopts _ _ _ R2) as E. rewrite E in H. injection H as -> EB.
  replace e with e2; [exact R2|]. destruct e, e2; cbn [broken] in EB; congruence.
Qed.

(** *** programs *)
Variables (O A : Type) (conv : Z -> text -> O) (opts : list O -> res unit) (main : list O -> res A).
Definition asked (l : list (Z * text)) : list O := map (fun o => conv (fst o) (snd o)) l.
Lemma asked_eq l : map (fun '(c, v) => conv c v) l = asked l.
Proof. unfold asked. apply map_ext. intros [c v]. reflexivity. Qed.
Lemma program_clean w args l : reading flags withs l Clean args -> program os conv opts main (w :: args) = main (asked l).
Proof.
  intros H. apply reading_getopts in H. unfold program. cbn [tl]. rewrite H. cbn [broken]. rewrite asked_eq. reflexivity.
Qed.
Lemma program_broken w args l : reading flags withs l Broken args ->
  program os conv opts main (w :: args) = do _ <- opts (asked l); unrecognised (w :: args).
Proof.
  intros H. apply reading_getopts in H. unfold program. cbn [tl]. rewrite H. cbn [broken]. rewrite asked_eq. reflexivity.
Qed.
End Read.

Lemma unrecognised_cases {A} argv :
  ((length argv < 63)%nat -> @unrecognised A argv = UB OutOfBounds) /\
  (length argv = 63%nat -> @unrecognised A argv = UB NullDeref) /\
  ((63 < length argv)%nat -> @unrecognised A argv = Exit 1).
Proof.
  unfold unrecognised. split; [|split]; intros H.
  - rewrite (proj2 (nth_error_None argv 63)) by lia. destruct (Nat.eqb_spec (length argv) 63); [lia|reflexivity].
  - rewrite (proj2 (nth_error_None argv 63)) by lia. rewrite H, Nat.eqb_refl. reflexivity.
  - destruct (nth_error argv 63) eqn:E; [reflexivity|]. apply nth_error_None in E. lia.
Qed.

Lemma runs_l {O B A} os flags withs (means : Z * text -> O -> Prop) (conv : Z -> text -> O) (check : list O -> res B) (main : list O -> res A) :
  (forall c, lookup os c =
     if in_dec Z.eq_dec c flags then Some false else if in_dec Z.eq_dec c withs then Some true else None) ->
  ~ In 45 flags -> ~ In 45 withs -> (forall c, In c withs -> ~ In c flags) ->
  (forall o x, means o x -> conv (fst o) (snd o) = x) ->
  runs flags withs means check main (program os conv (fun l => ignore (check l)) main).
Proof.
  intros LK ND NW DJ MC w args l opts F2.
  assert (EA : asked O conv l = opts).
  { unfold asked. induction F2 as [|o x l opts M _ IH]; [reflexivity|]. cbn [map]. rewrite (MC o x M), IH. reflexivity. }
  split.
  - intros R. rewrite (program_clean os flags withs LK ND NW DJ O A conv _ main w args l R), EA. reflexivity.
  - intros R. pose proof (program_broken os flags withs LK ND NW DJ O A conv (fun l => ignore (check l)) main w args l R) as E.
    cbv beta in E. rewrite EA in E. rewrite E. split.
    + intros k H. unfold ignore. rewrite H. reflexivity.
    + intros o H. unfold ignore. rewrite H. cbn [bind]. apply unrecognised_cases.
Qed.

Ltac table :=
  let c := fresh "c" in let H := fresh "H" in let H2 := fresh "H2" in
  intros c; cbv delta [os_simul os_zz os_hb os_bp os_pf os_cp simul_flags simul_withs zz_flags zz_withs hb_flags hb_withs bp_flags bp_withs pf_flags pf_withs cp_flags cp_withs];
  match goal with |- _ = if in_dec Z.eq_dec c ?f then _ else if in_dec Z.eq_dec c ?w then _ else _ =>
    destruct (in_dec Z.eq_dec c f) as [H|H];
    [cbn [In] in H; repeat (destruct H as [<-|H]; [reflexivity|]); destruct H|];
    destruct (in_dec Z.eq_dec c w) as [H2|H2];
    [cbn [In] in H2; repeat (destruct H2 as [<-|H2]; [reflexivity|]); destruct H2|]
  end;
  cbn [In] in H, H2; cbn [lookup];
  repeat match goal with |- context [Z.eqb ?a c] =>
    destruct (Z.eqb_spec a c) as [<-|?]; [reflexivity || (exfalso; tauto)|cbn [andb]] end;
  reflexivity.
Ltac apart := cbv delta [os_simul os_zz os_hb os_bp os_pf os_cp simul_flags simul_withs zz_flags zz_withs hb_flags hb_withs bp_flags bp_withs pf_flags pf_withs cp_flags cp_withs]; cbn [In]; intuition lia.
Ltac conv_ok := intros o x M; inversion M; subst; cbn [fst snd conv_simul conv_zz conv_hb conv_bp conv_pf conv_cp]; try reflexivity; apply f_equal, number_atol; assumption.

Lemma reading_letters flags withs l e args : reading flags withs l e args ->
  Forall (fun o => In (fst o) flags \/ In (fst o) withs) l.
Proof.
  assert (B : forall fs, Forall (fun c => In c flags) fs -> Forall (fun o : Z * text => In (fst o) flags \/ In (fst o) withs) (bare fs)).
  { intros fs F. unfold bare. apply Forall_map. eapply Forall_impl; [|exact F]. cbn [fst]. auto. }
  induction 1; try constructor; try assumption; try (apply Forall_app; split; auto; constructor; cbn [fst]; auto); auto.
Qed.
Lemma readable_l {O} os flags withs (means : Z * text -> O -> Prop) (conv : Z -> text -> O) :
  (forall c, lookup os c =
     if in_dec Z.eq_dec c flags then Some false else if in_dec Z.eq_dec c withs then Some true else None) ->
  ~ In 45 flags -> ~ In 45 withs -> (forall c, In c withs -> ~ In c flags) ->
  (forall o x, means o x -> conv (fst o) (snd o) = x) ->
  (forall c v, In c flags \/ In c withs -> means (c, v) (conv c v)) ->
  readable flags withs means.
Proof.
  intros LK ND NW DJ MC CM args.
  destruct (reading_total os flags withs LK DJ (length args) args (le_n _)) as (l & e & R).
  exists l, e, (map (fun o => conv (fst o) (snd o)) l). split; [exact R|]. split; [|split].
  - pose proof (reading_letters flags withs l e args R) as L.
    clear R. induction L as [|[c v] l0 H _ IH]; [constructor|]. cbn [map]. constructor; [apply CM, H|exact IH].
  - intros l' e' R'. pose proof (reading_getopts os flags withs LK ND NW DJ _ _ _ R) as E1.
    pose proof (reading_getopts os flags withs LK ND NW DJ _ _ _ R') as E2. rewrite E1 in E2.
    injection E2 as -> EB. split; [reflexivity|]. destruct e, e'; cbn [broken] in EB; congruence.
  - intros opts' F2. clear R. induction F2 as [|o x l0 opts' M _ IH]; [reflexivity|]. cbn [map]. rewrite (MC o x M), IH. reflexivity.
Qed.
Ltac means_ok :=
  cbv delta [simul_flags simul_withs zz_flags zz_withs hb_flags hb_withs bp_flags bp_withs pf_flags pf_withs cp_flags cp_withs];
  let c := fresh "c" in let v := fresh "v" in let H := fresh "H" in intros c v [H|H]; cbn [In] in H;
  repeat (destruct H as [<-|H]; [cbn [conv_simul conv_zz conv_hb conv_bp conv_pf conv_cp]; constructor; apply number_total|]); destruct H.

Lemma place_app ds c : place_value (ds ++ [c]) = 10 * place_value ds + (c - 48).
Proof.
  induction ds as [|d ds IH]; cbn [app place_value length]; [change (Z.of_nat 0) with 0; rewrite Z.pow_0_r; lia|].
  rewrite IH, app_length. cbn [length]. rewrite Nat2Z.inj_add. change (Z.of_nat 1) with 1. rewrite Z.pow_add_r by lia. ring.
Qed.
Lemma number_plain ds n : ds <> [] -> Forall digit ds -> place_value ds = n -> 0 <= n < 2 ^ 63 -> number ds n.
Proof.
  intros NE D E R. exists [], [], ds, []. rewrite app_nil_r. split; [reflexivity|]. split; [constructor|]. split; [auto|].
  split; [exact D|]. split; [exact (fun x => x)|]. split; [intros _ ->; contradiction|].
  destruct (list_eq_dec Z.eq_dec [] [45]) as [X|_]; [discriminate|]. rewrite E. right; left. split; [lia|reflexivity].
Qed.
Lemma no_digits s : Forall (fun c => ~ digit c) s -> number s 0.
Proof.
  intros F. destruct (number_total s) as (bs & sg & ds & rest & E & B & SG & D & NR & NA & N).
  assert (ds = []).
  { destruct ds as [|d ds]; [reflexivity|]. exfalso. inversion D as [|? ? DD _]; subst.
    apply (proj1 (Forall_forall _ _) F d); [|exact DD]. rewrite !in_app_iff. cbn [In]. auto. }
  subst ds. replace 0 with (atol s); [apply number_total|].
  apply nearest_unique in N. cbn [place_value] in N. rewrite N. destruct (list_eq_dec Z.eq_dec sg [45]); reflexivity.
Qed.

(** the simulator's checks *)
Lemma parse_exit o a : parse_step o a = Exit 1 \/ exists o1, parse_step o a = Ok o1.
Proof. destruct a; cbn [parse_step]; try destruct (_ <=? _); try destruct (_ <? _); eauto. Qed.
Lemma parse_stops (a : option_arg) : (forall o, parse_step o a = Exit 1) -> forall l o, In a l -> parse o l = Exit 1.
Proof.
  intros H. induction l as [|x l IH]; intros o I; [destruct I|]. cbn [parse].
  destruct I as [->|I]; [rewrite H; reflexivity|]. destruct (parse_exit o x) as [E|[o1 E]]; rewrite E; cbn [bind]; [reflexivity|apply IH, I].
Qed.
