(** C126: the command lines of the six programs. *)
From Coq Require Import Reals.
From Verif Require Import Base Spec Lib PolyModel HashBucketsModel SimulModel FilesModel ToolsModel CherparsModel CmdModel CmdSpec CmdProofs.
Open Scope Z_scope.

(** Every program, on every command line (any words, options in any order and
    spelling), does what its model does for the options the line asks for; after
    an unknown letter or a missing argument, if the options before it are in
    order, it reads argv[63]: undefined unless the line has at least 64 words. *)
Theorem C126_eopsisimul : forall rb sha rand fuel p canzass berlekamp hw al draws,
  runs simul_flags simul_withs simul_means (parse default_options)
    (fun opts => simul_main rb sha rand fuel p canzass berlekamp hw al opts draws)
    (fun argv => eopsisimul rb sha rand fuel p canzass berlekamp hw al argv draws).
Proof.
  intros. apply (runs_l os_simul simul_flags simul_withs simul_means conv_simul (parse default_options)); [table|apart|apart|apart|conv_ok].
Qed.
Print Assumptions C126_eopsisimul.
Theorem C126_zzrndgen : forall sha rand fuel writable pos,
  runs zz_flags zz_withs zz_means (fun opts => zparse opts zdefault)
    (fun opts => zzrndgen sha rand fuel writable opts pos) (fun argv => zzrndgen_cmd sha rand fuel writable argv pos).
Proof.
  intros. apply (runs_l os_zz zz_flags zz_withs zz_means conv_zz (fun opts => zparse opts zdefault)); [table|apart|apart|apart|conv_ok].
Qed.
Print Assumptions C126_zzrndgen.
Theorem C126_hbtest : forall mh3 sha1 sha256 files,
  runs hb_flags hb_withs hb_means (fun opts => hparse mh3 sha1 sha256 opts hdefault)
    (hbtest mh3 sha1 sha256 files) (hbtest_cmd mh3 sha1 sha256 files).
Proof.
  intros. apply (runs_l os_hb hb_flags hb_withs hb_means conv_hb (fun opts => hparse mh3 sha1 sha256 opts hdefault)); [table|apart|apart|apart|conv_ok].
Qed.
Print Assumptions C126_hbtest.
Theorem C126_bptest : forall sha rand fuel found clock mh3 sha1 sha256 files pos,
  runs bp_flags bp_withs bp_means (fun opts => bparse mh3 sha1 sha256 opts bdefault)
    (fun opts => bptest sha rand fuel found clock mh3 sha1 sha256 files opts pos)
    (fun argv => bptest_cmd sha rand fuel found clock mh3 sha1 sha256 files argv pos).
Proof.
  intros. apply (runs_l os_bp bp_flags bp_withs bp_means conv_bp (fun opts => bparse mh3 sha1 sha256 opts bdefault)); [table|apart|apart|apart|conv_ok].
Qed.
Print Assumptions C126_bptest.
Theorem C126_polyfact : forall sha rand fuel found clock canzass now pos,
  runs pf_flags pf_withs pf_means (fun opts => pparse opts pdefault)
    (fun opts => polyfact sha rand fuel found clock canzass opts now pos)
    (fun argv => polyfact_cmd sha rand fuel found clock canzass argv now pos).
Proof.
  intros. apply (runs_l os_pf pf_flags pf_withs pf_means conv_pf (fun opts => pparse opts pdefault)); [table|apart|apart|apart|conv_ok].
Qed.
Print Assumptions C126_polyfact.
Theorem C126_cherpars : forall real,
  runs cp_flags cp_withs (cp_means real) (fun opts => cparse opts cdefault) cherpars (cherpars_cmd real).
Proof.
  intros. apply (runs_l os_cp cp_flags cp_withs (cp_means real) (conv_cp real) (fun opts => cparse opts cdefault)); [table|apart|apart|apart|conv_ok].
Qed.
Print Assumptions C126_cherpars.

(** Every command line is read in exactly one way, whatever the words. *)
Theorem C126_every_line : forall real,
  readable simul_flags simul_withs simul_means /\ readable zz_flags zz_withs zz_means /\
  readable hb_flags hb_withs hb_means /\ readable bp_flags bp_withs bp_means /\
  readable pf_flags pf_withs pf_means /\ readable cp_flags cp_withs (cp_means real).
Proof.
  intros real. split; [|split; [|split; [|split; [|split]]]].
  - apply (readable_l os_simul simul_flags simul_withs simul_means conv_simul); [table|apart|apart|apart|conv_ok|means_ok].
  - apply (readable_l os_zz zz_flags zz_withs zz_means conv_zz); [table|apart|apart|apart|conv_ok|means_ok].
  - apply (readable_l os_hb hb_flags hb_withs hb_means conv_hb); [table|apart|apart|apart|conv_ok|means_ok].
  - apply (readable_l os_bp bp_flags bp_withs bp_means conv_bp); [table|apart|apart|apart|conv_ok|means_ok].
  - apply (readable_l os_pf pf_flags pf_withs pf_means conv_pf); [table|apart|apart|apart|conv_ok|means_ok].
  - apply (readable_l os_cp cp_flags cp_withs (cp_means real) (conv_cp real)); [table|apart|apart|apart|conv_ok|means_ok].
Qed.
Print Assumptions C126_every_line.

(** Every text stands for exactly one number: its own for a decimal number that
    a long can hold, 0 for a text without digits. *)
Theorem C126_numbers : forall s,
  (exists z, number s z /\ forall z', number s z' -> z' = z) /\
  (forall n, s <> [] -> Forall digit s -> place_value s = n -> 0 <= n < 2 ^ 63 -> number s n) /\
  (Forall (fun c => ~ digit c) s -> number s 0).
Proof.
  intros s. split; [|split].
  - exists (CmdModel.atol s). split; [apply number_total|]. intros z' H. apply number_atol in H. congruence.
  - intros n. apply number_plain.
  - apply no_digits.
Qed.
Print Assumptions C126_numbers.

(** The simulator ends with status 1 whenever -b, -k, -l, -n or -p is given
    anything that is not a positive number, wherever it stands (and whatever
    follows it, an unknown letter included). *)
Theorem C126_positive : forall rb sha rand fuel p canzass berlekamp hw al draws w args l e c v z,
  reading simul_flags simul_withs l e args -> In (c, v) l -> In c [98; 107; 108; 110; 112] -> number v z -> z <= 0 ->
  eopsisimul rb sha rand fuel p canzass berlekamp hw al (w :: args) draws = Exit 1.
Proof.
  intros rb sha rand fuel p canzass berlekamp hw al draws w args l e c v z R I IC N Z0.
  assert (RD : readable simul_flags simul_withs simul_means).
  { apply (readable_l os_simul simul_flags simul_withs simul_means conv_simul); [table|apart|apart|apart|conv_ok|means_ok]. }
  destruct (RD args) as (l' & e' & opts & R' & F2 & U & _).
  destruct (U l e R) as [-> ->]. clear U R'.
  assert (X : exists a, In a opts /\ forall o, parse_step o a = Exit 1).
  { clear R. induction F2 as [|o x l0 opts M F2 IH]; [destruct I|].
    destruct I as [->|I]; [|destruct (IH I) as (a & Ia & Ha); exists a; split; [right; exact Ia|exact Ha]].
    exists x. split; [left; reflexivity|]. apply number_atol in N. clear IH F2.
    inversion M; subst; match goal with H : number _ _ |- _ => apply number_atol in H; subst | _ => idtac end;
      intros o; cbn [parse_step]; try (destruct (Z.leb_spec (CmdModel.atol v) 0); [reflexivity|lia]);
      cbn [In] in IC; exfalso; lia. }
  destruct X as (a & Ia & Ha). pose proof (parse_stops a Ha opts default_options Ia) as P.
  destruct (C126_eopsisimul rb sha rand fuel p canzass berlekamp hw al draws w args l' opts F2) as [CL BR].
  destruct e'.
  - rewrite (CL R). unfold simul_main. rewrite P. reflexivity.
  - destruct (BR R) as [B1 _]. apply B1, P.
Qed.
Print Assumptions C126_positive.

(** "simul -n500 x -k 20 -jp" : the last letter lacks its argument (j takes the
    "p"); "-x" is unknown; "-qb -5" of polyfact *)
Definition line1 : list text := [[45; 110; 53; 48; 48]; [120]; [45; 107]; [50; 48]; [45; 106; 112]].
Example C126_nonvacuous :
  reading simul_flags simul_withs [(110, [53; 48; 48]); (107, [50; 48]); (106, [112])] Clean line1 /\
  Forall2 simul_means [(110, [53; 48; 48]); (107, [50; 48]); (106, [112])] [OptN 500; OptK 20; OptJ 0] /\
  reading simul_flags simul_withs [(110, [53; 48; 48])] Broken [[45; 110; 53; 48; 48]; [45; 120]] /\
  reading simul_flags simul_withs [] Broken [[45; 107]] /\
  reading pf_flags pf_withs [(113, []); (98, [45; 53])] Clean [[45; 113; 98]; [45; 53]] /\
  (forall rb sha rand fuel p cz bk hw al draws,
     eopsisimul rb sha rand fuel p cz bk hw al [[115]; [45; 120]] draws = UB OutOfBounds) /\
  (forall rb sha rand fuel p cz bk hw al draws,
     eopsisimul rb sha rand fuel p cz bk hw al ([115] :: [45; 120] :: repeat [] 62) draws = Exit 1).
Proof.
  assert (R1 : reading simul_flags simul_withs [(110, [53; 48; 48])] Broken [[45; 110; 53; 48; 48]; [45; 120]]).
  { apply (R_attached _ _ [] 110 [53; 48; 48] _ [] Broken); [constructor|cbn; tauto|discriminate|].
    apply (R_unknown _ _ [] 120 []); [constructor|cbn; intuition lia|cbn; intuition lia|intros (_ & X & _); discriminate]. }
  split.
  { apply (R_attached _ _ [] 110 [53; 48; 48] _ [(107, [50; 48]); (106, [112])]); [constructor|cbn; tauto|discriminate|].
    apply R_plain; [left; cbn; lia|].
    apply (R_separate _ _ [] 107 [50; 48] _ [(106, [112])]); [constructor|cbn; tauto|].
    apply (R_attached _ _ [] 106 [112] _ []); [constructor|cbn; tauto|discriminate|]. constructor. }
  split; [repeat constructor; apply number_iff; vm_compute; reflexivity|]. split; [exact R1|].
  split; [apply (R_missing _ _ [] 107); [constructor|cbn; tauto]|].
  split.
  { apply (R_separate _ _ [113] 98 [45; 53] _ []); [repeat constructor; cbn; tauto|cbn; tauto|constructor]. }
  split; intros; reflexivity.
Qed.
