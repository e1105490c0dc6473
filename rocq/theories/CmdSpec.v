(** How a command line is read, and what number a text stands for.  Characters
    are numbers: '-' is 45, '0'-'9' are 48-57, '+' is 43, the blank is 32. *)
From Verif Require Import Base.
Notation text := (list Z).

(** The whole line was read ([Clean]), or it was read up to an unknown letter
    or a letter whose argument is missing ([Broken]). *)
Inductive ending := Clean | Broken.

(** a word that is no option: it does not begin with '-', or is "-" *)
Definition plain (w : text) : Prop := hd 0 w <> 45 \/ w = [45].
Definition bare (fs : text) : list (Z * text) := map (fun c => (c, [])) fs.

(** [reading flags withs l e args]: the words [args] ask for the options [l],
    in this order.  Letters in [flags] stand alone, those in [withs] have an
    argument, in the same word or the next one, whatever it looks like.
    Letters may share a word; "--" ends the options. *)
Inductive reading (flags withs : text) : list (Z * text) -> ending -> list text -> Prop :=
| R_end : reading flags withs [] Clean []
| R_stop : forall r, reading flags withs [] Clean ([45; 45] :: r)
| R_plain : forall w r l e, plain w -> reading flags withs l e r -> reading flags withs l e (w :: r)
| R_flags : forall fs r l e, fs <> [] -> Forall (fun c => In c flags) fs ->
    reading flags withs l e r -> reading flags withs (bare fs ++ l) e ((45 :: fs) :: r)
| R_attached : forall fs c v r l e, Forall (fun c => In c flags) fs -> In c withs -> v <> [] ->
    reading flags withs l e r -> reading flags withs (bare fs ++ (c, v) :: l) e ((45 :: fs ++ c :: v) :: r)
| R_separate : forall fs c v r l e, Forall (fun c => In c flags) fs -> In c withs ->
    reading flags withs l e r -> reading flags withs (bare fs ++ (c, v) :: l) e ((45 :: fs ++ [c]) :: v :: r)
| R_missing : forall fs c, Forall (fun c => In c flags) fs -> In c withs ->
    reading flags withs (bare fs) Broken [45 :: fs ++ [c]]
| R_unknown : forall fs c t r, Forall (fun c => In c flags) fs -> ~ In c flags -> ~ In c withs ->
    ~ (fs = [] /\ c = 45 /\ t = []) ->
    reading flags withs (bare fs) Broken ((45 :: fs ++ c :: t) :: r).

(** the value of a sequence of decimal digits *)
Fixpoint place_value (ds : text) : Z :=
  match ds with [] => 0 | c :: t => (c - 48) * 10 ^ Z.of_nat (length t) + place_value t end.
Definition digit (c : Z) : Prop := 48 <= c <= 57.
Definition blank (c : Z) : Prop := c = 32 \/ 9 <= c <= 13.
Definition starts (P : Z -> Prop) (s : text) : Prop := match s with c :: _ => P c | [] => False end.
(** the long nearest to z *)
Definition nearest_long (z r : Z) : Prop :=
  (z < - 2 ^ 63 /\ r = - 2 ^ 63) \/ (- 2 ^ 63 <= z < 2 ^ 63 /\ r = z) \/ (2 ^ 63 <= z /\ r = 2 ^ 63 - 1).

(** [number s z]: blanks, a sign or none, digits (none count as 0), then
    anything that does not continue the number *)
Definition number (s : text) (z : Z) : Prop :=
  exists blanks sign ds rest, s = blanks ++ sign ++ ds ++ rest /\
    Forall blank blanks /\ (sign = [] \/ sign = [45] \/ sign = [43]) /\ Forall digit ds /\
    ~ starts digit rest /\
    (sign = [] -> ds = [] -> ~ starts (fun c => blank c \/ c = 45 \/ c = 43) rest) /\
    nearest_long (if list_eq_dec Z.eq_dec sign [45] then - place_value ds else place_value ds) z.

(** * The options of the six programs: letters without and with an argument,
    and what a letter with its argument asks for *)
From Coq Require Import Reals.
From Verif Require Import SimulModel FilesModel ToolsModel CherparsModel.
Open Scope Z_scope.

(** eopsisimul -h -b -j -k -l -n -p -r *)
Definition simul_flags : text := [104].
Definition simul_withs : text := [98; 106; 107; 108; 110; 112; 114].
Inductive simul_means : Z * text -> option_arg -> Prop :=
| Sm_b v z : number v z -> simul_means (98, v) (OptB z)
| Sm_j v z : number v z -> simul_means (106, v) (OptJ z)
| Sm_k v z : number v z -> simul_means (107, v) (OptK z)
| Sm_l v z : number v z -> simul_means (108, v) (OptL z)
| Sm_n v z : number v z -> simul_means (110, v) (OptN z)
| Sm_p v z : number v z -> simul_means (112, v) (OptP z)
| Sm_r v z : number v z -> simul_means (114, v) (OptR z)
| Sm_h v : simul_means (104, v) OptHelp.

(** zzrndgen -h -b -n -o *)
Definition zz_flags : text := [104].
Definition zz_withs : text := [98; 110; 111].
Inductive zz_means : Z * text -> zopt -> Prop :=
| Zm_b v z : number v z -> zz_means (98, v) (Zb z)
| Zm_n v z : number v z -> zz_means (110, v) (Zn z)
| Zm_o v : zz_means (111, v) (Zo v)
| Zm_h v : zz_means (104, v) Zh.

(** hbtest -h -a -i -k -l *)
Definition hb_flags : text := [104].
Definition hb_withs : text := [97; 105; 107; 108].
Inductive hb_means : Z * text -> hopt -> Prop :=
| Hm_a v : hb_means (97, v) (Ha v)
| Hm_i v : hb_means (105, v) (Hi v)
| Hm_k v z : number v z -> hb_means (107, v) (Hk z)
| Hm_l v z : number v z -> hb_means (108, v) (Hl z)
| Hm_h v : hb_means (104, v) Hh.

(** bptest -h -a -i -j -k -l -p *)
Definition bp_flags : text := [104].
Definition bp_withs : text := [97; 105; 106; 107; 108; 112].
Inductive bp_means : Z * text -> bopt -> Prop :=
| Bm_a v : bp_means (97, v) (Ba v)
| Bm_i v : bp_means (105, v) (Bi v)
| Bm_j v z : number v z -> bp_means (106, v) (Bj z)
| Bm_k v z : number v z -> bp_means (107, v) (Bk z)
| Bm_l v z : number v z -> bp_means (108, v) (Bl z)
| Bm_p v z : number v z -> bp_means (112, v) (Bp z)
| Bm_h v : bp_means (104, v) Bh.

(** polyfact -h -q -b -d -n -o; -o is taken for a request for help *)
Definition pf_flags : text := [104; 113].
Definition pf_withs : text := [98; 100; 110; 111].
Inductive pf_means : Z * text -> popt -> Prop :=
| Pm_b v z : number v z -> pf_means (98, v) (Pb z)
| Pm_d v z : number v z -> pf_means (100, v) (Pd z)
| Pm_n v z : number v z -> pf_means (110, v) (Pn z)
| Pm_q v : pf_means (113, v) Pq
| Pm_h v : pf_means (104, v) Ph
| Pm_o v : pf_means (111, v) Ph.

(** cherpars -h -q -l -n -p; [real]: what atof makes of a text *)
Definition cp_flags : text := [104; 113].
Definition cp_withs : text := [108; 110; 112].
Inductive cp_means (real : text -> R) : Z * text -> copt -> Prop :=
| Cm_l v z : number v z -> cp_means real (108, v) (Cl z)
| Cm_n v z : number v z -> cp_means real (110, v) (Cn z)
| Cm_p v : cp_means real (112, v) (Cp (real v))
| Cm_q v : cp_means real (113, v) Cq
| Cm_h v : cp_means real (104, v) Ch.

(** what a program does after an unknown letter or a missing argument: with
    fewer than 63 words it reads past the end of argv, with exactly 63 it prints
    a null pointer, with more it exits with status 1 *)
Definition gives_up {A} (argv : list text) (r : res A) : Prop :=
  ((length argv < 63)%nat -> r = UB OutOfBounds) /\
  (length argv = 63%nat -> r = UB NullDeref) /\
  ((63 < length argv)%nat -> r = Exit 1).
(** the program behaves as [main] for the options given by any line that is
    read completely; otherwise the options before the fault are checked by
    [check], and if they pass the program gives up *)
Definition runs {O B A} (flags withs : text) (means : Z * text -> O -> Prop) (check : list O -> res B)
    (main : list O -> res A) (prog : list text -> res A) : Prop :=
  forall w args l opts, Forall2 means l opts ->
    (reading flags withs l Clean args -> prog (w :: args) = main opts) /\
    (reading flags withs l Broken args ->
       (forall k, check opts = Exit k -> prog (w :: args) = Exit k) /\
       (forall o, check opts = Ok o -> gives_up (w :: args) (prog (w :: args)))).
(** every line is read in one way and asks for one list of options *)
Definition readable {O} (flags withs : text) (means : Z * text -> O -> Prop) : Prop :=
  forall args, exists l e opts, reading flags withs l e args /\ Forall2 means l opts /\
    (forall l' e', reading flags withs l' e' args -> l' = l /\ e' = e) /\
    (forall opts', Forall2 means l opts' -> opts' = opts).
