(** Model of the command lines of the six programs in src/test: from argv to
    the options of SimulModel, FilesModel, ToolsModel and CherparsModel.  A
    word of argv is the list of its characters (without the final NUL). *)
From Coq Require Import Reals.
From Verif Require Import Base PolyModel HashBucketsModel SimulModel FilesModel ToolsModel CherparsModel.
Open Scope Z_scope.

(** * getopt (glibc, without POSIXLY_CORRECT: words that are no options may
    stand anywhere and are skipped) *)
(** what one call returns: a letter with [optarg] (empty for letters that take
    no argument), or '?' *)
Inductive event := Opt (c : Z) (arg : chars) | Bad.

(** the letter in the option string: none, without or with an argument; ':'
    (58) is no letter *)
Fixpoint lookup (os : chars) (c : Z) : option bool :=
  match os with
  | [] => None
  | x :: t => if (x =? c) && negb (c =? 58) then Some (match t with 58 :: _ => true | _ => false end)
              else lookup t c
  end.
(** the letters of one word "-...": the events, and the letter that takes the
    next word as its argument *)
Fixpoint cluster (os : chars) (w : chars) : list event * option Z :=
  match w with
  | [] => ([], None)
  | c :: t =>
      match lookup os c with
      | None => let '(e, p) := cluster os t in (Bad :: e, p)
      | Some false => let '(e, p) := cluster os t in (Opt c [] :: e, p)
      | Some true => match t with [] => ([], Some c) | _ => ([Opt c t], None) end
      end
  end.
(** all calls of getopt; [pend]: the letter that still needs its argument *)
Fixpoint getopts (os : chars) (pend : option Z) (args : list chars) : list event :=
  match args with
  | [] => match pend with Some _ => [Bad] | None => [] end
  | w :: r =>
      match pend with
      | Some c => Opt c w :: getopts os None r
      | None =>
          match w with
          | 45 :: c :: t =>
              if (c =? 45) && match t with [] => true | _ => false end then []
              else let '(e, p) := cluster os (c :: t) in e ++ getopts os p r
          | _ => getopts os None r
          end
      end
  end.

(** * atol (glibc: strtol in base 10, clamped to the range of long) *)
Definition is_space (c : Z) : bool := (c =? 32) || ((9 <=? c) && (c <=? 13)).
Fixpoint skip_spaces (s : chars) : chars :=
  match s with c :: t => if is_space c then skip_spaces t else s | [] => [] end.
Fixpoint digits_value (acc : Z) (s : chars) : Z :=
  match s with
  | c :: t => if (48 <=? c) && (c <=? 57) then digits_value (10 * acc + (c - 48)) t else acc
  | [] => acc
  end.
Definition clamp (z : Z) : Z := Z.max (- 2 ^ 63) (Z.min (2 ^ 63 - 1) z).
Definition atol (s : chars) : Z :=
  match skip_spaces s with
  | 45 :: t => clamp (- digits_value 0 t)
  | 43 :: t => clamp (digits_value 0 t)
  | t => clamp (digits_value 0 t)
  end.

(** * The programs *)
(** [argv[op]] with op = '?' = 63 streamed to std::cerr, then the usage and
    [return 1]: eopsisimul.cpp:279-286, bptest.cpp:135-142, cherpars.cpp:69-76,
    hbtest.cpp:82-88, polyfact.cpp:75-81, zzrndgen.cpp:53-59.  argv has argc
    words and a null pointer. *)
Definition unrecognised {A} (argv : list chars) : res A :=
  match nth_error argv 63 with
  | Some _ => Exit 1
  | None => if Nat.eqb (length argv) 63 then UB NullDeref else UB OutOfBounds
  end.
(** the events before the first '?', and whether there is one *)
Fixpoint until_bad (l : list event) : list (Z * chars) * bool :=
  match l with
  | [] => ([], false)
  | Bad :: _ => ([], true)
  | Opt c v :: t => let '(e, b) := until_bad t in ((c, v) :: e, b)
  end.
(** the while loop around getopt, then the rest of main.  [options] handles the
    letters in turn; [main] is the whole program for well-read options (it
    begins with [options]).  getopt does not depend on what the loop does with
    the letters, so that all its calls can be made first. *)
Definition program {O A} (os : chars) (conv : Z -> chars -> O) (options : list O -> res unit) (main : list O -> res A)
    (argv : list chars) : res A :=
  let '(l, bad) := until_bad (getopts os None (tl argv)) in
  let opts := map (fun '(c, v) => conv c v) l in
  if bad then do _ <- options opts; unrecognised argv else main opts.
Definition ignore {A} (r : res A) : res unit := do _ <- r; Ok tt.

(** eopsisimul.cpp:221-289, "b:hj:k:l:n:p:r:" *)
Definition os_simul : chars := [98; 58; 104; 106; 58; 107; 58; 108; 58; 110; 58; 112; 58; 114; 58].
Definition conv_simul (c : Z) (v : chars) : option_arg :=
  match c with
  | 98 => OptB (atol v) | 106 => OptJ (atol v) | 107 => OptK (atol v) | 108 => OptL (atol v)
  | 110 => OptN (atol v) | 112 => OptP (atol v) | 114 => OptR (atol v) | _ => OptHelp
  end.
Definition eopsisimul rb sha rand fuel p canzass berlekamp hw al (argv : list chars) (draws : nat) : res bool :=
  program os_simul conv_simul (fun l => ignore (parse default_options l))
    (fun l => simul_main rb sha rand fuel p canzass berlekamp hw al l draws) argv.

(** zzrndgen.cpp:35-61, "b:hn:o:" *)
Definition os_zz : chars := [98; 58; 104; 110; 58; 111; 58].
Definition conv_zz (c : Z) (v : chars) : zopt :=
  match c with 98 => Zb (atol v) | 110 => Zn (atol v) | 111 => Zo v | _ => Zh end.
Definition zzrndgen_cmd sha rand fuel writable (argv : list chars) (pos : nat) : res (chars * chars) :=
  program os_zz conv_zz (fun l => ignore (zparse l zdefault)) (fun l => zzrndgen sha rand fuel writable l pos) argv.

(** hbtest.cpp:50-90, "a:hi:k:l:" *)
Definition os_hb : chars := [97; 58; 104; 105; 58; 107; 58; 108; 58].
Definition conv_hb (c : Z) (v : chars) : hopt :=
  match c with 97 => Ha v | 105 => Hi v | 107 => Hk (atol v) | 108 => Hl (atol v) | _ => Hh end.
Definition hbtest_cmd mh3 sha1 sha256 files (argv : list chars) : res (hb Z * report) :=
  program os_hb conv_hb (fun l => ignore (hparse mh3 sha1 sha256 l hdefault)) (hbtest mh3 sha1 sha256 files) argv.

(** bptest.cpp:79-144, "a:hi:j:k:l:p:" *)
Definition os_bp : chars := [97; 58; 104; 105; 58; 106; 58; 107; 58; 108; 58; 112; 58].
Definition conv_bp (c : Z) (v : chars) : bopt :=
  match c with
  | 97 => Ba v | 105 => Bi v | 106 => Bj (atol v) | 107 => Bk (atol v) | 108 => Bl (atol v) | 112 => Bp (atol v)
  | _ => Bh
  end.
Definition bptest_cmd sha rand fuel found clock mh3 sha1 sha256 files (argv : list chars) (pos : nat) : res bp_result :=
  program os_bp conv_bp (fun l => ignore (bparse mh3 sha1 sha256 l bdefault))
    (fun l => bptest sha rand fuel found clock mh3 sha1 sha256 files l pos) argv.

(** polyfact.cpp:45-84, "b:d:hn:o:q"; -o has no case of its own *)
Definition os_pf : chars := [98; 58; 100; 58; 104; 110; 58; 111; 58; 113].
Definition conv_pf (c : Z) (v : chars) : popt :=
  match c with 98 => Pb (atol v) | 100 => Pd (atol v) | 110 => Pn (atol v) | 113 => Pq | _ => Ph end.
Definition polyfact_cmd sha rand fuel found clock canzass (argv : list chars) (now : Z) (pos : nat) : res pf_result :=
  program os_pf conv_pf (fun l => ignore (pparse l pdefault))
    (fun l => polyfact sha rand fuel found clock canzass l now pos) argv.

(** cherpars.cpp:37-78, "hl:n:p:q"; [atof] is left open *)
Definition os_cp : chars := [104; 108; 58; 110; 58; 112; 58; 113].
Definition conv_cp (atof : chars -> R) (c : Z) (v : chars) : copt :=
  match c with 108 => Cl (atol v) | 110 => Cn (atol v) | 112 => Cp (atof v) | 113 => Cq | _ => Ch end.
Definition cherpars_cmd (atof : chars -> R) (argv : list chars) : res cout :=
  program os_cp (conv_cp atof) (fun l => ignore (cparse l cdefault)) cherpars argv.
