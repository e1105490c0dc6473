(** Model of the two measuring programs src/test/polyfact.cpp and
    src/test/bptest.cpp.  Printing is left out, the figures printed are not;
    allocations succeed. *)
From Coq Require Import QArith.
From Verif Require Import Base NtlMiss StrIntModel HashBucketsModel PRFModel PolyModel EopsiModel FilesModel.
From Verif Require BenchModel.
Open Scope Z_scope.
Notation bm := BenchModel.bm.

(** the five figures polyfact prints for a chronometer (polyfact.cpp:149-173),
    in microseconds and without the divisions by 1000 resp. 1000000;
    standardDeviation() is kept squared *)
Record figures := { fg_avg : Q; fg_sd2 : Q; fg_min : Z; fg_max : Z; fg_total : Z }.
Definition figures_of (b : bm) : res figures :=
  do a <- BenchModel.average b true;
  do d <- BenchModel.standardDeviation_squared b true;
  do mn <- BenchModel.min b true;
  do mx <- BenchModel.max b true;
  do t <- BenchModel.cumulativeBenchmark b 0 true;
  Ok {| fg_avg := a; fg_sd2 := d; fg_min := mn; fg_max := mx; fg_total := t |}.

(** * polyfact *)
(** what getopt and atol deliver (from argv: CmdModel); -o (accepted by getopt,
    without a case) behaves like -h *)
Inductive popt := Pb (z : Z) | Pd (z : Z) | Pn (z : Z) | Pq | Ph.
Record pargs := { pf_bits : Z; pf_degree : Z; pf_n : Z; pf_quiet : bool }.
(** polyfact.h *)
Definition pdefault : pargs := {| pf_bits := 128; pf_degree := 60; pf_n := 100; pf_quiet := false |}.
(** polyfact.cpp:45-84; atol gives a long, the variables are size_t *)
Fixpoint pparse (os : list popt) (a : pargs) : res pargs :=
  match os with
  | [] => Ok a
  | Pb z :: t => if z <=? 0 then Exit 1
                 else pparse t {| pf_bits := w64 z; pf_degree := pf_degree a; pf_n := pf_n a; pf_quiet := pf_quiet a |}
  | Pd z :: t => if z <? 0 then Exit 1
                 else pparse t {| pf_bits := pf_bits a; pf_degree := w64 z; pf_n := pf_n a; pf_quiet := pf_quiet a |}
  | Pn z :: t => if z <=? 0 then Exit 1
                 else pparse t {| pf_bits := pf_bits a; pf_degree := pf_degree a; pf_n := w64 z; pf_quiet := pf_quiet a |}
  | Pq :: t => pparse t {| pf_bits := pf_bits a; pf_degree := pf_degree a; pf_n := pf_n a; pf_quiet := true |}
  | Ph :: _ => Exit 1
  end.

(** NTL::GenPrime_ZZ(bits, 100) (NTL manual): a prime of that many bits, an
    error for less than 2 bits; [found] is the prime it finds.  (The following
    check with ProbPrime does not fail for a prime.) *)
Definition gen_prime (found : Z -> Z) (bits : Z) : res Z :=
  if s64 bits <=? 1 then Abort else Ok (found bits).

Section Tools.
Variable sha : list Z -> list Z.
Variable rand : nat -> Z.
Variable fuel : nat.
Variable found : Z -> Z.
(** the readings of the clock, in nanoseconds *)
Variable clock : nat -> Z.

Section Polyfact.
Variable canzass : nat -> poly -> list (poly * Z).
(** the global modulus *)
Variable p : Z.

(** polyfact.cpp:123-125 *)
Definition pf_roots (degree : nat) (seed : Z) (s : zpprf * Z * list Z) : res (zpprf * Z * list Z) :=
  for_up degree 0 (fun i '(zp, k, roots) =>
    do (zp1, v) <- zp_generate sha rand p fuel zp seed k 0;
    do roots1 <- aset roots i v;
    Ok (zp1, w64 (k + 1), roots1)) s.
(** polyfact.cpp:121-139, one round: generator, index, root vector,
    polynomials, the two chronometers, the dots printed so far.  The
    factorisation itself is not used by the program. *)
Definition pf_round (a : pargs) (seed : Z) (j : nat)
    (s : zpprf * Z * list Z * list poly * bm * bm * Z) : res (zpprf * Z * list Z * list poly * bm * bm * Z) :=
  let '(zp, k, roots, polys, bg, bf, dots) := s in
  do bg1 <- BenchModel.step bg (clock (4 * j)) [];
  do (zp1, k1, roots1) <- pf_roots (Z.to_nat (pf_degree a)) seed (zp, k, roots);
  let f := build_from_roots p roots1 in
  do polys1 <- aset polys j f;
  do bg2 <- BenchModel.pause bg1 (clock (4 * j + 1)) [];
  do bf1 <- BenchModel.step bf (clock (4 * j + 2)) [];
  do _ <- fact_call canzass j f;
  do bf2 <- BenchModel.pause bf1 (clock (4 * j + 3)) [];
  do dots1 <- (if pf_quiet a then Ok dots
               else if pf_n a / 10 =? 0 then UB DivByZero
               else Ok (if Z.of_nat j mod (pf_n a / 10) =? 0 then dots + 1 else dots));
  Ok (zp1, k1, roots1, polys1, bg2, bf2, dots1).
End Polyfact.

(** what polyfact has made and shown in the end; the figures of the generation
    are shown only without -q *)
Record pf_result := { pr_modulo : Z; pr_polys : list poly; pr_dots : Z; pr_gen : option figures; pr_fact : figures }.
(** polyfact.cpp:29-183; [now]: time(NULL); [pos]: rand() calls before *)
Definition polyfact (canzass : nat -> poly -> list (poly * Z)) (os : list popt) (now : Z) (pos : nat) : res pf_result :=
  do a <- pparse os pdefault;
  do p <- gen_prime found (pf_bits a);
  let n := Z.to_nat (pf_n a) in
  do (_, _, _, polys, bg, bf, dots) <-
    for_up n 0 (pf_round canzass p a (now mod p))
      (new_zpprf p pos, 0, repeat 0 (Z.to_nat (pf_degree a)), repeat [] n, BenchModel.new_bm, BenchModel.new_bm, 0);
  do bg1 <- BenchModel.stop bg (clock (4 * n)) [];
  do bf1 <- BenchModel.stop bf (clock (4 * n + 1)) [];
  do g <- (if pf_quiet a then Ok None else do g <- figures_of bg1; Ok (Some g));
  do f <- figures_of bf1;
  Ok {| pr_modulo := p; pr_polys := polys; pr_dots := dots; pr_gen := g; pr_fact := f |}.

(** * bptest *)
Inductive bopt := Ba (name : chars) | Bi (name : chars) | Bj (z : Z) | Bk (z : Z) | Bl (z : Z) | Bp (z : Z) | Bh.
Record bargs := { bp_algo : option (halgo Z); bp_k : Z; bp_l : Z; bp_bits : Z; bp_file : chars }.
(** the hash algorithms, see FilesModel *)
Variables mh3 sha1 sha256 : halgo Z.
Variable files : chars -> option chars.

(** bptest.cpp:53-60, bptest.h *)
Definition bdefault : bargs := {| bp_algo := None; bp_k := 10000; bp_l := 140; bp_bits := 113; bp_file := default_file |}.
(** bptest.cpp:79-143; the number of threads asked for is overwritten (173) *)
Fixpoint bparse (os : list bopt) (a : bargs) : res bargs :=
  match os with
  | [] => Ok a
  | Ba n :: t =>
      if chars_eqb n s_mh3 then bparse t {| bp_algo := Some mh3; bp_k := bp_k a; bp_l := bp_l a; bp_bits := bp_bits a; bp_file := bp_file a |}
      else if chars_eqb n s_sha1 then bparse t {| bp_algo := Some sha1; bp_k := bp_k a; bp_l := bp_l a; bp_bits := bp_bits a; bp_file := bp_file a |}
      else if chars_eqb n s_sha256 then bparse t {| bp_algo := Some sha256; bp_k := bp_k a; bp_l := bp_l a; bp_bits := bp_bits a; bp_file := bp_file a |}
      else if chars_eqb n s_sha512 then Exit 2
      else bparse t a
  | Bj z :: t => if z <? 0 then Exit 1 else bparse t a
  | Bk z :: t => if z <=? 0 then Exit 1
                 else bparse t {| bp_algo := bp_algo a; bp_k := w64 z; bp_l := bp_l a; bp_bits := bp_bits a; bp_file := bp_file a |}
  | Bl z :: t => if z <=? 0 then Exit 1
                 else bparse t {| bp_algo := bp_algo a; bp_k := bp_k a; bp_l := w64 z; bp_bits := bp_bits a; bp_file := bp_file a |}
  | Bi f :: t => bparse t {| bp_algo := bp_algo a; bp_k := bp_k a; bp_l := bp_l a; bp_bits := bp_bits a; bp_file := f |}
  | Bp z :: t => if z <=? 0 then Exit 1
                 else bparse t {| bp_algo := bp_algo a; bp_k := bp_k a; bp_l := bp_l a; bp_bits := w64 z; bp_file := bp_file a |}
  | Bh :: _ => Exit 1
  end.

(** "padding", "hashbuckets", "conceal", "polgen", "unkgen", "poleval", "blind" *)
Definition n_padding : chars := [112; 97; 100; 100; 105; 110; 103].
Definition n_hashbuckets : chars := [104; 97; 115; 104; 98; 117; 99; 107; 101; 116; 115].
Definition n_conceal : chars := [99; 111; 110; 99; 101; 97; 108].
Definition n_polgen : chars := [112; 111; 108; 103; 101; 110].
Definition n_unkgen : chars := [117; 110; 107; 103; 101; 110].
Definition n_poleval : chars := [112; 111; 108; 101; 118; 97; 108].
Definition n_blind : chars := [98; 108; 105; 110; 100].
(** "Topsy Kretts", bptest.cpp:321 *)
Definition topsy : list Z := [84; 111; 112; 115; 121; 32; 75; 114; 101; 116; 116; 115].

(** bptest.cpp:225-228 *)
Definition bp_read (p padsize : Z) (n : nat) (s : istream) : res (list Z) :=
  do (s, zs) <- for_up n 0 (fun _ '(s, zs) => do (s1, v) <- get_ZZ s; Ok (s1, zs ++ [zeroPad v padsize mod p])) (s, []);
  Ok zs.
(** bptest.cpp:264-268; SetLength fills with zeros, append() makes the vector longer *)
Definition bp_unknowns (p : Z) (D : nat) (zp : zpprf) : res (zpprf * list Z) :=
  for_up D 0 (fun j '(zp, us) =>
    do (zp1, v) <- zp_generate sha rand p fuel zp (0 mod p) (Z.of_nat j) 0;
    Ok (zp1, us ++ [v])) (zp, set_length [] D).
(** bptest.cpp:324-326, one row *)
Definition bp_blind_row (p seed : Z) (D : nat) (row : list Z) (s : zpprf * Z) : res (zpprf * Z * list Z) :=
  for_up D 0 (fun i '(zp, index, row) =>
      do v <- aget row i;
      do (zp1, g) <- zp_generate sha rand p fuel zp seed index 0;
      do row1 <- aset row i ((v + g) mod p);
      Ok (zp1, w64 (index + 1), row1)) (fst s, snd s, row).

(** what bptest has computed when it prints its figures (331-373): modulus,
    table, polynomials, unknowns, evaluations, and the seven times *)
Record bp_result := { br_modulo : Z; br_table : hb Z; br_polys : list poly; br_unknowns : list Z;
                      br_evals : list (list Z); br_times : list Z }.
(** bptest.cpp:52-373, single threaded (173).  The averages printed are
    quotients of floating point numbers and left out, the division of line 212
    is not.  The deletes (375-380) are left out. *)
Definition bptest (os : list bopt) (pos : nat) : res bp_result :=
  do a <- bparse os bdefault;
  do p <- gen_prime found (bp_bits a);
  let padsize := w32 (num_bits p) in
  let name := if chars_eqb (bp_file a) [] then default_file else bp_file a in
  match files name with
  | None => Exit 1
  | Some text =>
      let al := match bp_algo a with Some al => al | None => mh3 end in
      let k := Z.to_nat (bp_k a) in
      do h0 <- new_hb k (Z.to_nat (bp_l a)) (Some al);
      (* 206, 209 *)
      do (s, _) <- get_ZZ {| in_rest := text; in_good := true |};
      let '(s, n) := get_size s in
      match n with
      | None => UB Uninit
      | Some n =>
          if bp_k a =? 0 then UB DivByZero else
          let b := BenchModel.start (clock 0) in
          do zs <- bp_read p padsize (Z.to_nat n) s;
          do b <- BenchModel.step b (clock 1) n_padding;
          do b <- BenchModel.step b (clock 2) [];
          do h1 <- for_up (Z.to_nat n) 0 (fun i h => do z <- aget zs i; hb_add h z) h0;
          do b <- BenchModel.step b (clock 3) n_hashbuckets;
          do b <- BenchModel.step b (clock 4) [];
          (* 247 *)
          do (h2, g) <- conceal (conceal_gen sha rand fuel p) h1 (Ok (new_zpprf p pos));
          do zp1 <- g;
          do b <- BenchModel.step b (clock 5) n_conceal;
          do b <- BenchModel.step b (clock 6) [];
          (* 255-257 *)
          do polys <- mapM (fun i => do bk <- getBucket h2 i; do v <- vector2VecZZp (mv_items bk); Ok (build_from_roots p v)) (seq 0 k);
          do b <- BenchModel.step b (clock 7) n_polgen;
          (* 264-268 *)
          let D := Z.to_nat (w64 (2 * bp_l a + 1)) in
          do b <- BenchModel.step b (clock 8) [];
          do (zp2, us) <- bp_unknowns p D zp1;
          do b <- BenchModel.step b (clock 9) n_unkgen;
          do b <- BenchModel.step b (clock 10) [];
          (* 310-312 *)
          do ev <- polEval p us polys 0 k (repeat [] k);
          do b <- BenchModel.step b (clock 11) n_poleval;
          do b <- BenchModel.step b (clock 12) [];
          (* 321-327 *)
          do (_, _, ev1) <- for_up k 0 (fun j '(zp, index, bl) =>
              do row <- aget ev j;
              do (zp', index', row') <- bp_blind_row p (le_val topsy mod p) D row (zp, index);
              Ok (zp', index', bl ++ [row'])) (zp2, 0, []);
          do b <- BenchModel.stop b (clock 13) n_blind;
          do ts <- mapM (BenchModel.benchmark_named b)
                     [n_padding; n_hashbuckets; n_conceal; n_polgen; n_unkgen; n_poleval; n_blind];
          Ok {| br_modulo := p; br_table := h2; br_polys := polys; br_unknowns := us; br_evals := ev1; br_times := ts |}
      end
  end.
End Tools.
