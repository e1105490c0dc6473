(** Model of src/test/zzrndgen.cpp, src/test/hbtest.cpp and of the stream
    operators with which they exchange numbers through a text file. *)
From Coq Require Import QArith Qround.
From Verif Require Import Base NtlMiss StrIntModel HashBucketsModel PRFModel MurmurModel.
Open Scope Z_scope.

(** A std::string / a file: its characters. *)
Notation chars := (list Z).
Definition chars_eqb (a b : chars) : bool := if list_eq_dec Z.eq_dec a b then true else false.

(** * zzrndgen *)

(** what getopt and atol deliver (from argv: CmdModel) *)
Inductive zopt := Zb (z : Z) | Zn (z : Z) | Zo (name : chars) | Zh.
Record zargs := { za_bits : Z; za_n : Z; za_file : chars }.
(** zzrndgen.cpp:28-30 and zzrndgen.h: DEFAULT_N, DEFAULT_PLAIN_SET_BITS *)
Definition zdefault : zargs := {| za_bits := 80; za_n := 1000000; za_file := [] |}.
(** zzrndgen.cpp:35-61; atol gives a long, the variables are size_t *)
Fixpoint zparse (os : list zopt) (a : zargs) : res zargs :=
  match os with
  | [] => Ok a
  | Zb z :: t => if z <=? 0 then Exit 1
                 else zparse t {| za_bits := w64 z; za_n := za_n a; za_file := za_file a |}
  | Zn z :: t => zparse t {| za_bits := za_bits a; za_n := w64 z; za_file := za_file a |}
  | Zo f :: t => zparse t {| za_bits := za_bits a; za_n := za_n a; za_file := f |}
  | Zh :: _ => Exit 1
  end.

(** "zz.dat" (zzrndgen.h, hbtest.h: DEFAULT_FILENAME) *)
Definition default_file : chars := [122; 122; 46; 100; 97; 116].
(** [outfile << x << "\n"] for a non-negative integer *)
Definition put_line (x : Z) : chars := dec_text x ++ [10].

Section Gen.
Variable sha : list Z -> list Z.
Variable rand : nat -> Z.
Variable fuel : nat.
(** whether a file can be opened for writing *)
Variable writable : chars -> bool.

(** zzrndgen.cpp:81-87: one round; the dots on stdout are left out, the
    division is not *)
Definition zz_round (bits n : Z) (i : nat) (s : prf * chars) : res (prf * chars) :=
  let '(st, text) := s in
  do (st1, v) <- generate_auto sha rand fuel st (Z.of_nat i) bits;
  if n / 10 =? 0 then UB DivByZero else Ok (st1, text ++ put_line v).
(** zzrndgen.cpp:25-96: the name of the file and its content.  [pos]: the
    number of rand() values drawn since srand. *)
Definition zzrndgen (os : list zopt) (pos : nat) : res (chars * chars) :=
  do a <- zparse os zdefault;
  let name := if chars_eqb (za_file a) [] then default_file else za_file a in
  if negb (writable name) then Exit 1 else
  do (st, text) <- for_up (Z.to_nat (za_n a)) 0 (zz_round (za_bits a) (za_n a))
                     (new_prf pos, put_line (za_bits a) ++ put_line (za_n a));
  Ok (name, text ++ [10]).
End Gen.

(** * Input streams *)

(** what is left to read, and whether a previous read failed *)
Record istream := { in_rest : chars; in_good : bool }.
Definition is_space (c : Z) : bool := (c =? 32) || ((9 <=? c) && (c <=? 13)).
Definition is_digit (c : Z) : bool := (48 <=? c) && (c <=? 57).
Fixpoint skip_space (s : chars) : chars :=
  match s with c :: t => if is_space c then skip_space t else s | [] => [] end.
(** the digits at the front, with the value read so far, and the rest *)
Fixpoint span_digits (s : chars) (count : nat) (acc : Z) : nat * Z * chars :=
  match s with
  | c :: t => if is_digit c then span_digits t (S count) (10 * acc + (c - 48)) else (count, acc, s)
  | [] => (count, acc, [])
  end.
(** [in >> x] for a size_t (C++11 num_get): [None]: x is not assigned; no
    digits: 0; too large: the maximum; both of the latter fail. A minus sign
    is accepted and the value negated modulo 2^64. *)
Definition get_size (s : istream) : istream * option Z :=
  if negb (in_good s) then (s, None)
  else match skip_space (in_rest s) with
       | [] => ({| in_rest := []; in_good := false |}, None)
       | c :: t =>
           let '(minus, body) := if c =? 45 then (true, t) else if c =? 43 then (false, t) else (false, c :: t) in
           let '(n, v, rest) := span_digits body 0 0 in
           if Nat.eqb n 0 then ({| in_rest := rest; in_good := false |}, Some 0)
           else if 2 ^ 64 <=? v then ({| in_rest := rest; in_good := false |}, Some (2 ^ 64 - 1))
           else ({| in_rest := rest; in_good := true |}, Some (if minus : bool then w64 (- v) else v))
       end.
(** [in >> x] for a ZZ (NTL manual); a malformed number is an NTL input
    error, modelled as the end of the program. *)
Definition get_ZZ (s : istream) : res (istream * Z) :=
  if negb (in_good s) then Abort
  else match skip_space (in_rest s) with
       | [] => Abort
       | c :: t =>
           let '(minus, body) := if c =? 45 then (true, t) else (false, c :: t) in
           let '(n, v, rest) := span_digits body 0 0 in
           if Nat.eqb n 0 then Abort
           else Ok ({| in_rest := rest; in_good := true |}, if minus : bool then - v else v)
       end.

(** * hbtest *)

(** hashbuckets.hpp:203-209: average and variance of the sizes, in exact
    rationals instead of double; [diff] is a size_t, so the deviation is
    truncated to an integer before it is squared. *)
Section Stats.
Context {T : Type}.
Definition size_avg (h : hb T) (total : nat) : Q := (inject_Z (Z.of_nat total) / inject_Z (Z.of_nat (hb_k h)))%Q.
Definition size_var (h : hb T) (avg : Q) : res Q :=
  for_up (hb_k h) 0 (fun i v =>
    do b <- aget (hb_buckets h) i;
    let s := inject_Z (Z.of_nat (length (mv_items b))) in
    let d := if Qle_bool avg s then Qfloor (s - avg) else Qfloor (avg - s) in
    Ok (v + inject_Z d * inject_Z d / inject_Z (Z.of_nat (hb_k h)))%Q) (0 # 1)%Q.
(** hashbuckets.hpp:222-228: the pairs (bucket, size) shown; DEFAULT_NSHOW is
    30 (hashbuckets.hpp:19) *)
Definition shown (h : hb T) (full : bool) : res (list (nat * nat)) :=
  let nshow := if full || Nat.ltb (hb_k h) 30 then hb_k h else 30%nat in
  mapM (fun i => do b <- aget (hb_buckets h) i; Ok (i, length (mv_items b))) (seq 0 nshow).
(** hashbuckets.hpp:184-230 *)
Record report := { rp_int : stats; rp_avg : Q; rp_var : Q; rp_shown : list (nat * nat) }.
Definition printStats (h : hb T) (full : bool) : res report :=
  do s <- print_stats h;
  let avg := size_avg h (st_total s) in
  do v <- size_var h avg;
  do l <- shown h full;
  Ok {| rp_int := s; rp_avg := avg; rp_var := v; rp_shown := l |}.
End Stats.

Inductive hopt := Ha (name : chars) | Hk (z : Z) | Hl (z : Z) | Hi (name : chars) | Hh.
Record hargs := { hg_algo : option (halgo Z); hg_k : Z; hg_l : Z; hg_file : chars }.
(** "MH3", "SHA1", "SHA256", "SHA512" *)
Definition s_mh3 : chars := [77; 72; 51].
Definition s_sha1 : chars := [83; 72; 65; 49].
Definition s_sha256 : chars := [83; 72; 65; 50; 53; 54].
Definition s_sha512 : chars := [83; 72; 65; 53; 49; 50].

Section Test.
(** the three hash algorithms; MurmurHash3 has no deterministic digest (see
    MurmurModel), here it stands for what it delivers in the run at hand *)
Variables mh3 sha1 sha256 : halgo Z.
(** the file system: readable files and their content *)
Variable files : chars -> option chars.

(** hbtest.cpp:36-46, hbtest.h *)
Definition hdefault : hargs := {| hg_algo := None; hg_k := 10000; hg_l := 140; hg_file := [] |}.
(** hbtest.cpp:50-89; allocations are assumed to succeed *)
Fixpoint hparse (os : list hopt) (a : hargs) : res hargs :=
  match os with
  | [] => Ok a
  | Ha n :: t =>
      if chars_eqb n s_mh3 then hparse t {| hg_algo := Some mh3; hg_k := hg_k a; hg_l := hg_l a; hg_file := hg_file a |}
      else if chars_eqb n s_sha1 then hparse t {| hg_algo := Some sha1; hg_k := hg_k a; hg_l := hg_l a; hg_file := hg_file a |}
      else if chars_eqb n s_sha256 then hparse t {| hg_algo := Some sha256; hg_k := hg_k a; hg_l := hg_l a; hg_file := hg_file a |}
      else if chars_eqb n s_sha512 then Exit 2
      else hparse t a
  | Hk z :: t => hparse t {| hg_algo := hg_algo a; hg_k := w64 z; hg_l := hg_l a; hg_file := hg_file a |}
  | Hl z :: t => hparse t {| hg_algo := hg_algo a; hg_k := hg_k a; hg_l := w64 z; hg_file := hg_file a |}
  | Hi f :: t => hparse t {| hg_algo := hg_algo a; hg_k := hg_k a; hg_l := hg_l a; hg_file := f |}
  | Hh :: _ => Exit 1
  end.

(** hbtest.cpp:134-136: the numbers, each reduced modulo [m] when stored in a ZZ_p *)
Definition read_numbers (m : Z) (n : nat) (s : istream) : res (list Z) :=
  do (s, zs) <- for_up n 0 (fun _ '(s, zs) => do (s1, v) <- get_ZZ s; Ok (s1, zs ++ [v mod m])) (s, []);
  Ok zs.

(** hbtest.cpp:35-154: the table at the end and what printStats shows.
    [ZZ_p::init] refuses the modulus 1 (bits = 0), [power] a negative
    exponent; benchmarks and warnings are left out, the division of line 124
    is not. *)
Definition hbtest (os : list hopt) : res (hb Z * report) :=
  do a <- hparse os hdefault;
  let al := match hg_algo a with Some al => al | None => mh3 end in
  do h <- new_hb (Z.to_nat (hg_k a)) (Z.to_nat (hg_l a)) (Some al);
  let name := if chars_eqb (hg_file a) [] then default_file else hg_file a in
  match files name with
  | None => Exit 1
  | Some text =>
      let '(s, bits) := get_size {| in_rest := text; in_good := true |} in
      match bits with
      | None => UB Uninit
      | Some bits =>
          if s64 bits <=? 0 then Abort else
          let '(s, n) := get_size s in
          match n with
          | None => UB Uninit
          | Some n =>
              if hg_k a =? 0 then UB DivByZero else
              do zs <- read_numbers (2 ^ bits) (Z.to_nat n) s;
              do h <- for_up (Z.to_nat n) 0 (fun i h => do z <- aget zs i; hb_add h z) h;
              do r <- printStats h false;
              Ok (h, r)
          end
      end
  end.
End Test.
