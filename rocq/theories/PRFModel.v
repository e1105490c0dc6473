(** Model of src/libeopsi/prf.hpp, zzprf.cpp, zzpprf.cpp and shabyte.cpp. *)
From Verif Require Import Base NtlMiss.

(** Heap cells of a [new byte[n]] array: [None] until written. *)
Notation cell := (option Z).

(** memcpy/BytesFromZZ into an array at an offset *)
Fixpoint write_at (buf : list cell) (off : Z) (bs : list Z) : res (list cell) :=
  match bs with
  | [] => Ok buf
  | b :: t => do buf1 <- zset buf off (Some b); write_at buf1 (off + 1) t
  end.
Definition read_cell (buf : list cell) (i : Z) : res Z :=
  do c <- zget buf i; match c with Some b => Ok b | None => UB Uninit end.
Definition read_prefix (buf : list cell) (n : Z) : res (list Z) :=
  mapM (fun i => read_cell buf (Z.of_nat i)) (seq 0 (Z.to_nat n)).

(** ZZPRF objects (zzprf.h:22-29, prf.hpp:24-27).  A null array pointer is the
    empty array.  [p_pos] is the number of rand() values drawn so far by the
    program (rand() is process global; one generator at a time is modelled).
    [p_autoSeed = None] is [autoSeedPtr == nullptr]. *)
Record prf := {
  p_gen : list cell;
  p_genLength : Z;
  p_hashInput : list cell;
  p_hashInputSize : Z;
  p_autoIndex : Z;
  p_autoSeed : option Z;
  p_pos : nat
}.

(** zzprf.cpp:13-18 and prf.hpp:33-36 *)
Definition new_prf (pos : nat) : prf :=
  {| p_gen := []; p_genLength := 0; p_hashInput := []; p_hashInputSize := 0;
     p_autoIndex := 0; p_autoSeed := None; p_pos := pos |}.

Section PRF.
(** The digest function of the configured SHA object (Crypto++
    CalculateDigest), and its digest size; SHAByteArray's default flavour is
    SHA1 (sha.hpp:61-64), whose DIGESTSIZE is 20. *)
Variable sha : list Z -> list Z.
Definition hash_size : Z := 20.
(** The values returned by successive calls of rand(). *)
Variable rand : nat -> Z.

(** shabyte.cpp:18-25 for a non-null [str] with [len] readable bytes; a zero
    length yields nullptr, which the caller would pass to memcpy. *)
Definition sha_bytes (str : list Z) : res (list Z) :=
  match str with [] => UB NullDeref | _ => Ok (sha str) end.

(** zzprf.cpp:54: [while ((rnd = rand()) == 0);] *)
Fixpoint rand_nonzero (fuel : nat) (pos : nat) : res (Z * nat) :=
  match fuel with
  | O => NoFuel
  | S f => if rand pos =? 0 then rand_nonzero f (S pos) else Ok (rand pos, S pos)
  end.

(** zzprf.cpp:92-102: the do-while loop; [gen] has [n] bytes to fill, [r] of
    them are still missing. *)
Fixpoint fill (fuel : nat) (gen : list cell) (n r : Z) (digerible : list Z) : res (list cell) :=
  match fuel with
  | O => NoFuel
  | S f =>
      do digest <- sha_bytes digerible;
      let k := if r <? hash_size then r else hash_size in
      do gen1 <- write_at gen (w64 (n - r)) (firstn (Z.to_nat k) digest);
      let r1 := r - k in
      if 0 <? r1 then fill f gen1 n r1 digest else Ok gen1
  end.

(** zzprf.cpp:107-108: [b <<= rbits; b >>= rbits] on a byte: each operand is
    promoted to a 32-bit int and the result truncated to a byte. *)
Definition cut_bits (b rbits : Z) : res Z :=
  if rbits <? 32 then Ok (w8 (Z.shiftr (w8 (Z.shiftl b rbits)) rbits)) else UB BadShift.

(** zzprf.cpp:46-114.  [fuel] bounds the search for a non-zero rand().
    Allocation is assumed to succeed. *)
Definition generate (fuel : nat) (st : prf) (seed index bits : Z) : res (prf * Z) :=
  do (n, pos) <- (if bits =? 0 then
                    do (rnd, pos) <- rand_nonzero fuel (p_pos st);
                    do n <- bytes_of_bits rnd; Ok (n, pos)
                  else do n <- bytes_of_bits bits; Ok (n, p_pos st));
  let len := bytes_of_zz seed + 8 in
  (* lines 61-72 *)
  let gen := if p_genLength st <? n then repeat None (Z.to_nat n) else p_gen st in
  let genLength := if p_genLength st <? n then n else p_genLength st in
  (* lines 73-83 *)
  let hsize := if p_hashInputSize st <? len
               then (if len <? hash_size then hash_size else len) else p_hashInputSize st in
  let hin := if p_hashInputSize st <? len then repeat None (Z.to_nat hsize) else p_hashInput st in
  (* lines 85-86 *)
  do hin <- write_at hin 0 (le_bytes (Z.to_nat (bytes_of_zz seed)) (Z.abs seed));
  do hin <- write_at hin (bytes_of_zz seed) (le_bytes 8 index);
  (* lines 88-102 *)
  do input <- read_prefix hin len;
  do gen <- fill (S (Z.to_nat n)) gen n n input;
  (* lines 104-108 *)
  let rbits := w64 (n * 8 - bits) in
  do b <- read_cell gen (n - 1);
  do b <- cut_bits b rbits;
  do gen <- zset gen (n - 1) (Some b);
  (* line 111 *)
  do bs <- read_prefix gen n;
  Ok ({| p_gen := gen; p_genLength := genLength; p_hashInput := hin; p_hashInputSize := hsize;
         p_autoIndex := p_autoIndex st; p_autoSeed := p_autoSeed st; p_pos := pos |}, le_val bs).

(** zzprf.cpp:32-36 *)
Definition randomSeed (st : prf) : prf * Z :=
  ({| p_gen := p_gen st; p_genLength := p_genLength st; p_hashInput := p_hashInput st;
      p_hashInputSize := p_hashInputSize st; p_autoIndex := p_autoIndex st;
      p_autoSeed := p_autoSeed st; p_pos := S (p_pos st) |}, rand (p_pos st)).
(** zzprf.cpp:39-43 *)
Definition defaultSeed : Z := 0.

(** prf.hpp:72-79 and zzprf.cpp:117-119 *)
Definition generate_auto (fuel : nat) (st : prf) (index bits : Z) : res (prf * Z) :=
  match p_autoSeed st with
  | Some s => generate fuel st s index bits
  | None =>
      let '(st1, s) := randomSeed st in
      generate fuel {| p_gen := p_gen st1; p_genLength := p_genLength st1;
                       p_hashInput := p_hashInput st1; p_hashInputSize := p_hashInputSize st1;
                       p_autoIndex := p_autoIndex st1; p_autoSeed := Some s; p_pos := p_pos st1 |}
               s index bits
  end.
(** prf.hpp:85-87 *)
Definition generate_next (fuel : nat) (st : prf) : res (prf * Z) :=
  generate_auto fuel
    {| p_gen := p_gen st; p_genLength := p_genLength st; p_hashInput := p_hashInput st;
       p_hashInputSize := p_hashInputSize st; p_autoIndex := w64 (p_autoIndex st + 1);
       p_autoSeed := p_autoSeed st; p_pos := p_pos st |}
    (p_autoIndex st) 0.

(** ZZpPRF objects (zzpprf.h).  The base class has its own autoIndex/autoSeed;
    [zp_prf] is the embedded ZZPRF. *)
Record zpprf := { zp_modulo : Z; zp_prf : prf; zp_autoIndex : Z; zp_autoSeed : option Z }.
(** zzpprf.cpp:16-21 with the default prf argument (nullptr) *)
Definition new_zpprf (modulo : Z) (pos : nat) : zpprf :=
  {| zp_modulo := modulo; zp_prf := new_prf pos; zp_autoIndex := 0; zp_autoSeed := None |}.

(** The global modulus of NTL's ZZ_p; conv(ZZ_p, ZZ) reduces modulo it. *)
Variable p : Z.

(** zzpprf.cpp:57 *)
Definition gen_bits (modulo bits : Z) : Z :=
  if (num_bits modulo <? bits) || (bits =? 0) then num_bits modulo else bits.
(** zzpprf.cpp:52-66; [seed] is rep(seed) *)
Definition zp_generate (fuel : nat) (st : zpprf) (seed index bits : Z) : res (zpprf * Z) :=
  do (st1, g) <- generate fuel (zp_prf st) seed index (gen_bits (zp_modulo st) bits);
  Ok ({| zp_modulo := zp_modulo st; zp_prf := st1; zp_autoIndex := zp_autoIndex st; zp_autoSeed := zp_autoSeed st |},
      g mod p).
(** zzpprf.cpp:38-42 *)
Definition zp_randomSeed (st : zpprf) : zpprf * Z :=
  let '(st1, r) := randomSeed (zp_prf st) in
  ({| zp_modulo := zp_modulo st; zp_prf := st1; zp_autoIndex := zp_autoIndex st; zp_autoSeed := zp_autoSeed st |}, r mod p).
(** zzpprf.cpp:45-49 *)
Definition zp_defaultSeed : Z := 1 mod p.
(** prf.hpp:72-79 *)
Definition zp_generate_auto (fuel : nat) (st : zpprf) (index bits : Z) : res (zpprf * Z) :=
  match zp_autoSeed st with
  | Some s => zp_generate fuel st s index bits
  | None =>
      let '(st1, s) := zp_randomSeed st in
      zp_generate fuel {| zp_modulo := zp_modulo st1; zp_prf := zp_prf st1;
                          zp_autoIndex := zp_autoIndex st1; zp_autoSeed := Some s |} s index bits
  end.
(** prf.hpp:85-87 *)
Definition zp_generate_next (fuel : nat) (st : zpprf) : res (zpprf * Z) :=
  zp_generate_auto fuel
    {| zp_modulo := zp_modulo st; zp_prf := zp_prf st;
       zp_autoIndex := w64 (zp_autoIndex st + 1); zp_autoSeed := zp_autoSeed st |}
    (zp_autoIndex st) 0.

(** A history of calls on a ZZPRF object *)
Inductive call := Seeded (seed index bits : Z) | Auto (index bits : Z) | Next.
Definition exec_call (fuel : nat) (st : prf) (c : call) : res (prf * Z) :=
  match c with
  | Seeded s i b => generate fuel st s i b
  | Auto i b => generate_auto fuel st i b
  | Next => generate_next fuel st
  end.
Fixpoint run_prf (fuel : nat) (st : prf) (l : list call) : res (prf * list Z) :=
  match l with
  | [] => Ok (st, [])
  | c :: t => do (st1, v) <- exec_call fuel st c; do (st2, vs) <- run_prf fuel st1 t; Ok (st2, v :: vs)
  end.
(** and on a ZZpPRF object *)
Definition exec_zp (fuel : nat) (st : zpprf) (c : call) : res (zpprf * Z) :=
  match c with
  | Seeded s i b => zp_generate fuel st s i b
  | Auto i b => zp_generate_auto fuel st i b
  | Next => zp_generate_next fuel st
  end.
Fixpoint run_zp (fuel : nat) (st : zpprf) (l : list call) : res (zpprf * list Z) :=
  match l with
  | [] => Ok (st, [])
  | c :: t => do (st1, v) <- exec_zp fuel st c; do (st2, vs) <- run_zp fuel st1 t; Ok (st2, v :: vs)
  end.
End PRF.
