(** Model of the generators (src/libeopsi/zzprf.cpp, zzpprf.cpp, prf.hpp,
    sha.hpp) with allocations that may fail.  [ok t] says whether the [t]-th
    request made to operator new succeeds; [t] counts the requests made so
    far.  Memory taken by NTL's and Crypto++'s own objects is not counted (NTL
    aborts the process itself when it gets none). *)
From Verif Require Import Base NtlMiss PRFModel.

Section PrfAlloc.
Variable ok : nat -> bool.
Variable sha : list Z -> list Z.
Variable rand : nat -> Z.
Variable p : Z.

(** the pattern [try { x = new ...; } catch (std::bad_alloc&) { ...; exit(2); }] *)
Definition request (t : nat) : res nat := if ok t then Ok (S t) else Exit 2.

(** sha.hpp:42-72 called from 75-79: the transformation and [lastHash] *)
Definition new_sha_a (t : nat) : res nat := do t <- request t; request t.

(** zzprf.cpp:13-18: the base class holds one SHAByteArray (prf.hpp:24) *)
Definition new_prf_a (t : nat) (pos : nat) : res (prf * nat) :=
  do t <- new_sha_a t; Ok (new_prf pos, t).

(** zzpprf.cpp:16-21: the base class's own SHAByteArray, then the embedded ZZPRF *)
Definition new_zpprf_a (t : nat) (modulo : Z) (pos : nat) : res (zpprf * nat) :=
  do t <- new_sha_a t;
  do (g, t) <- new_prf_a t pos;
  Ok ({| zp_modulo := modulo; zp_prf := g; zp_autoIndex := 0; zp_autoSeed := None |}, t).

(** eopsiclient.cpp:41-46: the generator of a client *)
Definition client_prf_a (t : nat) (fieldsize : Z) (pos : nat) : res (zpprf * nat) :=
  do t <- request t; new_zpprf_a t fieldsize pos.

(** zzprf.cpp:46-114 *)
Definition generate_a (fuel : nat) (st : prf) (t : nat) (seed index bits : Z) : res (prf * Z * nat) :=
  do (n, pos) <- (if bits =? 0 then
                    do (rnd, pos) <- rand_nonzero rand fuel (p_pos st);
                    do n <- bytes_of_bits rnd; Ok (n, pos)
                  else do n <- bytes_of_bits bits; Ok (n, p_pos st));
  let len := bytes_of_zz seed + 8 in
  (* lines 61-72 *)
  do (gen, genLength, t) <- (if p_genLength st <? n
                             then do t <- request t; Ok (repeat None (Z.to_nat n), n, t)
                             else Ok (p_gen st, p_genLength st, t));
  (* lines 73-83 *)
  do (hin, hsize, t) <- (if p_hashInputSize st <? len
                         then let hsize := if len <? hash_size then hash_size else len in
                              do t <- request t; Ok (repeat None (Z.to_nat hsize), hsize, t)
                         else Ok (p_hashInput st, p_hashInputSize st, t));
  (* lines 85-86 *)
  do hin <- write_at hin 0 (le_bytes (Z.to_nat (bytes_of_zz seed)) (Z.abs seed));
  do hin <- write_at hin (bytes_of_zz seed) (le_bytes 8 index);
  (* lines 88-102 *)
  do input <- read_prefix hin len;
  do gen <- fill sha (S (Z.to_nat n)) gen n n input;
  (* lines 104-108 *)
  let rbits := w64 (n * 8 - bits) in
  do b <- read_cell gen (n - 1);
  do b <- cut_bits b rbits;
  do gen <- zset gen (n - 1) (Some b);
  (* line 111 *)
  do bs <- read_prefix gen n;
  Ok ({| p_gen := gen; p_genLength := genLength; p_hashInput := hin; p_hashInputSize := hsize;
         p_autoIndex := p_autoIndex st; p_autoSeed := p_autoSeed st; p_pos := pos |}, le_val bs, t).

(** prf.hpp:72-79 and zzprf.cpp:117-119 *)
Definition generate_auto_a (fuel : nat) (st : prf) (t : nat) (index bits : Z) : res (prf * Z * nat) :=
  match p_autoSeed st with
  | Some s => generate_a fuel st t s index bits
  | None =>
      let '(st1, s) := randomSeed rand st in
      generate_a fuel {| p_gen := p_gen st1; p_genLength := p_genLength st1;
                         p_hashInput := p_hashInput st1; p_hashInputSize := p_hashInputSize st1;
                         p_autoIndex := p_autoIndex st1; p_autoSeed := Some s; p_pos := p_pos st1 |}
                 t s index bits
  end.
(** prf.hpp:85-87 *)
Definition generate_next_a (fuel : nat) (st : prf) (t : nat) : res (prf * Z * nat) :=
  generate_auto_a fuel
    {| p_gen := p_gen st; p_genLength := p_genLength st; p_hashInput := p_hashInput st;
       p_hashInputSize := p_hashInputSize st; p_autoIndex := w64 (p_autoIndex st + 1);
       p_autoSeed := p_autoSeed st; p_pos := p_pos st |}
    t (p_autoIndex st) 0.

(** a call of the public interface, and a history of calls: the values
    returned before the history ended, and how it ended *)
Definition exec_a (fuel : nat) (st : prf) (t : nat) (c : call) : res (prf * Z * nat) :=
  match c with
  | Seeded s i b => generate_a fuel st t s i b
  | Auto i b => generate_auto_a fuel st t i b
  | Next => generate_next_a fuel st t
  end.
Fixpoint run_a (fuel : nat) (st : prf) (t : nat) (l : list call) : list Z * res (prf * nat) :=
  match l with
  | [] => ([], Ok (st, t))
  | c :: r =>
      match exec_a fuel st t c with
      | Ok (st1, v, t1) => let '(vs, e) := run_a fuel st1 t1 r in (v :: vs, e)
      | Exit k => ([], Exit k)
      | UB w => ([], UB w)
      | Abort => ([], Abort)
      | NoFuel => ([], NoFuel)
      end
  end.

(** zzpprf.cpp:52-66 *)
Definition zp_generate_a (fuel : nat) (st : zpprf) (t : nat) (seed index bits : Z) : res (zpprf * Z * nat) :=
  do (st1, g, t) <- generate_a fuel (zp_prf st) t seed index (gen_bits (zp_modulo st) bits);
  Ok ({| zp_modulo := zp_modulo st; zp_prf := st1; zp_autoIndex := zp_autoIndex st; zp_autoSeed := zp_autoSeed st |},
      g mod p, t).
(** a history of seeded calls on a ZZpPRF object *)
Fixpoint run_zp_a (fuel : nat) (st : zpprf) (t : nat) (l : list (Z * Z * Z)) : list Z * res (zpprf * nat) :=
  match l with
  | [] => ([], Ok (st, t))
  | (s, i, b) :: r =>
      match zp_generate_a fuel st t s i b with
      | Ok (st1, v, t1) => let '(vs, e) := run_zp_a fuel st1 t1 r in (v :: vs, e)
      | Exit k => ([], Exit k)
      | UB w => ([], UB w)
      | Abort => ([], Abort)
      | NoFuel => ([], NoFuel)
      end
  end.
End PrfAlloc.
