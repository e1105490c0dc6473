(** Model of src/libeopsi/sha.hpp, shastr.cpp, shazzp.cpp, shabyte.cpp,
    hashalgorithm.hpp (readableDigest), and of the storage of the generators
    that own such objects (prf.hpp, zzprf.cpp, zzpprf.cpp). *)
From Verif Require Import Base NtlMiss MurmurModel.

(** The heap: arrays of bytes ([None]: not yet written), Crypto++ hash
    objects, and blocks already deleted. *)
Inductive kind := KSha1 | KSha256.
Inductive block := Arr (cells : list (option Z)) | Hasher (k : kind) | Gone.
Definition heap := list block.
(** a pointer: [None] is nullptr *)
Definition ptr := option nat.

(** [new] (assumed to succeed) *)
Definition alloc (h : heap) (b : block) : heap * ptr := (h ++ [b], Some (length h)).
(** [delete]/[delete []]: no effect on nullptr, undefined for a block that was
    already deleted. *)
Definition free (h : heap) (p : ptr) : res heap :=
  match p with
  | None => Ok h
  | Some a => match nth_error h a with
              | Some Gone | None => UB Dangling
              | Some _ => Ok (upd h a Gone)
              end
  end.
(** reading [len] bytes through a pointer *)
Definition read_bytes (h : heap) (p : ptr) (len : nat) : res (list Z) :=
  match p with
  | None => UB NullDeref
  | Some a => match nth_error h a with
              | Some (Arr cells) =>
                  mapM (fun i => do c <- aget cells i; match c with Some b => Ok b | None => UB Uninit end) (seq 0 len)
              | Some Gone | None => UB Dangling
              | Some (Hasher _) => UB BadCast
              end
  end.
(** writing a run of bytes from the start of an array *)
Definition write_bytes (h : heap) (p : ptr) (bs : list Z) : res heap :=
  match p with
  | None => UB NullDeref
  | Some a => match nth_error h a with
              | Some (Arr cells) =>
                  if Nat.leb (length bs) (length cells)
                  then Ok (upd h a (Arr (map Some bs ++ skipn (length bs) cells)))
                  else UB OutOfBounds
              | Some Gone | None => UB Dangling
              | Some (Hasher _) => UB BadCast
              end
  end.

(** sha.hpp:24-31: members of SHA<T>; [size] is uninitialised before
    setFlavour, which the constructor calls. *)
Record sha_obj := { so_flavour : Z; so_size : Z; so_last : ptr; so_sha : ptr }.

(** hashflavour.h:19-23 *)
Definition SHA1_FLAVOUR : Z := 0.
Definition SHA256_FLAVOUR : Z := 256.
Definition MURMURHASH3_128_FLAVOUR : Z := 128.

(** sha.hpp:39-73: setFlavour; the new digest object and its DIGESTSIZE (20
    for SHA1, 32 for SHA256), a fresh lastHash array. *)
Definition setFlavour (h : heap) (o : sha_obj) (flavour : Z) : res (heap * sha_obj) :=
  do h1 <- free h (so_sha o);
  do h2 <- free h1 (so_last o);
  let '(k, size) := if flavour =? SHA256_FLAVOUR then (KSha256, 32) else (KSha1, 20) in
  let '(h3, s) := alloc h2 (Hasher k) in
  let '(h4, l) := alloc h3 (Arr (repeat None (Z.to_nat size))) in
  Ok (h4, {| so_flavour := flavour; so_size := size; so_last := l; so_sha := s |}).
(** sha.hpp:76-80 *)
Definition new_sha (h : heap) (flavour : Z) : res (heap * sha_obj) :=
  setFlavour h {| so_flavour := flavour; so_size := 0; so_last := None; so_sha := None |} flavour.
(** sha.hpp:82-91 *)
Definition destroy_sha (h : heap) (o : sha_obj) : res heap :=
  do h1 <- free h (so_sha o); free h1 (so_last o).
(** sha.hpp:98-100 *)
Definition hashSize (o : sha_obj) : Z := so_size o.

Section Digest.
(** Crypto++'s two digest functions *)
Variable dig : kind -> list Z -> list Z.

(** CryptoPP::HashTransformation::CalculateDigest(digest, input, length):
    absorbs the whole input, then writes DIGESTSIZE bytes; input and digest
    may overlap. *)
Definition calculateDigest (h : heap) (o : sha_obj) (input : list Z) : res heap :=
  match so_sha o with
  | None => UB NullDeref
  | Some a => match nth_error h a with
              | Some (Hasher k) => write_bytes h (so_last o) (dig k input)
              | Some Gone | None => UB Dangling
              | Some (Arr _) => UB BadCast
              end
  end.

(** shastr.cpp:18-22; a string is the list of its characters *)
Definition hash_string (h : heap) (o : sha_obj) (str : list Z) (len : nat) : res (heap * ptr) :=
  let truncLen := if Nat.ltb 0 len && Nat.ltb len (length str) then len else length str in
  do h1 <- calculateDigest h o (firstn truncLen str);
  Ok (h1, so_last o).

(** shazzp.cpp:20-29: the decimal text of the representative *)
Definition hash_zzp (h : heap) (o : sha_obj) (n : Z) (len : nat) : res (heap * ptr) :=
  let zzString := dec_text n in
  let truncLen := if Nat.ltb 0 len && Nat.ltb len (length zzString) then len else length zzString in
  do h1 <- calculateDigest h o (firstn truncLen zzString);
  Ok (h1, so_last o).

(** shabyte.cpp:18-25 *)
Definition hash_bytes (h : heap) (o : sha_obj) (str : ptr) (len : nat) : res (heap * ptr) :=
  match str with
  | None => Ok (h, None)
  | Some _ =>
      if Nat.eqb len 0 then Ok (h, None)
      else do input <- read_bytes h str len;
           do h1 <- calculateDigest h o input;
           Ok (h1, so_last o)
  end.
End Digest.

(** sha.hpp:102-104: ["SHA" + this->flavour] adds an integer to a pointer into
    the 4 characters of the literal (3 letters and the terminator); the result
    is then read as a C string. *)
Definition sha_name (o : sha_obj) : res (list Z) :=
  let lit := [83; 72; 65] in
  if (so_flavour o <? 0) || (3 <? so_flavour o) then UB OutOfBounds
  else Ok (skipn (Z.to_nat (so_flavour o)) lit).
(** shazzp.cpp:32-36: the flavour is printed as a decimal integer *)
Definition sha_zzp_name (o : sha_obj) : list Z :=
  [83; 72; 65] ++ dec_text (so_flavour o) ++
  (* " for integers modulo p" *)
  [32; 102; 111; 114; 32; 105; 110; 116; 101; 103; 101; 114; 115; 32; 109; 111; 100; 117; 108; 111; 32; 112].

(** hashalgorithm.hpp:44-65: CryptoPP::HexEncoder with its default parameters
    (upper case, no grouping); the sink is the string itself, so nothing
    remains retrievable at line 59. *)
Definition hex_digit (d : Z) : Z := if d <? 10 then 48 + d else 55 + d.
Definition readableDigest (digest : list Z) : list Z :=
  flat_map (fun b => [hex_digit (b / 16); hex_digit (b mod 16)]) digest.

(** * Storage of the generators *)

(** Pointers owned by a ZZPRF (zzprf.h:24-28) and by its base class, which has
    its own SHAByteArray (prf.hpp:24).  [genLength], [hashInputSize] as in
    zzprf.h. *)
Record gen_obj := {
  g_base : sha_obj;
  g_hash : sha_obj;
  g_gen : ptr;
  g_genLength : Z;
  g_hashInput : ptr;
  g_hashInputSize : Z
}.
(** prf.hpp:33-36, zzprf.cpp:13-18: members are constructed first; default
    flavour SHA1 *)
Definition new_gen (h : heap) : res (heap * gen_obj) :=
  do (h1, b) <- new_sha h SHA1_FLAVOUR;
  do (h2, d) <- new_sha h1 SHA1_FLAVOUR;
  Ok (h2, {| g_base := b; g_hash := d; g_gen := None; g_genLength := 0; g_hashInput := None; g_hashInputSize := 0 |}).
(** zzprf.cpp:21-28, then the members, then the base class *)
Definition destroy_gen (h : heap) (g : gen_obj) : res heap :=
  do h1 <- free h (g_gen g);
  do h2 <- free h1 (g_hashInput g);
  do h3 <- destroy_sha h2 (g_hash g);
  destroy_sha h3 (g_base g).

Section Gen.
Variable dig : kind -> list Z -> list Z.

(** zzprf.cpp:61-86 and one round of 93-98 for [n] bytes and a hash input
    [input]: the (re)allocations, the copy of the input and the first digest.
    The further rounds use the same buffers; simplified: only the use of the
    storage is kept, the produced number is in PRFModel. *)
Definition gen_use (h : heap) (g : gen_obj) (n : Z) (input : list Z) : res (heap * gen_obj) :=
  let len := Z.of_nat (length input) in
  do (h, gp, gl) <- (if g_genLength g <? n then
                       do h1 <- free h (g_gen g);
                       let '(h2, p) := alloc h1 (Arr (repeat None (Z.to_nat n))) in Ok (h2, p, n)
                     else Ok (h, g_gen g, g_genLength g));
  do (h, hp, hl) <- (if g_hashInputSize g <? len then
                       do h1 <- free h (g_hashInput g);
                       let sz := if len <? hashSize (g_hash g) then hashSize (g_hash g) else len in
                       let '(h2, p) := alloc h1 (Arr (repeat None (Z.to_nat sz))) in Ok (h2, p, sz)
                     else Ok (h, g_hashInput g, g_hashInputSize g));
  do h <- write_bytes h hp input;
  do (h, d) <- hash_bytes dig h (g_hash g) hp (length input);
  let k := if n <? hashSize (g_hash g) then n else hashSize (g_hash g) in
  do bs <- read_bytes h d (Z.to_nat k);
  do h <- write_bytes h gp bs;
  Ok (h, {| g_base := g_base g; g_hash := g_hash g; g_gen := gp; g_genLength := gl;
            g_hashInput := hp; g_hashInputSize := hl |}).
End Gen.

(** zzpprf.cpp:16-21 with a non-null [prf]: the base class PseudoRandom is
    constructed (its SHAByteArray), the member [prf] is default constructed,
    then assigned member by member from the argument: all pointers are copied,
    the old ones dropped. *)
Record zgen_obj := { zg_base : sha_obj; zg_prf : gen_obj }.
Definition new_zgen_from (h : heap) (prf : gen_obj) : res (heap * zgen_obj) :=
  do (h1, b) <- new_sha h SHA1_FLAVOUR;
  do (h2, own) <- new_gen h1;
  Ok (h2, {| zg_base := b; zg_prf := prf |}).
(** zzpprf.cpp:16-21 with the default argument *)
Definition new_zgen (h : heap) : res (heap * zgen_obj) :=
  do (h1, b) <- new_sha h SHA1_FLAVOUR;
  do (h2, own) <- new_gen h1;
  Ok (h2, {| zg_base := b; zg_prf := own |}).
(** zzpprf.cpp:24-25, then the member, then the base class *)
Definition destroy_zgen (h : heap) (z : zgen_obj) : res heap :=
  do h1 <- destroy_gen h (zg_prf z);
  destroy_sha h1 (zg_base z).
