(** Model of the computations of src/libeopsi/eopsiparty.cpp, eopsiclient.cpp
    and eopsiserver.cpp (one party at a time; messages are in WorldModel).
    Printing, benchmarking and failing allocations are left out. *)
From Verif Require Import Base NtlMiss StrIntModel HashBucketsModel PRFModel PolyModel.

(** eopsiparty.h:28-31 *)
Inductive ptype := TClient | TServer.

(** The data members of EOPSIParty the computations use (eopsiparty.h:39-50).
    [length], [height] and [degree] are size_t. *)
Record core := mkCore {
  co_fieldsize : Z;
  co_fbits : Z;
  co_prf : prf;
  co_unknowns : list Z;
  co_degree : nat;
  co_length : nat;
  co_height : nat
}.
Definition set_unknowns (c : core) (us : list Z) (st : prf) : core :=
  mkCore (co_fieldsize c) (co_fbits c) st us (co_degree c) (co_length c) (co_height c).
Definition set_prf (c : core) (st : prf) : core := set_unknowns c (co_unknowns c) st.

(** eopsiparty.cpp:12-20 with the zzprf member's constructor *)
Definition new_core (fieldsize : Z) (length height degree : nat) (pos : nat) : core :=
  mkCore fieldsize (num_bits fieldsize) (new_prf pos) [] degree length height.
(** eopsiparty.cpp:147-150 and 158-160 *)
Definition setFieldsize (c : core) (fieldsize : Z) : core :=
  mkCore fieldsize (num_bits fieldsize) (co_prf c) (co_unknowns c) (co_degree c) (co_length c) (co_height c).
Definition setDegree (c : core) (degree : nat) : core :=
  mkCore (co_fieldsize c) (co_fbits c) (co_prf c) (co_unknowns c) degree (co_length c) (co_height c).

(** A matrix is an array of vectors; [entries] is how a function that got a
    [vec_ZZ_p*] reads it. *)
Notation matrix := (list (list Z)).
Notation entries := (nat -> nat -> res Z).
Definition entry (m : matrix) : entries := fun j i => do row <- aget m j; aget row i.

Section E.
Variable sha : list Z -> list Z.
Variable rand : nat -> Z.
Variable fuel : nat.
(** the global modulus of ZZ_p *)
Variable p : Z.
Variables canzass berlekamp : nat -> poly -> list (poly * Z).
(** std::thread::hardware_concurrency() *)
Variable hw : nat.

(** eopsiparty.cpp:37-60.  The vector is written from index 0 on: it is
    modelled by appending. *)
Definition generateUnknowns (c : core) (n : nat) : res core :=
  let len := num_bits (co_fieldsize c) in
  do (st, us) <- for_up n 0 (fun j '(st, us) =>
      do (st1, g) <- generate sha rand fuel st 4 (Z.of_nat j) len;
      Ok (st1, us ++ [g mod p])) (co_prf c, []);
  Ok (set_unknowns c us st).
(** eopsiparty.cpp:63-73 *)
Definition getUnknowns (c : core) (n : nat) : res (core * list Z) :=
  do c1 <- (if Nat.eqb (length (co_unknowns c)) 0 && Nat.ltb 0 n then generateUnknowns c n else Ok c);
  Ok (c1, co_unknowns c1).

(** eopsiparty.cpp:76-95; [omega] is the previous value of the polynomial *)
Definition genOmega (fbits : Z) (st : prf) (omega : poly) (degree : nat) (seed index : Z) : res (prf * poly) :=
  let omega0 := set_coeff omega degree (1 mod p) in
  for_up degree 0 (fun i '(st, om) =>
      do (st1, g) <- generate sha rand fuel st seed (w64 (index + Z.of_nat i)) fbits;
      Ok (st1, set_coeff om i (g mod p))) (st, omega0).

(** eopsiparty.cpp:125-130, one cell; the row is written from index 0 on *)
Definition tq_cell (fbits key : Z) (A B : entries) (us : list Z) (omA omB : poly) (j i : nat)
    (s : prf * Z * list Z) : res (prf * Z * list Z) :=
  let '(st, aIdx, row) := s in
  do (st1, g) <- generate sha rand fuel st key aIdx fbits;
  do a <- A j i; do u <- aget us i; do b <- B j i;
  Ok (st1, w64 (aIdx + 1), row ++ [(g mod p + a * peval p omA u + b * peval p omB u) mod p]).
(** eopsiparty.cpp:120-131, one row *)
Definition tq_row (c : core) (key : Z) (A B : entries) (us : list Z) (omegaAIdx omegaBIdx : Z) (j : nat)
    (s : prf * poly * poly * Z * matrix) : res (prf * poly * poly * Z * matrix) :=
  let '(st, omA, omB, aIdx, tq) := s in
  let h := Z.of_nat (co_height c) in
  do (st1, omA1) <- genOmega (co_fbits c) st omA (co_height c) key (w64 (omegaAIdx + h * Z.of_nat j));
  do (st2, omB1) <- genOmega (co_fbits c) st1 omB (co_height c) key (w64 (omegaBIdx + h * Z.of_nat j));
  do (st3, aIdx1, row) <- for_up (co_degree c) 0 (tq_cell (co_fbits c) key A B us omA1 omB1 j) (st2, aIdx, []);
  Ok (st3, omA1, omB1, aIdx1, tq ++ [row]).
(** eopsiparty.cpp:98-134 *)
Definition computeTOrQ (c : core) (key : Z) (A B : entries) : res (core * matrix) :=
  do (c1, us) <- getUnknowns c (co_degree c);
  let ld := w64 (Z.of_nat (co_length c) * Z.of_nat (co_degree c)) in
  do (st, _, _, _, tq) <- for_up (co_length c) 0 (tq_row c1 key A B us ld (w64 (ld + ld)))
      (co_prf c1, [], [], 0, []);
  Ok (set_prf c1 st, tq).

(** eopsiclient.cpp:297-299; [None]: never initialised *)
Definition padSize (fbits : Z) (rawDataBits : option Z) : res Z :=
  match rawDataBits with
  | None => UB Uninit
  | Some b => Ok (w64 (fbits - b - 1))
  end.

(** eopsiclient.cpp:24-29 *)
Definition polEval (us : list Z) (polys : list poly) (from to : nat) (bl : matrix) : res matrix :=
  for_up (to - from) from (fun j bl => do f <- aget polys j; aset bl j (peval_vec p f us)) bl.
(** eopsiclient.cpp:394-427 (each thread is joined before the next starts) *)
Definition evalPolys (nThreads len : nat) (us : list Z) (polys : list poly) (bl : matrix) : res matrix :=
  if Nat.ltb 1 nThreads then
    let nSplit := ((len + 1) / nThreads)%nat in
    let cumul i := if Nat.eqb i nThreads then Nat.min (nThreads * nSplit) len else (i * nSplit)%nat in
    do bl1 <- for_up (nThreads - 1) 0 (fun i bl => polEval us polys (cumul i) (cumul (S i)) bl) bl;
    polEval us polys (cumul (nThreads - 1)%nat) (cumul nThreads) bl1
  else polEval us polys 0 len bl.

(** HashBuckets::conceal with the object zzpprf points to: the generator may
    fail *)
Definition conceal_gen (g : res zpprf) : Z * res zpprf :=
  match (do st <- g; zp_generate_next sha rand p fuel st) with
  | Ok (st, v) => (v, Ok st)
  | Exit c => (0, Exit c) | UB w => (0, UB w) | Abort => (0, Abort) | NoFuel => (0, NoFuel)
  end.

(** eopsiclient.cpp:433-440; one row *)
Definition blind_row (fbits seed : Z) (deg : nat) (row : list Z) (s : zpprf * Z) : res (zpprf * Z * list Z) :=
  for_up deg 0 (fun i '(zp, index, row) =>
      do v <- aget row i;
      do (zp1, g) <- zp_generate sha rand p fuel zp seed index fbits;
      do row1 <- aset row i ((v + g) mod p);
      Ok (zp1, w64 (index + 1), row1)) (fst s, snd s, row).

(** eopsiclient.cpp:302-449.  [raw] and [n]: rawData, rawDataSize; [h]: the
    client's hash table (tables shared by several clients:
    PoolModel).  Returns the party, the table, the generator and the blinded
    data. *)
Definition blind (c : core) (secret : Z) (raw : list Z) (n : nat) (bits : option Z) (h : hb Z) (zp : zpprf)
    (nThreads : nat) : res (core * hb Z * zpprf * matrix) :=
  let nThreads := if Nat.eqb nThreads 0 then (if Nat.ltb 0 hw then hw else 1)%nat else nThreads in
  (* line 335 *)
  let nThreads := 1%nat in
  let len := co_length c in
  let bl0 := repeat (repeat 0 (co_degree c)) len in
  (* 361-365 *)
  do h1 <- for_up n 0 (fun i h =>
      do z <- aget raw i; do pad <- padSize (co_fbits c) bits; hb_add h (zeroPad z pad mod p)) h;
  (* 372 *)
  do (h2, g) <- conceal conceal_gen h1 (Ok zp);
  do zp1 <- g;
  (* 378-381 *)
  do polys <- mapM (fun i => do b <- getBucket h2 i; do v <- vector2VecZZp (mv_items b); Ok (build_from_roots p v)) (seq 0 len);
  (* 388 *)
  do (c1, us) <- getUnknowns c (co_degree c);
  do bl1 <- evalPolys nThreads len us polys bl0;
  (* 434-440 *)
  do (zp2, _, bl2) <- for_up len 0 (fun j '(zp, index, bl) =>
      do row <- aget bl1 j;
      do (zp', index', row') <- blind_row (co_fbits c) (secret mod p) (co_degree c) row (zp, index);
      Ok (zp', index', bl ++ [row'])) (zp1, 0, []);
  Ok (c1, h2, zp2, bl2).

(** eopsiclient.cpp:452-489 *)
Definition delegationOutput (c : core) (zp : zpprf) (secret secretOther key : Z) : res (core * zpprf * matrix) :=
  do (zp1, _, dA, dB) <- for_up (co_length c) 0 (fun _ '(zp, index, dA, dB) =>
      do (zp', index', ra, rb) <- for_up (co_degree c) 0 (fun _ '(zp, index, ra, rb) =>
          do (zp1, a) <- zp_generate sha rand p fuel zp (secret mod p) index (co_fbits c);
          do (zp2, b) <- zp_generate sha rand p fuel zp1 (secretOther mod p) index (co_fbits c);
          Ok (zp2, w64 (index + 1), ra ++ [a], rb ++ [b])) (zp, index, [], []);
      Ok (zp', index', dA ++ [ra], dB ++ [rb])) (zp, 0, [], []);
  do (c1, q) <- computeTOrQ c key (entry dA) (entry dB);
  Ok (c1, zp1, q).

(** eopsiclient.cpp:492-570 (without the statistics); [t], [q]: how the two
    matrices are read, [None] for null pointers; [k0] numbers the factoring
    calls.  [Ok None]: returned false. *)
Definition intersect (c : core) (bits : option Z) (t q : option entries) (k0 : nat) : res (option (core * list Z)) :=
  do pad <- padSize (co_fbits c) bits;
  match q, t with
  | Some q, Some t =>
      do diff <- mapM (fun j => mapM (fun i => do a <- t j i; do b <- q j i; Ok ((a - b) mod p)) (seq 0 (co_degree c)))
                   (seq 0 (co_length c));
      do (c1, us) <- getUnknowns c 0;
      do (_, vs) <- findIntersection p canzass berlekamp k0 (new_polys pad) us diff (co_length c) PFA_CANZASS;
      Ok (Some (c1, vs))
  | _, _ => Ok None
  end.

(** One run of the protocol as the calls the objects make, in the order of
    test/eopsisimul.cpp:347-450 (helper A, requester B, server S; each object
    freshly constructed; the messages carry the arguments unchanged).  The
    message level is in WorldModel.v.  [posA], [posB]: where each client's
    generator starts in the rand() sequence. *)
Record run_result := mkRun {
  rr_tableA : hb Z; rr_tableB : hb Z; rr_blindA : matrix; rr_blindB : matrix;
  rr_t : matrix; rr_q : matrix; rr_requester : core
}.
(** up to the arrival of t and q at the requester *)
Definition exchange (length height degree : nat) (al : halgo Z) (bits : Z) (rawA rawB : list Z) (secretA secretB key : Z)
    (nThreads posA posB : nat) : res run_result :=
  let c0 := new_core p length height degree 0 in
  do hA0 <- new_hb length height (Some al);
  do hB0 <- new_hb length height (Some al);
  do (cA, hA, zA, mA) <- blind c0 secretA rawA (List.length rawA) (Some bits) hA0 (new_zpprf p posA) nThreads;
  do (cB, hB, zB, mB) <- blind c0 secretB rawB (List.length rawB) (Some bits) hB0 (new_zpprf p posB) nThreads;
  do (cS, t) <- computeTOrQ c0 key (entry mA) (entry mB);
  do (cA1, zA1, q) <- delegationOutput cA zA secretA secretB key;
  Ok (mkRun hA hB mA mB t q cB).
(** ... and its intersect(): the value of getIntersection() *)
Definition session (length height degree : nat) (al : halgo Z) (bits : Z) (rawA rawB : list Z) (secretA secretB key : Z)
    (nThreads posA posB k0 : nat) : res (run_result * option (list Z)) :=
  do r <- exchange length height degree al bits rawA rawB secretA secretB key nThreads posA posB;
  do x <- intersect (rr_requester r) (Some bits) (Some (entry (rr_t r))) (Some (entry (rr_q r))) k0;
  Ok (r, match x with Some (_, vs) => Some vs | None => None end).
End E.
