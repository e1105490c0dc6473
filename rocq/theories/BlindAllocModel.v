(** EOPSIClient::setRawData and blind when memory runs out
    (src/libeopsi/eopsiclient.cpp:233-242, 302-449), over AllocModel.

    The arrays of blind() are allocated inside a try block that ends with
    exit(2); the allocations of the hash table's buckets, and of the copy of a
    bucket that operator[] returns, are not, and their exceptions leave
    setRawData.

    Simplifications: as in AllocModel (numbers and vectors of NTL and GMP, the
    streams); the requests of the generators end with exit(2) and are in
    PrfAllocModel; the members of the client that these calls do not use are
    left out, and so is the number of threads, which line 335 sets to 1. *)
From Verif Require Import Base NtlMiss StrIntModel HashBucketsModel PRFModel PolyModel EopsiModel AllocModel.

Notation matrix := (list (list Z)).

(** a client; [ac_raw]: rawData with rawDataSize and rawDataBits; [ac_blinded]:
    blindedData, [None] if null *)
Record aclient := mkAclient {
  ac_core : core; ac_secret : Z; ac_raw : option (list Z * nat * Z);
  ac_table : @atable Z; ac_zp : zpprf; ac_blinded : option matrix }.
Definition ac_set_blinded (k : aclient) (b : matrix) : aclient :=
  mkAclient (ac_core k) (ac_secret k) (ac_raw k) (ac_table k) (ac_zp k) (Some b).
Definition ac_set_table (k : aclient) (t : @atable Z) (zp : zpprf) : aclient :=
  mkAclient (ac_core k) (ac_secret k) (ac_raw k) t zp (ac_blinded k).

Section E.
Variable sha : list Z -> list Z.
Variable rand : nat -> Z.
Variable fuel : nat.
Variable p : Z.
Variable ok : nat -> bool.
Variable pol : policy.

(** eopsiclient.cpp:361-365 *)
Fixpoint a_load (n i : nat) (raw : list Z) (fbits : Z) (bits : option Z) (m : mem) (t : @atable Z) : out (@atable Z) (@atable Z) :=
  match n with
  | O => Done m t
  | S n1 =>
      run_res (do z <- aget raw i; do pad <- padSize fbits bits; Ok (zeroPad z pad mod p)) (fun e =>
      match a_add ok pol m t e with
      | Done m1 t1 => a_load n1 (S i) raw fbits bits m1 t1
      | Thrown m1 x t1 => Thrown m1 x t1
      | Stop r => Stop r
      end)
  end.

(** eopsiclient.cpp:378-381 with hashtable.hpp:78-98: operator[] returns a copy
    of the bucket; an empty vector needs no storage; the copy is released at
    the end of the statement *)
Fixpoint a_copies (bs : list (mvec Z)) (m : mem) : mem + (mem * exn) :=
  match bs with
  | [] => inl m
  | b :: bs1 =>
      match mv_items b with
      | [] => a_copies bs1 m
      | _ => match vec_new ok pol m (Z.of_nat (length (mv_items b))) with
             | inl m1 => a_copies bs1 (mkMem (m_tries m1) (m_live m1 - 1))
             | inr e => inr e
             end
      end
  end.

(** eopsiclient.cpp:378-440 without the allocations *)
Definition blind_rest (c : core) (secret : Z) (h2 : hb Z) (zp1 : zpprf) : res (core * zpprf * matrix) :=
  let len := co_length c in
  do polys <- mapM (fun i => do b <- getBucket h2 i; do v <- vector2VecZZp (mv_items b); Ok (build_from_roots p v)) (seq 0 len);
  do (c1, us) <- getUnknowns sha rand fuel p c (co_degree c);
  do bl1 <- evalPolys p 1 len us polys (repeat (repeat 0 (co_degree c)) len);
  do (zp2, _, bl2) <- for_up len 0 (fun j '(zp, index, bl) =>
      do row <- aget bl1 j;
      do (zp', index', row') <- blind_row sha rand fuel p (co_fbits c) (secret mod p) (co_degree c) row (zp, index);
      Ok (zp', index', bl ++ [row'])) (zp1, 0, []);
  Ok (c1, zp2, bl2).

(** eopsiclient.cpp:302-449.  The pointer blindedData is overwritten (the
    array it pointed to is not released); polynomials, threads and cumulSplit
    are released at the end only. *)
Definition a_blind (m : mem) (k : aclient) (raw : list Z) (n : nat) (bits : option Z) : out aclient aclient :=
  let c := ac_core k in
  (* 342-350 *)
  guarded ok m (fun m1 => guarded ok m1 (fun m2 => guarded ok m2 (fun m3 => guarded ok m3 (fun m4 =>
  (* 352-355 *)
  let k1 := ac_set_blinded k (repeat (repeat 0 (co_degree c)) (co_length c)) in
  (* 361-365 *)
  match a_load n 0 raw (co_fbits c) bits m4 (ac_table k) with
  | Stop r => Stop r
  | Thrown m5 x t1 => Thrown m5 x (ac_set_table k1 t1 (ac_zp k))
  | Done m5 t1 =>
  (* 372 *)
  match a_conceal ok pol (conceal_gen sha rand fuel p) m5 t1 (Ok (ac_zp k)) with
  | Stop r => Stop r
  | Thrown m6 x (t2, g) => run_res g (fun zp => Thrown m6 x (ac_set_table k1 t2 zp))
  | Done m6 (t2, g) =>
  run_res g (fun zp1 =>
  match a_copies (firstn (co_length c) (hb_buckets (at_hb t2))) m6 with
  | inr (m7, x) => Thrown m7 x (ac_set_table k1 t2 zp1)
  | inl m7 =>
  run_res (blind_rest c (ac_secret k) (at_hb t2) zp1) (fun '(c1, zp2, bl) =>
  Done (mkMem (m_tries m7) (m_live m7 - 3)) (mkAclient c1 (ac_secret k) (ac_raw k) t2 zp2 (Some bl)))
  end)
  end
  end)))).

(** eopsiclient.cpp:233-242; [raw]: [None] for a null pointer *)
Definition a_setRawData (m : mem) (k : aclient) (raw : option (list Z)) (n : nat) (bits : Z) : out aclient aclient :=
  match raw with
  | None => Done m k
  | Some l =>
      if Nat.eqb n 0 then Done m k
      else a_blind m (mkAclient (ac_core k) (ac_secret k) (Some (l, n, bits)) (ac_table k) (ac_zp k) (ac_blinded k)) l n (Some bits)
  end.

(** a caller that catches what setRawData throws and goes on *)
Fixpoint a_calls (m : mem) (k : aclient) (l : list (option (list Z) * nat * Z)) : (mem * aclient + res unit) * list (option exn) :=
  match l with
  | [] => (inl (m, k), [])
  | (raw, n, bits) :: l1 =>
      match a_setRawData m k raw n bits with
      | Done m1 k1 => let '(r, log) := a_calls m1 k1 l1 in (r, None :: log)
      | Thrown m1 x k1 => let '(r, log) := a_calls m1 k1 l1 in (r, Some x :: log)
      | Stop r => (inr r, [])
      end
  end.
End E.
