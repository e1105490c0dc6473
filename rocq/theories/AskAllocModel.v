(** One intersection when memory runs out: what the helper, the cloud and the
    requester do after the data are stored (src/libeopsi/eopsiclient.cpp,
    eopsiserver.cpp, eopsiparty.cpp, zzppoly.cpp), over AllocModel.

    All the arrays are requested inside try blocks that end with exit(2).

    Simplifications: as in AllocModel (numbers, polynomials and vectors of NTL
    and GMP, the rows that SetLength makes among them); the requests of the
    generators are in PrfAllocModel; messages and directories in WorldModel;
    strings, streams and the map storedData are left out. *)
From Verif Require Import Base StrIntModel HashBucketsModel PRFModel PolyModel EopsiModel AllocModel.

(** what one request needs: the helper (its generator, secret), the requester
    (its secret as the helper reads it, the width of its data), the temporary
    key, the stored data of both, and the number of factoring calls so far *)
Record request := mkRequest {
  rq_helper : core; rq_zp : zpprf; rq_secretA : Z; rq_requester : core; rq_secretB : Z; rq_bits : Z;
  rq_key : Z; rq_dataA : list (list Z); rq_dataB : list (list Z); rq_facts : nat }.

Section E.
Variable sha : list Z -> list Z.
Variable rand : nat -> Z.
Variable fuel : nat.
Variable p : Z.
Variables canzass berlekamp : nat -> list Z -> list (list Z * Z).
Variable ok : nat -> bool.
#[local] Notation res_of r f := (@run_res _ _ unit r f).

Definition freed (m : mem) (n : Z) : mem := mkMem (m_tries m) (m_live m - n).

(** eopsiparty.cpp:98-134: the array tq, which the caller gets *)
Definition a_computeTOrQ (m : mem) (c : core) (key : Z) (A B : entries) : out (core * list (list Z)) unit :=
  guarded ok m (fun m1 => res_of (computeTOrQ sha rand fuel p c key A B) (fun r => Done m1 r)).

(** eopsiclient.cpp:471-482 *)
Definition delegation_masks (c : core) (secret secretOther : Z) (zp : zpprf) : res (zpprf * list (list Z) * list (list Z)) :=
  do (zp1, _, dA, dB) <- for_up (co_length c) 0 (fun _ '(zp, index, dA, dB) =>
      do (zp', index', ra, rb) <- for_up (co_degree c) 0 (fun _ '(zp, index, ra, rb) =>
          do (zp1, a) <- zp_generate sha rand p fuel zp (secret mod p) index (co_fbits c);
          do (zp2, b) <- zp_generate sha rand p fuel zp1 (secretOther mod p) index (co_fbits c);
          Ok (zp2, w64 (index + 1), ra ++ [a], rb ++ [b])) (zp, index, [], []);
      Ok (zp', index', dA ++ [ra], dB ++ [rb])) (zp, 0, [], []);
  Ok (zp1, dA, dB).
(** eopsiclient.cpp:452-489: the arrays dataA and dataB (459-460) are released
    at the end (485-486) *)
Definition a_delegationOutput (m : mem) (c : core) (zp : zpprf) (secret secretOther key : Z) : out (core * zpprf * list (list Z)) unit :=
  guarded ok m (fun m1 => guarded ok m1 (fun m2 =>
  res_of (delegation_masks c secret secretOther zp) (fun '(zp1, dA, dB) =>
  match a_computeTOrQ m2 c key (entry dA) (entry dB) with
  | Done m3 (c1, q) => Done (freed m3 2) (c1, zp1, q)
  | Thrown m3 x e => Thrown m3 x e
  | Stop r => Stop r
  end))).

(** zzppoly.cpp:163-242 on the object that intersect() has just made: two
    arrays (195-196), unless [n] is the 0 the constructor has set *)
Definition a_findIntersection (m : mem) (k0 : nat) (pad : Z) (us : list Z) (diff : list (list Z)) (n : nat) : out (list Z) unit :=
  let go m1 := res_of (findIntersection p canzass berlekamp k0 (new_polys pad) us diff n PFA_CANZASS) (fun '(_, vs) => Done m1 vs) in
  if Nat.eqb n 0 then go m else guarded ok m (fun m1 => guarded ok m1 go).
(** zzppoly.cpp:25-33, the destructor of that object *)
Definition destroy_polys (m : mem) (n : nat) : mem := freed m (if Nat.eqb n 0 then 0 else 2).

(** eopsiclient.cpp:492-570: the array diff (504) is released at the end (568) *)
Definition a_intersect (m : mem) (c : core) (bits : option Z) (t q : option entries) (k0 : nat) : out (option (core * list Z)) unit :=
  res_of (padSize (co_fbits c) bits) (fun pad =>
  match q, t with
  | Some q, Some t =>
      guarded ok m (fun m1 =>
      res_of (mapM (fun j => mapM (fun i => do a <- t j i; do b <- q j i; Ok ((a - b) mod p)) (seq 0 (co_degree c)))
                   (seq 0 (co_length c))) (fun diff =>
      res_of (getUnknowns sha rand fuel p c 0) (fun '(c1, us) =>
      match a_findIntersection m1 k0 pad us diff (co_length c) with
      | Done m2 vs => Done (freed (destroy_polys m2 (co_length c)) 1) (Some (c1, vs))
      | Thrown m2 x e => Thrown m2 x e
      | Stop r => Stop r
      end)))
  | _, _ => Done m None
  end).

(** The messages of one intersection, in the order in which they are handled
    (WorldModel): the helper's receive (eopsiclient.cpp:110-125: tmpKeyBytes
    and data, the first released at once), the cloud's (eopsiserver.cpp:59-71:
    t, sent to the requester, which has no q yet; then data is released), the
    helper again (164-173: q), the requester (192-199: intersect, then t and q
    are released).  Returns the cloud, the helper with its generator, and what
    the requester's intersect() did. *)
Definition a_request (m : mem) (cS : core) (r : request) : out (core * core * zpprf * option (core * list Z)) unit :=
  guarded ok m (fun m1 => guarded ok m1 (fun m2 =>
  match a_computeTOrQ (freed m2 1) cS (rq_key r) (entry (rq_dataA r)) (entry (rq_dataB r)) with
  | Thrown m3 x e => Thrown m3 x e
  | Stop s => Stop s
  | Done m3 (cS1, t) =>
  match a_intersect m3 (rq_requester r) (Some (rq_bits r)) (Some (entry t)) None (rq_facts r) with
  | Thrown m4 x e => Thrown m4 x e
  | Stop s => Stop s
  | Done m4 _ =>
  match a_delegationOutput (freed m4 1) (rq_helper r) (rq_zp r) (rq_secretA r) (rq_secretB r) (rq_key r) with
  | Thrown m5 x e => Thrown m5 x e
  | Stop s => Stop s
  | Done m5 (cA1, zA1, q) =>
  match a_intersect m5 (rq_requester r) (Some (rq_bits r)) (Some (entry t)) (Some (entry q)) (rq_facts r) with
  | Thrown m6 x e => Thrown m6 x e
  | Stop s => Stop s
  | Done m6 y => Done (match y with Some _ => freed m6 2 | None => m6 end) (cS1, cA1, zA1, y)
  end end end end)).

(** one cloud, any number of requests one after the other *)
Fixpoint a_requests (m : mem) (cS : core) (l : list request) : out (core * list (option (list Z))) unit :=
  match l with
  | [] => Done m (cS, [])
  | r :: l1 =>
      match a_request m cS r with
      | Thrown m1 x e => Thrown m1 x e
      | Stop s => Stop s
      | Done m1 (cS1, _, _, y) =>
          match a_requests m1 cS1 l1 with
          | Done m2 (cS2, ys) => Done m2 (cS2, option_map snd y :: ys)
          | Thrown m2 x e => Thrown m2 x e
          | Stop s => Stop s
          end
      end
  end.
End E.
