(** Model of the message layer: src/libeopsi/eopsimsg.cpp, the messaging parts
    of eopsiparty.cpp, eopsiclient.cpp and eopsiserver.cpp, and the protocol
    run of src/test/eopsisimul.cpp.

    A world holds every object of the program: parties, messages, the arrays
    the objects point to.  References and pointers to parties and messages are
    indices; an index outside the list stands for a pointer to no object.
    Destructors are in LifeModel.v.  Printing and the benchmark members are left
    out (they do not influence anything else); allocations succeed. *)
From Verif Require Import Base NtlMiss StrIntModel HashBucketsModel PRFModel PolyModel EopsiModel.

(** std::string: its characters as values 0..255 *)
Notation str := (list Z) (only parsing).
(** std::string::compare (characters compare as unsigned char) *)
Fixpoint str_cmp (a b : str) : comparison :=
  match a, b with
  | [], [] => Eq
  | [], _ => Lt
  | _, [] => Gt
  | x :: s, y :: t => match x ?= y with Eq => str_cmp s t | c => c end
  end.
Definition str_eqb (a b : str) : bool := match str_cmp a b with Eq => true | _ => false end.

(** std::map<std::string, V>: the entries in iteration order *)
Fixpoint map_find {V} (m : list (str * V)) (k : str) : option V :=
  match m with [] => None | (k', v) :: t => if str_eqb k k' then Some v else map_find t k end.
Fixpoint map_put {V} (m : list (str * V)) (k : str) (v : V) : list (str * V) :=
  match m with
  | [] => [(k, v)]
  | (k', v') :: t => match str_cmp k k' with Eq => (k', v) :: t | Lt => (k, v) :: m | Gt => (k', v') :: map_put t k v end
  end.

(** Arrays created by new[]; [Freed] after delete[]. *)
Inductive block := BBytes (cells : list cell) | BMat (m : matrix) | Freed.
(** A pointer to such an array; [None] is the null pointer. *)
Notation addr := nat (only parsing).
Notation ptr := (option addr) (only parsing).

(** eopsimsg.h:18-25 *)
Inductive mtype := MOutsourcing | MClientRequest | MCloudRequest | MOutput | MPolynomial | MUnknown.
(** eopsimsg.h:31-36 *)
Record message := mkMsg { m_party : str; m_type : mtype; m_data : ptr; m_len : Z }.
(** eopsimsg.cpp:40-47 *)
Definition m_setData (m : message) (d : ptr) (len : Z) : message :=
  mkMsg (m_party m) (m_type m) d (match d with None => 8 | Some _ => len end).
(** eopsimsg.cpp:20-22, 30-32 *)
Definition m_setPartyId (m : message) (id : str) : message := mkMsg id (m_type m) (m_data m) (m_len m).
Definition m_setType (m : message) (t : mtype) : message := mkMsg (m_party m) t (m_data m) (m_len m).
(** eopsimsg.cpp:10-13 with the default arguments of eopsimsg.h:39 *)
Definition new_message : message := mkMsg [] MUnknown None 8.

(** eopsiclient.h:24-33; [cl_toCloud], [cl_toClient]: the two message members *)
Record client := mkClient {
  cl_rawData : list Z; cl_rawDataSize : nat; cl_rawDataBits : option Z;
  cl_blinded : ptr; cl_secret : Z; cl_table : hb Z; cl_q : ptr; cl_t : ptr; cl_zp : zpprf;
  cl_toCloud : nat; cl_toClient : nat; cl_setcap : list Z
}.
Definition cl_set_q c q := mkClient (cl_rawData c) (cl_rawDataSize c) (cl_rawDataBits c) (cl_blinded c) (cl_secret c) (cl_table c)
  q (cl_t c) (cl_zp c) (cl_toCloud c) (cl_toClient c) (cl_setcap c).
Definition cl_set_t c t := mkClient (cl_rawData c) (cl_rawDataSize c) (cl_rawDataBits c) (cl_blinded c) (cl_secret c) (cl_table c)
  (cl_q c) t (cl_zp c) (cl_toCloud c) (cl_toClient c) (cl_setcap c).
Definition cl_set_setcap c s := mkClient (cl_rawData c) (cl_rawDataSize c) (cl_rawDataBits c) (cl_blinded c) (cl_secret c) (cl_table c)
  (cl_q c) (cl_t c) (cl_zp c) (cl_toCloud c) (cl_toClient c) s.
Definition cl_set_zp c zp := mkClient (cl_rawData c) (cl_rawDataSize c) (cl_rawDataBits c) (cl_blinded c) (cl_secret c) (cl_table c)
  (cl_q c) (cl_t c) zp (cl_toCloud c) (cl_toClient c) (cl_setcap c).
(** eopsiclient.cpp:287-289 *)
Definition cl_set_secret c s := mkClient (cl_rawData c) (cl_rawDataSize c) (cl_rawDataBits c) (cl_blinded c) s (cl_table c)
  (cl_q c) (cl_t c) (cl_zp c) (cl_toCloud c) (cl_toClient c) (cl_setcap c).
(** eopsiserver.h:21-22; a null pointer in storedData is [None] *)
Record server := mkServer { sv_stored : list (str * option nat); sv_toClient : nat }.
(** the dynamic class of a party; it need not agree with the [type] member *)
Inductive role := RClient (c : client) | RServer (s : server).
(** eopsiparty.h:40-50; [pa_parties] maps ids to parties *)
Record party := mkParty { pa_id : str; pa_type : ptype; pa_parties : list (str * nat); pa_core : core; pa_role : role }.
Definition pa_set_role P r := mkParty (pa_id P) (pa_type P) (pa_parties P) (pa_core P) r.
Definition pa_set_core P c := mkParty (pa_id P) (pa_type P) (pa_parties P) c (pa_role P).
(** eopsiparty.cpp:137-139, 168-170 *)
Definition pa_set_id P id := mkParty id (pa_type P) (pa_parties P) (pa_core P) (pa_role P).
Definition pa_set_type P t := mkParty (pa_id P) t (pa_parties P) (pa_core P) (pa_role P).
Definition pa_set_parties P d := mkParty (pa_id P) (pa_type P) d (pa_core P) (pa_role P).

(** [w_rand]: rand() calls so far; [w_draws]: calls of NTL::RandomBits so far;
    [w_facts]: calls of the factoring algorithm so far. *)
Record world := mkWorld {
  w_parties : list party; w_msgs : list message; w_heap : list block;
  w_rand : nat; w_draws : nat; w_facts : nat
}.
Definition w_set_parties w x := mkWorld x (w_msgs w) (w_heap w) (w_rand w) (w_draws w) (w_facts w).
Definition w_set_msgs w x := mkWorld (w_parties w) x (w_heap w) (w_rand w) (w_draws w) (w_facts w).
Definition w_set_heap w x := mkWorld (w_parties w) (w_msgs w) x (w_rand w) (w_draws w) (w_facts w).
Definition w_set_rand w x := mkWorld (w_parties w) (w_msgs w) (w_heap w) x (w_draws w) (w_facts w).
Definition w_set_draws w x := mkWorld (w_parties w) (w_msgs w) (w_heap w) (w_rand w) x (w_facts w).
Definition w_set_facts w x := mkWorld (w_parties w) (w_msgs w) (w_heap w) (w_rand w) (w_draws w) x.

(** dereferencing a pointer to a party or message *)
Definition the_party (w : world) (i : nat) : res party :=
  match nth_error (w_parties w) i with Some P => Ok P | None => UB Dangling end.
Definition the_msg (w : world) (m : nat) : res message :=
  match nth_error (w_msgs w) m with Some M => Ok M | None => UB Dangling end.
Definition put_party (w : world) (i : nat) (P : party) : world := w_set_parties w (upd (w_parties w) i P).
Definition put_msg (w : world) (m : nat) (M : message) : world := w_set_msgs w (upd (w_msgs w) m M).
Definition as_client (P : party) : res client := match pa_role P with RClient c => Ok c | RServer _ => UB BadCast end.
Definition put_client (w : world) (i : nat) (P : party) (c : client) : world := put_party w i (pa_set_role P (RClient c)).

(** new[] and delete[] *)
Definition alloc (w : world) (b : block) : world * addr := (w_set_heap w (w_heap w ++ [b]), length (w_heap w)).
Definition release (w : world) (a : ptr) : res world :=
  match a with
  | None => Ok w
  | Some a => match nth_error (w_heap w) a with
              | Some Freed | None => UB Dangling
              | Some _ => Ok (w_set_heap w (upd (w_heap w) a Freed))
              end
  end.
(** reading through a pointer to bytes ... *)
Definition bytes_at (h : list block) (a : ptr) : res (list cell) :=
  match a with
  | None => UB NullDeref
  | Some a => match nth_error h a with
              | Some (BBytes cs) => Ok cs
              | Some (BMat _) => UB BadCast
              | Some Freed | None => UB Dangling
              end
  end.
(** ... and through a pointer to vectors *)
Definition entries_at (h : list block) (a : ptr) : entries :=
  match a with
  | None => fun _ _ => UB NullDeref
  | Some a => match nth_error h a with
              | Some (BMat m) => entry m
              | Some (BBytes _) => fun _ _ => UB BadCast
              | Some Freed | None => fun _ _ => UB Dangling
              end
  end.
Definition opt_entries (h : list block) (a : ptr) : option entries :=
  match a with None => None | Some _ => Some (entries_at h a) end.

(** a C string starting at an offset: the characters before the first NUL *)
Fixpoint cstr (cs : list cell) : res str :=
  match cs with
  | [] => UB OutOfBounds
  | None :: _ => UB Uninit
  | Some b :: t => if b =? 0 then Ok [] else do s <- cstr t; Ok (b :: s)
  end.
Definition cstr_at (cs : list cell) (off : nat) : res str := cstr (skipn off cs).
(** [n] bytes from an offset *)
Definition bytes_from (cs : list cell) (off n : nat) : res (list Z) :=
  mapM (fun i => read_cell cs (Z.of_nat (off + i))) (seq 0 n).
(** what strcpy copies from a std::string: up to and including the first NUL
    (the string's own terminator at the latest) *)
Fixpoint upto_nul (s : str) : list Z :=
  match s with [] => [0] | b :: t => if b =? 0 then [0] else b :: upto_nul t end.

(** eopsiparty.cpp:27-34 *)
Definition getPartyById (P : party) (id : str) : option nat := map_find (pa_parties P) id.
(** eopsiparty.cpp:196-198 *)
Definition hasAuthenticatedId (P : party) (id : str) : bool :=
  match getPartyById P id with Some _ => true | None => false end.
(** eopsiparty.cpp:201-203 *)
Definition hasAuthenticated (w : world) (P : party) (i : nat) : res bool :=
  do Q <- the_party w i; Ok (hasAuthenticatedId P (pa_id Q)).
(** eopsiparty.cpp:189-193: me->authenticate( *other) *)
Definition authenticate (w : world) (me other : nat) : res world :=
  do P <- the_party w me; do Q <- the_party w other;
  Ok (if str_eqb (pa_id Q) (pa_id P) then w else put_party w me (pa_set_parties P (map_put (pa_parties P) (pa_id Q) other))).

Definition ptype_eqb (a b : ptype) : bool :=
  match a, b with TClient, TClient | TServer, TServer => true | _, _ => false end.

(** eopsiclient.cpp:216-242 for a non-null message *)
Definition client_authorised (w : world) (P : party) (M : message) : res bool :=
  match getPartyById P (m_party M) with
  | None => UB NullDeref
  | Some s =>
      do auth <- hasAuthenticated w P s;
      if negb auth then Ok false else
      do Q <- the_party w s;
      Ok (match m_type M with
          | MClientRequest | MPolynomial => ptype_eqb (pa_type Q) TClient
          | MOutput => ptype_eqb (pa_type Q) TServer
          | MOutsourcing | MCloudRequest | MUnknown => false
          end)
  end.
(** eopsiserver.cpp:105-131 for a non-null message *)
Definition server_authorised (w : world) (P : party) (M : message) : res bool :=
  match getPartyById P (m_party M) with
  | None => Ok false
  | Some s =>
      do auth <- hasAuthenticated w P s;
      if negb auth then Ok false else
      do Q <- the_party w s;
      Ok (match m_type M with
          | MCloudRequest | MOutsourcing => ptype_eqb (pa_type Q) TServer || ptype_eqb (pa_type Q) TClient
          | MOutput => ptype_eqb (pa_type Q) TServer
          | MClientRequest | MPolynomial | MUnknown => false
          end)
  end.

(** The ProtocolExceptions *)
Inductive reason :=
| NullMessage      (* eopsiparty.cpp:178 *)
| SelfMessage      (* eopsiclient.cpp:76, eopsiserver.cpp:32 *)
| NotAuthorised    (* eopsiclient.cpp:81, eopsiserver.cpp:37 *)
| IdMismatch       (* eopsiclient.cpp:94, eopsiserver.cpp:53 *)
| BetweenServers   (* eopsiserver.cpp:47, 77, 93 *)
| Forbidden        (* eopsiclient.cpp:208, eopsiserver.cpp:97 *)
| UnknownType.     (* eopsiclient.cpp:211, eopsiserver.cpp:100 *)
(** How receive() ends, if it does not end the program.  [TooDeep] is a model
    artefact: the allowed number of nested calls is exceeded. *)
Inductive outcome := Done | Thrown (r : reason) | TooDeep.
(** The calls of receive() that were made, in order: receiver and message type *)
Notation trace := (list (nat * mtype)).
Notation delivery := (res (world * outcome * trace)).

Section W.
Variable sha : list Z -> list Z.
Variable rand : nat -> Z.
Variable fuel : nat.
(** the global modulus of ZZ_p *)
Variable p : Z.
Variables canzass berlekamp : nat -> poly -> list (poly * Z).
(** std::thread::hardware_concurrency() *)
Variable hw : nat.
(** the value of the k-th call of NTL::RandomBits_ZZ *)
Variable rbits : nat -> Z.

(** eopsiparty.h:23 *)
Definition DEFAULT_KEY_BITSIZE : Z := 128.
(** eopsiclient.cpp:101; NTL::bytes(long), ntlmiss.cpp *)
Definition tmpKeyByteSize : nat := 16.

(** eopsiclient.cpp:102-104; returns the key and the number of calls so far *)
Fixpoint draw_key (n : nat) (k : nat) : res (Z * nat) :=
  match n with
  | O => NoFuel
  | S m => if num_bits (rbits k) <? DEFAULT_KEY_BITSIZE then draw_key m (S k) else Ok (rbits k, S k)
  end.

(** eopsiclient.cpp:107-124: the array [data] *)
Definition cloud_request (own other : str) (key : Z) : res (list cell) :=
  let lo := Z.of_nat (length own) in let ls := Z.of_nat (length other) in
  let dataLen := (length own + 1 + length other + 1 + tmpKeyByteSize + 1)%nat in
  do d1 <- write_at (repeat None dataLen) 0 (upto_nul own);
  do d2 <- write_at d1 (lo + 1) (upto_nul other);
  do d3 <- write_at d2 (lo + 1 + ls + 1) (le_bytes tmpKeyByteSize (Z.abs key));
  write_at d3 (Z.of_nat dataLen - 1) [0].

(** eopsiclient.cpp:131-139: the first server in the order of the map *)
Fixpoint find_cloud (w : world) (d : list (str * nat)) : res (option nat) :=
  match d with
  | [] => Ok None
  | (_, i) :: t => do Q <- the_party w i; if ptype_eqb (pa_type Q) TServer then Ok (Some i) else find_cloud w t
  end.

(** eopsiparty.cpp:176-186; [receive] is the receiver's method *)
Definition send_with (receive : world -> nat -> nat -> delivery) (w : world) (to : nat) (m : ptr) : delivery :=
  match m with
  | None => Ok (w, Thrown NullMessage, [])
  | Some m => receive w to m
  end.

(** eopsiclient.cpp:492-570 and 181-186/197-202: intersect() on the members of
    client [i], then delete[] of both matrices if it returned true *)
Definition try_intersect (w : world) (i : nat) : res world :=
  do P <- the_party w i; do c <- as_client P;
  do r <- intersect sha rand fuel p canzass berlekamp (pa_core P) (cl_rawDataBits c)
            (opt_entries (w_heap w) (cl_t c)) (opt_entries (w_heap w) (cl_q c)) (w_facts w);
  match r with
  | None => Ok w
  | Some (core1, vs) =>
      let w1 := w_set_facts (put_party w i (pa_set_core (pa_set_role P (RClient (cl_set_setcap c vs))) core1))
                  (w_facts w + co_length (pa_core P)) in
      do w2 <- release w1 (cl_t c);
      release w2 (cl_q c)
  end.

(** eopsiclient.cpp:175-189; 179 reads t[0][0] *)
Definition client_output (w : world) (me : nat) (P : party) (c : client) (M : message) : delivery :=
  let w1 := put_client w me P (cl_set_t c (m_data M)) in
  do _ <- entries_at (w_heap w1) (m_data M) 0 0;
  do w2 <- try_intersect w1 me;
  Ok (w2, Done, []).
(** eopsiclient.cpp:191-204 *)
Definition client_polynomial (w : world) (me : nat) (P : party) (c : client) (M : message) : delivery :=
  let w1 := put_client w me P (cl_set_q c (m_data M)) in
  do _ <- entries_at (w_heap w1) (m_data M) 0 0;
  do w2 <- try_intersect w1 me;
  Ok (w2, Done, []).

(** eopsiclient.cpp:161-172: the second half of the helper's work *)
Definition client_reply (receive : world -> nat -> nat -> delivery) (w : world) (me sender : nat) (otherSecret key : Z) : delivery :=
  do P <- the_party w me; do c <- as_client P;
  do (core1, zp1, q) <- delegationOutput sha rand fuel p (pa_core P) (cl_zp c) (cl_secret c) otherSecret key;
  let '(w1, a) := alloc w (BMat q) in
  let w2 := put_party w1 me (pa_set_core (pa_set_role P (RClient (cl_set_q (cl_set_zp c zp1) (Some a)))) core1) in
  do M <- the_msg w2 (cl_toClient c);
  let w3 := put_msg w2 (cl_toClient c) (m_setPartyId (m_setType (m_setData M (Some a) 1) MPolynomial) (pa_id P)) in
  send_with receive w3 sender (Some (cl_toClient c)).

(** eopsiclient.cpp:88-173 *)
Definition client_request (receive : world -> nat -> nat -> delivery) (w : world) (me : nat) (P : party) (c : client)
    (sender m : nat) (M : message) : delivery :=
  do cs <- bytes_at (w_heap w) (m_data M);
  do claimed <- cstr_at cs 0;
  do Q <- the_party w sender;
  if negb (str_eqb claimed (pa_id Q)) then Ok (w, Thrown IdMismatch, []) else
  (* 101-125 *)
  do (key, k) <- draw_key fuel (w_draws w);
  do d <- cloud_request (pa_id P) (pa_id Q) key;
  let '(w1, a) := alloc (w_set_draws w k) (BBytes d) in
  (* 127-129 *)
  do MC <- the_msg w1 (cl_toCloud c);
  let w2 := put_msg w1 (cl_toCloud c)
              (m_setPartyId (m_setType (m_setData MC (Some a) (Z.of_nat (length d))) MCloudRequest) (pa_id P)) in
  (* 131-143 *)
  do cloud <- find_cloud w2 (pa_parties P);
  match cloud with
  | None => Exit 2
  | Some cl =>
      (* 146-147 *)
      do M2 <- the_msg w2 m;
      do cs2 <- bytes_at (w_heap w2) (m_data M2);
      do sb <- bytes_from cs2 (length claimed + 1) 3;
      let otherSecret := le_val sb in
      (* 153-158 *)
      do (w3, o, tr) <- send_with receive w2 cl (Some (cl_toCloud c));
      match o with
      | Thrown _ => Exit 2
      | TooDeep => Ok (w3, TooDeep, tr)
      | Done =>
          do (w4, o2, tr2) <- client_reply receive w3 me sender otherSecret key;
          Ok (w4, o2, tr ++ tr2)
      end
  end.

(** eopsiclient.cpp:63-213 *)
Definition client_receive (receive : world -> nat -> nat -> delivery) (w : world) (me : nat) (P : party) (c : client) (m : nat) (M : message)
    : delivery :=
  if str_eqb (m_party M) (pa_id P) then Ok (w, Thrown SelfMessage, []) else
  do ok <- client_authorised w P M;
  if negb ok then Ok (w, Thrown NotAuthorised, []) else
  match getPartyById P (m_party M) with
  | None => UB NullDeref
  | Some sender =>
      match m_type M with
      | MClientRequest => client_request receive w me P c sender m M
      | MOutput => client_output w me P c M
      | MPolynomial => client_polynomial w me P c M
      | MCloudRequest | MOutsourcing => Ok (w, Thrown Forbidden, [])
      | MUnknown => Ok (w, Thrown UnknownType, [])
      end
  end.

(** [storedData[id]]: inserts a null pointer if there is none *)
Definition stored_get (m : list (str * option nat)) (id : str) : list (str * option nat) * option nat :=
  match map_find m id with
  | Some v => (m, v)
  | None => (map_put m id None, None)
  end.
(** eopsiserver.cpp:134-148 *)
Definition intersectionOutput (w : world) (me : nat) (idA idB : str) (key : Z) : res (world * matrix) :=
  do P <- the_party w me;
  match pa_role P with
  | RClient _ => UB BadCast
  | RServer s =>
      let '(m1, msgA) := stored_get (sv_stored s) idA in
      let '(m2, msgB) := stored_get m1 idB in
      match msgA, msgB with
      | Some a, Some b =>
          do MA <- the_msg w a; do MB <- the_msg w b;
          do (core1, t) <- computeTOrQ sha rand fuel p (pa_core P) key
              (entries_at (w_heap w) (m_data MA)) (entries_at (w_heap w) (m_data MB));
          Ok (put_party w me (pa_set_core (pa_set_role P (RServer (mkServer m2 (sv_toClient s)))) core1), t)
      | _, _ => UB NullDeref
      end
  end.

(** eopsiserver.cpp:44-72 *)
Definition server_request (receive : world -> nat -> nat -> delivery) (w : world) (me : nat) (P : party) (s : server)
    (sender : nat) (m : nat) (M : message) : delivery :=
  do Q <- the_party w sender;
  if ptype_eqb (pa_type Q) TServer then Ok (w, Thrown BetweenServers, []) else
  do cs <- bytes_at (w_heap w) (m_data M);
  do claimed <- cstr_at cs 0;
  if negb (str_eqb claimed (pa_id Q)) then Ok (w, Thrown IdMismatch, []) else
  do partner <- cstr_at cs (length claimed + 1);
  do kb <- bytes_from cs (length claimed + 1 + length partner + 1) tmpKeyByteSize;
  let key := le_val kb in
  do (w1, t) <- intersectionOutput w me (pa_id Q) partner key;
  let '(w2, a) := alloc w1 (BMat t) in
  do MC <- the_msg w2 (sv_toClient s);
  let w3 := put_msg w2 (sv_toClient s) (m_setPartyId (m_setType (m_setData MC (Some a) 1) MOutput) (pa_id P)) in
  match getPartyById P partner with
  | None => UB NullDeref
  | Some to =>
      do (w4, o, tr) <- send_with receive w3 to (Some (sv_toClient s));
      match o with
      | Done =>
          (* 71 *)
          do M4 <- the_msg w4 m;
          do _ <- bytes_at (w_heap w4) (m_data M4);
          do w5 <- release w4 (m_data M4);
          Ok (w5, Done, tr)
      | _ => Ok (w4, o, tr)
      end
  end.

(** eopsiserver.cpp:23-102 *)
Definition server_receive (receive : world -> nat -> nat -> delivery) (w : world) (me : nat) (P : party) (s : server) (m : nat) (M : message)
    : delivery :=
  if str_eqb (m_party M) (pa_id P) then Ok (w, Thrown SelfMessage, []) else
  do ok <- server_authorised w P M;
  if negb ok then Ok (w, Thrown NotAuthorised, []) else
  match getPartyById P (m_party M) with
  | None => UB NullDeref
  | Some sender =>
      match m_type M with
      | MCloudRequest => server_request receive w me P s sender m M
      | MOutsourcing =>
          do Q <- the_party w sender;
          if ptype_eqb (pa_type Q) TServer then Ok (w, Thrown BetweenServers, []) else
          Ok (put_party w me (pa_set_role P (RServer (mkServer (map_put (sv_stored s) (pa_id Q) (Some m)) (sv_toClient s)))), Done, [])
      | MOutput => Ok (w, Thrown BetweenServers, [])
      | MClientRequest | MPolynomial => Ok (w, Thrown Forbidden, [])
      | MUnknown => Ok (w, Thrown UnknownType, [])
      end
  end.

(** receive(): virtual, dispatched on the class of the receiver; [depth]
    bounds the nesting of calls. *)
Fixpoint receive (depth : nat) (w : world) (me m : nat) : delivery :=
  match depth with
  | O => Ok (w, TooDeep, [])
  | S d =>
      do P <- the_party w me; do M <- the_msg w m;
      do (w1, o, tr) <- (match pa_role P with
                         | RClient c => client_receive (receive d) w me P c m M
                         | RServer s => server_receive (receive d) w me P s m M
                         end);
      Ok (w1, o, (me, m_type M) :: tr)
  end.
(** eopsiparty.cpp:176-186 *)
Definition send (depth : nat) (w : world) (to : nat) (m : ptr) : delivery := send_with (receive depth) w to m.

(** eopsiclient.cpp:245-254; [raw = None] is a null pointer.  The client's
    generator draws from the program's rand() sequence (only conceal() does, in
    its first call; with a field size other than 0 no other call does). *)
Definition at_rand (zp : zpprf) (pos : nat) : zpprf :=
  {| zp_modulo := zp_modulo zp;
     zp_prf := {| p_gen := p_gen (zp_prf zp); p_genLength := p_genLength (zp_prf zp); p_hashInput := p_hashInput (zp_prf zp);
                  p_hashInputSize := p_hashInputSize (zp_prf zp); p_autoIndex := p_autoIndex (zp_prf zp);
                  p_autoSeed := p_autoSeed (zp_prf zp); p_pos := pos |};
     zp_autoIndex := zp_autoIndex zp; zp_autoSeed := zp_autoSeed zp |}.
Definition setRawData (w : world) (me : nat) (raw : option (list Z)) (size : nat) (bits : Z) (nThreads : nat) : res world :=
  do P <- the_party w me; do c <- as_client P;
  match raw, size with
  | None, _ | _, O => Ok w
  | Some raw, _ =>
      do (core1, h1, zp1, bl) <- blind sha rand fuel p hw (pa_core P) (cl_secret c) raw size (Some bits) (cl_table c)
            (at_rand (cl_zp c) (w_rand w)) nThreads;
      let '(w1, a) := alloc w (BMat bl) in
      Ok (w_set_rand (put_party w1 me (pa_set_core (pa_set_role P
            (RClient (mkClient raw size (Some bits) (Some a) (cl_secret c) h1 (cl_q c) (cl_t c) zp1
                        (cl_toCloud c) (cl_toClient c) (cl_setcap c)))) core1)) (p_pos (zp_prf zp1)))
  end.

(** constructors: eopsiclient.cpp:32-47 and eopsiserver.cpp:13-15 (with
    eopsiparty.cpp:12-20).  Each message member is a new message object.
    Return the world and the object. *)
Definition new_client (w : world) (table : hb Z) (fieldsize : Z) (length height degree : nat) (id : str) (secret : Z) : world * nat :=
  let m := List.length (w_msgs w) in
  (w_set_msgs (w_set_parties w (w_parties w ++
     [mkParty id TClient [] (new_core fieldsize length height degree 0)
        (RClient (mkClient [] 0 None None secret table None None (new_zpprf fieldsize 0) m (S m) []))]))
     (w_msgs w ++ [new_message; new_message]),
   List.length (w_parties w)).
Definition new_server (w : world) (fieldsize : Z) (length height degree : nat) (id : str) : world * nat :=
  let m := List.length (w_msgs w) in
  (w_set_msgs (w_set_parties w (w_parties w ++
     [mkParty id TServer [] (new_core fieldsize length height degree 0) (RServer (mkServer [] m))]))
     (w_msgs w ++ [new_message]),
   List.length (w_parties w)).
Definition new_msg (w : world) (M : message) : world * nat := (w_set_msgs w (w_msgs w ++ [M]), List.length (w_msgs w)).

(** What a program can do with the objects.  [raw] arguments of OSetRawData
    belong to the caller; ONewBytes is a caller's array. *)
Inductive op :=
| ONewClient (table : hb Z) (fieldsize : Z) (length height degree : nat) (id : str) (secret : Z)
| ONewServer (fieldsize : Z) (length height degree : nat) (id : str)
| ONewMessage (M : message)
| ONewBytes (cells : list cell)
| OSetId (i : nat) (id : str)
| OSetType (i : nat) (t : ptype)
| OSetFieldsize (i : nat) (f : Z)
| OSetDegree (i : nat) (d : nat)
| OSetSecret (i : nat) (s : Z)
| OAuthenticate (i j : nat)
| OSetRawData (i : nat) (raw : option (list Z)) (size : nat) (bits : Z) (nThreads : nat)
| OMsgData (m : nat) (d : ptr) (len : Z)
| OMsgType (m : nat) (t : mtype)
| OMsgParty (m : nat) (id : str)
| OSend (to : nat) (m : ptr).
(** the parties' own messages have no accessors, so a program changes only its
    own messages; the model does not need the restriction *)
Definition on_party (w : world) (i : nat) (f : party -> res party) : res (world * outcome) :=
  do P <- the_party w i; do P1 <- f P; Ok (put_party w i P1, Done).
Definition on_msg (w : world) (m : nat) (f : message -> message) : res (world * outcome) :=
  do M <- the_msg w m; Ok (put_msg w m (f M), Done).
(** [depth]: see [receive]; 4 is enough (C60) *)
Definition exec (w : world) (o : op) : res (world * outcome) :=
  match o with
  | ONewClient table f l h d id s => Ok (fst (new_client w table f l h d id s), Done)
  | ONewServer f l h d id => Ok (fst (new_server w f l h d id), Done)
  | ONewMessage M => Ok (fst (new_msg w M), Done)
  | ONewBytes cs => Ok (fst (alloc w (BBytes cs)), Done)
  | OSetId i id => on_party w i (fun P => Ok (pa_set_id P id))
  | OSetType i t => on_party w i (fun P => Ok (pa_set_type P t))
  | OSetFieldsize i f => on_party w i (fun P => Ok (pa_set_core P (setFieldsize (pa_core P) f)))
  | OSetDegree i d => on_party w i (fun P => Ok (pa_set_core P (setDegree (pa_core P) d)))
  | OSetSecret i s => on_party w i (fun P => do c <- as_client P; Ok (pa_set_role P (RClient (cl_set_secret c s))))
  | OAuthenticate i j => do w1 <- authenticate w i j; Ok (w1, Done)
  | OSetRawData i raw n b nt => do w1 <- setRawData w i raw n b nt; Ok (w1, Done)
  | OMsgData m d len => on_msg w m (fun M => m_setData M d len)
  | OMsgType m t => on_msg w m (fun M => m_setType M t)
  | OMsgParty m id => on_msg w m (fun M => m_setPartyId M id)
  | OSend to m => do (w1, out, _) <- send 4 w to m; Ok (w1, out)
  end.
(** a program that catches every ProtocolException and goes on *)
Fixpoint exec_all (w : world) (l : list op) : res world :=
  match l with [] => Ok w | o :: t => do (w1, _) <- exec w o; exec_all w1 t end.

(** eopsisimul.cpp:436-441: the request of the requester.  [NTL::bytes(secret)]
    bytes of the secret follow the id. *)
Definition client_request_bytes (id : str) (secret : Z) : res (list cell) :=
  let sl := bytes_of_zz secret in
  let dataLen := sl + 1 + Z.of_nat (length id) + 1 in
  do d1 <- write_at (repeat None (Z.to_nat dataLen)) 0 (upto_nul id);
  do d2 <- write_at d1 (Z.of_nat (length id) + 1) (le_bytes (Z.to_nat sl) (Z.abs secret));
  write_at d2 (dataLen - 1) [0].

(** eopsisimul.cpp:347-450 from the construction of the parties on: two
    clients and a server in an empty world, everybody authenticated with
    everybody, both outsource, the second asks the first.  The ids, secrets
    and data are parameters.  A ProtocolException ends the program with exit
    code 2 (401-404, 454-457). *)
Definition or_exit (x : delivery) : res world :=
  do (w, o, _) <- x;
  match o with Done => Ok w | Thrown _ => Exit 2 | TooDeep => NoFuel end.
Definition empty_world (pos draws facts : nat) : world := mkWorld [] [] [] pos draws facts.
Definition simulate (length height degree : nat) (al : halgo Z) (bits : Z) (idA idB idS : str) (secretA secretB : Z)
    (rawA rawB : list Z) (nThreads pos draws facts : nat) : res world :=
  do hA <- new_hb length height (Some al);
  do hB <- new_hb length height (Some al);
  let '(w, alice) := new_client (empty_world pos draws facts) hA p length height degree idA secretA in
  let '(w, bob) := new_client w hB p length height degree idB secretB in
  let '(w, cloud) := new_server w p length height degree idS in
  (* 361, 36-46 *)
  do w <- for_up 3 0 (fun i w => for_up 3 0 (fun j w => authenticate w i j) w) w;
  (* 381-388 *)
  let '(w, mA) := new_msg w (m_setPartyId (m_setType new_message MOutsourcing) idA) in
  let '(w, mB) := new_msg w (m_setPartyId (m_setType new_message MOutsourcing) idB) in
  do w <- setRawData w alice (Some rawA) (List.length rawA) bits nThreads;
  do w <- setRawData w bob (Some rawB) (List.length rawB) bits nThreads;
  (* 395-396 *)
  do PA <- the_party w alice; do cA <- as_client PA;
  do PB <- the_party w bob; do cB <- as_client PB;
  do MA <- the_msg w mA;
  let w := put_msg w mA (m_setData MA (cl_blinded cA) (Z.of_nat (degree * length))) in
  do MB <- the_msg w mB;
  let w := put_msg w mB (m_setData MB (cl_blinded cB) (Z.of_nat (degree * length))) in
  (* 398-404 *)
  do w <- or_exit (send 4 w cloud (Some mA));
  do w <- or_exit (send 4 w cloud (Some mB));
  (* 432-441 *)
  do d <- client_request_bytes idB secretB;
  let '(w, a) := alloc w (BBytes d) in
  let '(w, mR) := new_msg w (mkMsg idB MClientRequest (Some a) (Z.of_nat (List.length d))) in
  (* 450 *)
  or_exit (send 4 w alice (Some mR)).
(** eopsiclient.cpp:282-284 *)
Definition getIntersection (w : world) (i : nat) : res (list Z) :=
  do P <- the_party w i; do c <- as_client P; Ok (cl_setcap c).
End W.
