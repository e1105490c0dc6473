(** What receive() writes to the standard output (for C129).

    The functions below are those of WorldModel with the output statements of
    eopsiclient.cpp and eopsiserver.cpp added; C129_same_program shows that
    nothing else changed.  A line is kept as the data that are in it; the times
    in it are left out.  The error stream is not modelled, nor are the progress
    dots of setRawData (eopsiclient.cpp:319-443). *)
From Verif Require Import Base Lib NtlMiss StrIntModel HashBucketsModel PRFModel PolyModel EopsiModel WorldModel.

Inductive line :=
| LSecret (id : str) (secret : Z) (from : str)   (* eopsiclient.cpp:148: <id>. Received "<secret>" from <from>. *)
| LSending (id : str) (key : Z) (cloud : str)    (* eopsiclient.cpp:151: <id>. Sending cloud computation request with key "<key>" to <cloud>. *)
| LHelperTime                                    (* eopsiclient.cpp:170 *)
| LGot (id : str) (value : Z) (from : str)       (* eopsiclient.cpp:179, 195: I, <id>, received "<value>, ..." from <from>. *)
| LStats (polys size : nat)                      (* eopsiclient.cpp:546-565: the statistics of intersect() *)
| LFound                                         (* eopsiclient.cpp:183, 199 *)
| LPart (t : mtype)                              (* eopsiclient.cpp:187, 203 *)
| LKey (id : str) (key : Z) (from : str)         (* eopsiserver.cpp:60: I, <id>, received key "<key>" from <from> *)
| LServerTime                                    (* eopsiserver.cpp:68 *)
| LStored (id from : str) (size : Z)             (* eopsiserver.cpp:80: <id>. Data from <from> stored (size <size>). *)
| LStoredTime.                                   (* eopsiserver.cpp:89 *)

(** what was written, and how the computation went on *)
Definition logged (A : Type) : Type := list line * res A.
Definition lbind {A B} (x : logged A) (f : A -> logged B) : logged B :=
  match snd x with
  | Ok a => let y := f a in (fst x ++ fst y, snd y)
  | Exit c => (fst x, Exit c) | UB e => (fst x, UB e) | Abort => (fst x, Abort) | NoFuel => (fst x, NoFuel)
  end.
Definition quietly {A} (r : res A) : logged A := ([], r).
Definition say (l : line) : logged unit := ([l], Ok tt).
Notation "'run' x <- e ; f" := (lbind e (fun x => f)) (at level 200, x pattern, e at level 100, f at level 200).
Notation delivery_log := (logged (world * outcome * trace)).

Section C.
Variable sha : list Z -> list Z.
Variable rand : nat -> Z.
Variable fuel : nat.
Variable p : Z.
Variables canzass berlekamp : nat -> poly -> list (poly * Z).
Variable hw : nat.
Variable rbits : nat -> Z.

(** eopsiparty.cpp:176-186 *)
Definition send_with_log (receive : world -> nat -> nat -> delivery_log) (w : world) (to : nat) (m : ptr) : delivery_log :=
  match m with
  | None => quietly (Ok (w, Thrown NullMessage, []))
  | Some m => receive w to m
  end.

(** eopsiclient.cpp:492-570 and 181-186/197-202; showStats is true (eopsiclient.h:38) *)
Definition try_intersect_log (w : world) (i : nat) : logged world :=
  run P <- quietly (the_party w i); run c <- quietly (as_client P);
  run r <- quietly (intersect sha rand fuel p canzass berlekamp (pa_core P) (cl_rawDataBits c)
            (opt_entries (w_heap w) (cl_t c)) (opt_entries (w_heap w) (cl_q c)) (w_facts w));
  match r with
  | None => quietly (Ok w)
  | Some (core1, vs) =>
      run _ <- say (LStats (co_length (pa_core P)) (length vs));
      run _ <- say LFound;
      let w1 := w_set_facts (put_party w i (pa_set_core (pa_set_role P (RClient (cl_set_setcap c vs))) core1))
                  (w_facts w + co_length (pa_core P)) in
      run w2 <- quietly (release w1 (cl_t c));
      quietly (release w2 (cl_q c))
  end.

(** eopsiclient.cpp:175-189 *)
Definition client_output_log (w : world) (me : nat) (P : party) (c : client) (Q : party) (M : message) : delivery_log :=
  let w1 := put_client w me P (cl_set_t c (m_data M)) in
  run v <- quietly (entries_at (w_heap w1) (m_data M) 0 0);
  run _ <- say (LGot (pa_id P) v (pa_id Q));
  run w2 <- try_intersect_log w1 me;
  run _ <- say (LPart MOutput);
  quietly (Ok (w2, Done, [])).
(** eopsiclient.cpp:191-204 *)
Definition client_polynomial_log (w : world) (me : nat) (P : party) (c : client) (Q : party) (M : message) : delivery_log :=
  let w1 := put_client w me P (cl_set_q c (m_data M)) in
  run v <- quietly (entries_at (w_heap w1) (m_data M) 0 0);
  run _ <- say (LGot (pa_id P) v (pa_id Q));
  run w2 <- try_intersect_log w1 me;
  run _ <- say (LPart MPolynomial);
  quietly (Ok (w2, Done, [])).

(** eopsiclient.cpp:161-172 *)
Definition client_reply_log (receive : world -> nat -> nat -> delivery_log) (w : world) (me sender : nat) (otherSecret key : Z) : delivery_log :=
  run P <- quietly (the_party w me); run c <- quietly (as_client P);
  run (core1, zp1, q) <- quietly (delegationOutput sha rand fuel p (pa_core P) (cl_zp c) (cl_secret c) otherSecret key);
  let '(w1, a) := alloc w (BMat q) in
  let w2 := put_party w1 me (pa_set_core (pa_set_role P (RClient (cl_set_q (cl_set_zp c zp1) (Some a)))) core1) in
  run M <- quietly (the_msg w2 (cl_toClient c));
  let w3 := put_msg w2 (cl_toClient c) (m_setPartyId (m_setType (m_setData M (Some a) 1) MPolynomial) (pa_id P)) in
  run _ <- say LHelperTime;
  send_with_log receive w3 sender (Some (cl_toClient c)).

(** eopsiclient.cpp:88-173 *)
Definition client_request_log (receive : world -> nat -> nat -> delivery_log) (w : world) (me : nat) (P : party) (c : client)
    (sender m : nat) (M : message) : delivery_log :=
  run cs <- quietly (bytes_at (w_heap w) (m_data M));
  run claimed <- quietly (cstr_at cs 0);
  run Q <- quietly (the_party w sender);
  if negb (str_eqb claimed (pa_id Q)) then quietly (Ok (w, Thrown IdMismatch, [])) else
  run (key, k) <- quietly (draw_key rbits fuel (w_draws w));
  run d <- quietly (cloud_request (pa_id P) (pa_id Q) key);
  let '(w1, a) := alloc (w_set_draws w k) (BBytes d) in
  run MC <- quietly (the_msg w1 (cl_toCloud c));
  let w2 := put_msg w1 (cl_toCloud c)
              (m_setPartyId (m_setType (m_setData MC (Some a) (Z.of_nat (length d))) MCloudRequest) (pa_id P)) in
  run cloud <- quietly (find_cloud w2 (pa_parties P));
  match cloud with
  | None => quietly (Exit 2)
  | Some cl =>
      run M2 <- quietly (the_msg w2 m);
      run cs2 <- quietly (bytes_at (w_heap w2) (m_data M2));
      run sb <- quietly (bytes_from cs2 (length claimed + 1) 3);
      let otherSecret := le_val sb in
      (* 148, 151 *)
      run _ <- say (LSecret (pa_id P) otherSecret (pa_id Q));
      run C <- quietly (the_party w2 cl);
      run _ <- say (LSending (pa_id P) key (pa_id C));
      run (w3, o, tr) <- send_with_log receive w2 cl (Some (cl_toCloud c));
      match o with
      | Thrown _ => quietly (Exit 2)
      | TooDeep => quietly (Ok (w3, TooDeep, tr))
      | Done =>
          run (w4, o2, tr2) <- client_reply_log receive w3 me sender otherSecret key;
          quietly (Ok (w4, o2, tr ++ tr2))
      end
  end.

(** eopsiclient.cpp:63-213 *)
Definition client_receive_log (receive : world -> nat -> nat -> delivery_log) (w : world) (me : nat) (P : party) (c : client) (m : nat) (M : message)
    : delivery_log :=
  if str_eqb (m_party M) (pa_id P) then quietly (Ok (w, Thrown SelfMessage, [])) else
  run ok <- quietly (client_authorised w P M);
  if negb ok then quietly (Ok (w, Thrown NotAuthorised, [])) else
  match getPartyById P (m_party M) with
  | None => quietly (UB NullDeref)
  | Some sender =>
      run Q <- quietly (the_party w sender);
      match m_type M with
      | MClientRequest => client_request_log receive w me P c sender m M
      | MOutput => client_output_log w me P c Q M
      | MPolynomial => client_polynomial_log w me P c Q M
      | MCloudRequest | MOutsourcing => quietly (Ok (w, Thrown Forbidden, []))
      | MUnknown => quietly (Ok (w, Thrown UnknownType, []))
      end
  end.

(** eopsiserver.cpp:44-72 *)
Definition server_request_log (receive : world -> nat -> nat -> delivery_log) (w : world) (me : nat) (P : party) (s : server)
    (sender : nat) (m : nat) (M : message) : delivery_log :=
  run Q <- quietly (the_party w sender);
  if ptype_eqb (pa_type Q) TServer then quietly (Ok (w, Thrown BetweenServers, [])) else
  run cs <- quietly (bytes_at (w_heap w) (m_data M));
  run claimed <- quietly (cstr_at cs 0);
  if negb (str_eqb claimed (pa_id Q)) then quietly (Ok (w, Thrown IdMismatch, [])) else
  run partner <- quietly (cstr_at cs (length claimed + 1));
  run kb <- quietly (bytes_from cs (length claimed + 1 + length partner + 1) tmpKeyByteSize);
  let key := le_val kb in
  run _ <- say (LKey (pa_id P) key (pa_id Q));
  run (w1, t) <- quietly (intersectionOutput sha rand fuel p w me (pa_id Q) partner key);
  let '(w2, a) := alloc w1 (BMat t) in
  run MC <- quietly (the_msg w2 (sv_toClient s));
  let w3 := put_msg w2 (sv_toClient s) (m_setPartyId (m_setType (m_setData MC (Some a) 1) MOutput) (pa_id P)) in
  run _ <- say LServerTime;
  match getPartyById P partner with
  | None => quietly (UB NullDeref)
  | Some to =>
      run (w4, o, tr) <- send_with_log receive w3 to (Some (sv_toClient s));
      match o with
      | Done =>
          run M4 <- quietly (the_msg w4 m);
          run _ <- quietly (bytes_at (w_heap w4) (m_data M4));
          run w5 <- quietly (release w4 (m_data M4));
          quietly (Ok (w5, Done, tr))
      | _ => quietly (Ok (w4, o, tr))
      end
  end.

(** eopsiserver.cpp:23-102 *)
Definition server_receive_log (receive : world -> nat -> nat -> delivery_log) (w : world) (me : nat) (P : party) (s : server) (m : nat) (M : message)
    : delivery_log :=
  if str_eqb (m_party M) (pa_id P) then quietly (Ok (w, Thrown SelfMessage, [])) else
  run ok <- quietly (server_authorised w P M);
  if negb ok then quietly (Ok (w, Thrown NotAuthorised, [])) else
  match getPartyById P (m_party M) with
  | None => quietly (UB NullDeref)
  | Some sender =>
      match m_type M with
      | MCloudRequest => server_request_log receive w me P s sender m M
      | MOutsourcing =>
          run Q <- quietly (the_party w sender);
          if ptype_eqb (pa_type Q) TServer then quietly (Ok (w, Thrown BetweenServers, [])) else
          run _ <- say (LStored (pa_id P) (pa_id Q) (m_len M));
          run _ <- say LStoredTime;
          quietly (Ok (put_party w me (pa_set_role P (RServer (mkServer (map_put (sv_stored s) (pa_id Q) (Some m)) (sv_toClient s)))), Done, []))
      | MOutput => quietly (Ok (w, Thrown BetweenServers, []))
      | MClientRequest | MPolynomial => quietly (Ok (w, Thrown Forbidden, []))
      | MUnknown => quietly (Ok (w, Thrown UnknownType, []))
      end
  end.

(** receive(), as WorldModel.receive *)
Fixpoint receive_log (depth : nat) (w : world) (me m : nat) : delivery_log :=
  match depth with
  | O => quietly (Ok (w, TooDeep, []))
  | S d =>
      run P <- quietly (the_party w me); run M <- quietly (the_msg w m);
      run (w1, o, tr) <- (match pa_role P with
                          | RClient c => client_receive_log (receive_log d) w me P c m M
                          | RServer s => server_receive_log (receive_log d) w me P s m M
                          end);
      quietly (Ok (w1, o, (me, m_type M) :: tr))
  end.
Definition send_log (depth : nat) (w : world) (to : nat) (m : ptr) : delivery_log := send_with_log (receive_log depth) w to m.

(** eopsisimul.cpp:347-450, as WorldModel.simulate; of the program's own
    output nothing is kept *)
Definition or_exit_log (x : delivery_log) : logged world :=
  run (w, o, _) <- x;
  match o with Done => quietly (Ok w) | Thrown _ => quietly (Exit 2) | TooDeep => quietly NoFuel end.
Definition simulate_log (length height degree : nat) (al : halgo Z) (bits : Z) (idA idB idS : str) (secretA secretB : Z)
    (rawA rawB : list Z) (nThreads pos draws facts : nat) : logged world :=
  run hA <- quietly (new_hb length height (Some al));
  run hB <- quietly (new_hb length height (Some al));
  let '(w, alice) := new_client (empty_world pos draws facts) hA p length height degree idA secretA in
  let '(w, bob) := new_client w hB p length height degree idB secretB in
  let '(w, cloud) := new_server w p length height degree idS in
  run w <- quietly (for_up 3 0 (fun i w => for_up 3 0 (fun j w => authenticate w i j) w) w);
  let '(w, mA) := new_msg w (m_setPartyId (m_setType new_message MOutsourcing) idA) in
  let '(w, mB) := new_msg w (m_setPartyId (m_setType new_message MOutsourcing) idB) in
  run w <- quietly (setRawData sha rand fuel p hw w alice (Some rawA) (List.length rawA) bits nThreads);
  run w <- quietly (setRawData sha rand fuel p hw w bob (Some rawB) (List.length rawB) bits nThreads);
  run PA <- quietly (the_party w alice); run cA <- quietly (as_client PA);
  run PB <- quietly (the_party w bob); run cB <- quietly (as_client PB);
  run MA <- quietly (the_msg w mA);
  let w := put_msg w mA (m_setData MA (cl_blinded cA) (Z.of_nat (degree * length))) in
  run MB <- quietly (the_msg w mB);
  let w := put_msg w mB (m_setData MB (cl_blinded cB) (Z.of_nat (degree * length))) in
  run w <- or_exit_log (send_log 4 w cloud (Some mA));
  run w <- or_exit_log (send_log 4 w cloud (Some mB));
  run d <- quietly (client_request_bytes idB secretB);
  let '(w, a) := alloc w (BBytes d) in
  let '(w, mR) := new_msg w (mkMsg idB MClientRequest (Some a) (Z.of_nat (List.length d))) in
  or_exit_log (send_log 4 w alice (Some mR)).
End C.
