(** What the message layer should do, in terms of the parties' ids, classes and
    types, and of the calls made so far. *)
From Verif Require Import Base PRFModel EopsiModel WorldModel.

(** a std::string without NUL characters *)
Definition nul_free (s : str) : Prop := Forall (fun b => 0 < b < 256) s.

(** The kinds of messages a party takes, by its class, the message's type and
    the sender's type. *)
Definition accepts (r : role) (t : mtype) (sender : ptype) : Prop :=
  match r, t, sender with
  | RClient _, MClientRequest, TClient => True
  | RClient _, MPolynomial, TClient => True
  | RClient _, MOutput, TServer => True
  | RServer _, MCloudRequest, TClient => True
  | RServer _, MOutsourcing, TClient => True
  | _, _, _ => False
  end.
(** party number [s] of the world is the one [P] has authenticated under the
    id [id], and [P] has authenticated its present id too *)
Definition knows (w : world) (P : party) (id : str) (s : nat) : Prop :=
  getPartyById P id = Some s /\ exists Q, nth_error (w_parties w) s = Some Q /\ hasAuthenticatedId P (pa_id Q) = true.
(** every pointer in P's directory is a party of the world *)
Definition directory_valid (w : world) (P : party) : Prop :=
  forall id s, getPartyById P id = Some s -> (s < length (w_parties w))%nat.

(** layout of a cloud request: two C strings, 16 bytes of key, a final NUL *)
Definition cloud_request_layout (own other : str) (key : Z) : list Z :=
  own ++ [0] ++ other ++ [0] ++ le_bytes 16 key ++ [0].
(** layout of a client request: a C string, n bytes of secret, a final NUL *)
Definition client_request_layout (id : str) (n : nat) (secret : Z) : list Z :=
  id ++ [0] ++ le_bytes n secret ++ [0].
(** the C string [a] is what strlen sees of the std::string [s]: all of it, or
    the part before its first NUL byte *)
Definition c_part (s a : str) : Prop :=
  Forall (fun b => b <> 0) a /\ (s = a \/ exists rest, s = a ++ 0 :: rest).

Section S.
Variable sha : list Z -> list Z.
Variable rand : nat -> Z.
Variable fuel : nat.
Variable p : Z.
Variables canzass berlekamp : nat -> list Z -> list (list Z * Z).
Variable hw : nat.
Variable rbits : nat -> Z.
#[local] Notation exec := (exec sha rand fuel p canzass berlekamp hw rbits).

(** The calls me->authenticate( *j) of a program that register j: the id j had
    at that moment, and j; oldest first. *)
Definition registers (w : world) (me : nat) (o : op) : list (str * nat) :=
  match o with
  | OAuthenticate i j =>
      if Nat.eqb i me then
        match nth_error (w_parties w) me, nth_error (w_parties w) j with
        | Some P, Some Q => if str_eqb (pa_id Q) (pa_id P) then [] else [(pa_id Q, j)]
        | _, _ => []
        end
      else []
  | _ => []
  end.
(** The accepted outsourcing messages server [me] got: the id the sender had
    at that moment, and the message. *)
Definition outsources (w : world) (me : nat) (o : op) : list (str * nat) :=
  match o with
  | OSend to (Some m) =>
      if Nat.eqb to me then
        match nth_error (w_parties w) me, nth_error (w_msgs w) m, exec w o with
        | Some P, Some M, Ok (_, Done) =>
            match m_type M, getPartyById P (m_party M) with
            | MOutsourcing, Some s => match nth_error (w_parties w) s with Some Q => [(pa_id Q, m)] | None => [] end
            | _, _ => []
            end
        | _, _, _ => []
        end
      else []
  | _ => []
  end.
(** ... along a whole program *)
Fixpoint log_of (ev : world -> op -> list (str * nat)) (w : world) (l : list op) : list (str * nat) :=
  match l with
  | [] => []
  | o :: t => ev w o ++ match exec w o with Ok (w1, _) => log_of ev w1 t | _ => [] end
  end.
End S.
(** the latest entry of a log for an id *)
Definition latest (log : list (str * nat)) (id : str) : option nat :=
  match find (fun e => str_eqb (fst e) id) (rev log) with Some (_, v) => Some v | None => None end.
