(** A program with one server and any number of clients, using the library the
    way test/eopsisimul.cpp:347-450 does with two: everybody authenticates
    everybody, all clients outsource, then clients ask each other. *)
From Verif Require Import Base NtlMiss HashBucketsModel HashBucketsSpec PRFModel PolySpec EopsiModel EopsiSpec WorldModel.

Record member := mkMember { mb_id : str; mb_secret : Z; mb_raw : list Z }.

Section G.
Variable sha : list Z -> list Z.
Variable rand : nat -> Z.
Variable fuel : nat.
Variable p : Z.
Variables canzass berlekamp : nat -> list Z -> list (list Z * Z).
Variable hw : nat.
Variable rbits : nat -> Z.
Variables (L h D : nat) (al : halgo Z) (bits : Z) (idS : str) (nt : nat).

(** eopsisimul.cpp:347-358: each client with its own hash table *)
Definition add_client (M : member) (w : world) : res world :=
  do t <- new_hb L h (Some al);
  Ok (fst (new_client w t p L h D (mb_id M) (mb_secret M))).
Fixpoint add_clients (ms : list member) (w : world) : res world :=
  match ms with [] => Ok w | M :: r => do w1 <- add_client M w; add_clients r w1 end.
(** eopsisimul.cpp:381-404: party [i] outsources to party 0 *)
Definition outsource (i : nat) (M : member) (w : world) : res world :=
  do w1 <- setRawData sha rand fuel p hw w i (Some (mb_raw M)) (length (mb_raw M)) bits nt;
  do P <- the_party w1 i; do c <- as_client P;
  let '(w2, m) := new_msg w1 (mkMsg (pa_id P) MOutsourcing (cl_blinded c) (Z.of_nat (D * L))) in
  or_exit (send sha rand fuel p canzass berlekamp rbits 4 w2 0 (Some m)).
Fixpoint outsource_all (ms : list member) (i : nat) (w : world) : res world :=
  match ms with [] => Ok w | M :: r => do w1 <- outsource i M w; outsource_all r (S i) w1 end.
(** the server is party 0, the k-th member party k + 1 *)
Definition group_setup (ms : list member) (pos draws facts : nat) : res world :=
  do w <- add_clients ms (fst (new_server (empty_world pos draws facts) p L h D idS));
  do w <- for_up (S (length ms)) 0 (fun i w => for_up (S (length ms)) 0 (fun j w => authenticate w i j) w) w;
  outsource_all ms 1 w.
End G.


(** what a list [vs] of reported values is, for two data sets and a temporary
    key: the roots of the combined polynomials of the buckets, whose contents
    are the padded data that belong there and fill-ins; the common elements are
    all there, and if only common elements are roots, nothing else is. *)
Definition explained (sha : list Z -> list Z) (p : Z) (L h D : nat) (al : halgo Z) (b : Z) (rawA rawB : list Z) (key : Z) (vs : list Z) : Prop :=
  let pad := num_bits p - b - 1 in
  (forall v, In v rawA -> In v rawB -> v <> 0 \/ pad = 0 -> In v vs) /\
  exists RA RB : nat -> list Z,
    (forall j, (j < L)%nat -> exists fA fB, RA j = belonging al L j (padded_data p b rawA) ++ fA /\ RB j = belonging al L j (padded_data p b rawB) ++ fB /\
       length (RA j) = h /\ length (RB j) = h /\ Forall (fun z => 0 <= z < p) (fA ++ fB)) /\
    let is_root j z := combined p (RA j) (RB j) (coeffsA sha p L D h key j) (coeffsB sha p L D h key j) z = 0 in
    (forall v, In v vs <-> (exists j, (j < L)%nat /\ 0 <= v * 2 ^ pad < p /\ is_root j (v * 2 ^ pad)) /\ (v = 0 -> pad = 0)) /\
    ((forall j v, (j < L)%nat -> 0 <= v * 2 ^ pad < p -> (v = 0 -> pad = 0) -> is_root j (v * 2 ^ pad) ->
        In v rawA /\ In v rawB /\ index_of al L (v * 2 ^ pad) = j) ->
     NoDup vs /\ forall v, In v vs <-> In v rawA /\ In v rawB /\ (v = 0 -> pad = 0)).

(** a list of requests [(helper, requester)] in which nobody asks twice, nor
    after having helped; [seen]: the members that took part already *)
Fixpoint fresh_requests (n : nat) (seen : list nat) (reqs : list (nat * nat)) : Prop :=
  match reqs with
  | [] => True
  | (a, b) :: r => (a < n)%nat /\ (b < n)%nat /\ a <> b /\ ~ In b seen /\ fresh_requests n (a :: b :: seen) r
  end.
