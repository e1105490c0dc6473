(** The end of the objects: the destructor of EOPSIClient and the clean-up of
    the simulator (src/libeopsi/eopsiclient.cpp:53-60,
    src/test/eopsisimul.cpp:474-491). *)
From Verif Require Import Base NtlMiss StrIntModel HashBucketsModel PRFModel PolyModel EopsiModel WorldModel.

(** eopsiclient.cpp:53-60: delete of client [i].  The generator is the
    client's own object; its blinded data go with it.  Simplification: the
    index of the destroyed object stays in the list of parties, so the model
    also runs programs that use the object afterwards (undefined in C++); the
    theorems hold for those, too. *)
Definition destroy_client (w : world) (i : nat) : res world :=
  do P <- the_party w i; do c <- as_client P;
  release w (cl_blinded c).
(** eopsiserver.cpp:17-19 and eopsiparty.cpp:22-24: nothing; in particular the
    server does not touch the messages it has stored. *)
Definition destroy_server (w : world) (i : nat) : res world :=
  do P <- the_party w i; match pa_role P with RServer _ => Ok w | RClient _ => UB BadCast end.

(** eopsisimul.cpp:476-478 and 488: the objects and arrays that the messages
    and the parties know; [data] is the array of the request (437).  The
    program's other arrays (data sets, reference) and the hash tables are
    known to nobody else after the parties are gone. *)
Definition cleanup (w : world) (alice bob cloud : nat) (data : option nat) : res world :=
  do w1 <- destroy_client w alice;
  do w2 <- destroy_client w1 bob;
  do w3 <- destroy_server w2 cloud;
  release w3 data.

(** programs that also destroy parties *)
Inductive lop := LOp (o : op) | LDestroyClient (i : nat) | LDestroyServer (i : nat).
Section L.
Variable sha : list Z -> list Z.
Variable rand : nat -> Z.
Variable fuel : nat.
Variable p : Z.
Variables canzass berlekamp : nat -> list Z -> list (list Z * Z).
Variable hw : nat.
Variable rbits : nat -> Z.
Definition exec_life (w : world) (o : lop) : res world :=
  match o with
  | LOp o => do (w1, _) <- exec sha rand fuel p canzass berlekamp hw rbits w o; Ok w1
  | LDestroyClient i => destroy_client w i
  | LDestroyServer i => destroy_server w i
  end.
Fixpoint life_all (w : world) (l : list lop) : res world :=
  match l with [] => Ok w | o :: t => do w1 <- exec_life w o; life_all w1 t end.
End L.
