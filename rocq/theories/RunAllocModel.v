(** A whole run of the protocol as src/test/eopsisimul.cpp:347-530 makes it,
    when memory runs out: the two tables, the data of both clients, and one
    intersection.

    Simplifications: as in AllocModel, BlindAllocModel and AskAllocModel, whose
    definitions it puts together; the parties' objects, the identifiers, the
    random data and the messages are left out, and so is the plain
    intersection the program compares with.  [posA], [posB]: how much of its
    keystream the generator of each client has used. *)
From Verif Require Import Base StrIntModel HashBucketsModel PRFModel PolyModel EopsiModel AllocModel BlindAllocModel AskAllocModel.

(** eopsisimul.cpp:348-359: std::bad_alloc ends the process with code 1;
    nothing else is caught *)
Definition in_setup {A B} (o : out A unit) (f : mem -> A -> out B unit) : out B unit :=
  match o with
  | Done m a => f m a
  | Thrown _ BadAlloc _ => Stop (Exit 1)
  | Thrown _ LengthError _ => Stop Abort
  | Stop r => Stop r
  end.
(** an exception that nothing catches: std::terminate *)
Definition uncaught {A B E} (o : out A E) (f : mem -> A -> out B unit) : out B unit :=
  match o with
  | Done m a => f m a
  | Thrown _ _ _ => Stop Abort
  | Stop r => Stop r
  end.

(** eopsisimul.cpp:350-351 (the tables), 352-353 (the clients), 388-390 (the
    data), 402-404 (the matrices, no message has a null pointer) and the
    request from 437 on *)
Definition a_protocol sha rand fuel p canzass berlekamp ok pol L h D al b rawA rawB sA sB key posA posB k0 m : out (option (list Z)) unit :=
  in_setup (a_new ok pol m L h (Some al)) (fun m1 tA =>
  in_setup (a_new ok pol m1 L h (Some al)) (fun m2 tB =>
  uncaught (a_setRawData sha rand fuel p ok pol m2 (mkAclient (new_core p L h D 0) sA None tA (new_zpprf p posA) None) (Some rawA) (length rawA) b) (fun m3 kA =>
  uncaught (a_setRawData sha rand fuel p ok pol m3 (mkAclient (new_core p L h D 0) sB None tB (new_zpprf p posB) None) (Some rawB) (length rawB) b) (fun m4 kB =>
  match ac_blinded kA, ac_blinded kB with
  | Some mA, Some mB =>
      uncaught (a_request sha rand fuel p canzass berlekamp ok m4 (new_core p L h D 0)
                  (mkRequest (ac_core kA) (ac_zp kA) sA (ac_core kB) sB b key mA mB k0)) (fun m5 '(_, _, _, y) =>
      Done m5 (option_map snd y))
  | _, _ => Stop (UB NullDeref)
  end)))).
