(** Programs with several hash tables and several clients, where a table may be
    handed to more than one client: EOPSIClient keeps a reference to the table
    it is constructed with (eopsiclient.cpp:32-47, line 36
    [this->hashBuckets = &hashBuckets]), and the caller keeps the table too.
    The only function of a client that changes the table is blind() (lines
    361-372), reached by setRawData (245-254). *)
From Verif Require Import Base HashBucketsModel PRFModel EopsiModel WorldModel.

(** a client, as far as setRawData is concerned; [me_table] is the number of
    the table object it refers to (eopsiclient.h, the members hashBuckets,
    secret, zzpprf, blindedData; [me_core] are the members of EOPSIParty).
    rawData and rawDataSize, which blind() only reads, are not kept. *)
Record member := mkMember {
  me_table : nat; me_core : core; me_secret : Z; me_zp : zpprf; me_blinded : option matrix
}.
(** the tables, the clients, and how many numbers rand() has delivered *)
Record pool := mkPool { po_tables : list (hb Z); po_members : list member; po_rand : nat }.
Definition put_table (s : pool) (t : nat) (h : hb Z) : pool := mkPool (upd (po_tables s) t h) (po_members s) (po_rand s).
Definition put_member (s : pool) (i : nat) (m : member) : pool := mkPool (po_tables s) (upd (po_members s) i m) (po_rand s).

(** What the program does.  A table or client that does not exist is a
    dangling reference. *)
(** [Other]: anything else a client does - receive(), computing t or q, an
    intersection - can change its part of EOPSIParty and its generator, to
    whatever values, but not its secret, its table or anything of another
    client (eopsiclient.cpp:64-243, 452-570). *)
Inductive pcall :=
| NewTable (k maxLoad : nat) (al : halgo Z)                                     (* hashbuckets.hpp:78-90 *)
| TableAdd (t : nat) (e : Z)                                                    (* hashbuckets.hpp:123-144 *)
| TableAddTo (t : nat) (e : Z) (j : nat)                                        (* hashbuckets.hpp:147-154 *)
| NewMember (t : nat) (fieldsize : Z) (length height degree : nat) (secret : Z) (* eopsiclient.cpp:32-47 *)
| SetSecret (i : nat) (secret : Z)                                              (* eopsiclient.cpp:287-289 *)
| SetDegree (i : nat) (d : nat)                                                 (* eopsiparty.cpp:158-160 *)
| SetField (i : nat) (f : Z)                                                    (* eopsiparty.cpp:147-150 *)
| Load (i : nat) (raw : option (list Z)) (size : nat) (bits : Z) (nThreads : nat) (* eopsiclient.cpp:245-254 *)
| Other (i : nat) (c : core) (z : zpprf).

Section P.
Variable sha : list Z -> list Z.
Variable rand : nat -> Z.
Variable fuel : nat.
Variable p : Z.
Variable hw : nat.

Definition the_table (s : pool) (t : nat) : res (hb Z) := match nth_error (po_tables s) t with Some h => Ok h | None => UB Dangling end.
Definition the_member (s : pool) (i : nat) : res member := match nth_error (po_members s) i with Some m => Ok m | None => UB Dangling end.
Definition pstep (s : pool) (c : pcall) : res pool :=
  match c with
  | NewTable k ml al => do h <- new_hb k ml (Some al); Ok (mkPool (po_tables s ++ [h]) (po_members s) (po_rand s))
  | TableAdd t e => do h <- the_table s t; do h1 <- hb_add h e; Ok (put_table s t h1)
  | TableAddTo t e j => do h <- the_table s t; do h1 <- addToBucket h e j; Ok (put_table s t h1)
  | NewMember t f L h D secret =>
      do _ <- the_table s t;
      Ok (mkPool (po_tables s) (po_members s ++ [mkMember t (new_core f L h D 0) secret (new_zpprf f 0) None]) (po_rand s))
  | SetSecret i x => do m <- the_member s i;
      Ok (put_member s i (mkMember (me_table m) (me_core m) x (me_zp m) (me_blinded m)))
  | SetDegree i d => do m <- the_member s i;
      Ok (put_member s i (mkMember (me_table m) (setDegree (me_core m) d) (me_secret m) (me_zp m) (me_blinded m)))
  | SetField i f => do m <- the_member s i;
      Ok (put_member s i (mkMember (me_table m) (setFieldsize (me_core m) f) (me_secret m) (me_zp m) (me_blinded m)))
  | Other i c z => do m <- the_member s i;
      Ok (put_member s i (mkMember (me_table m) c (me_secret m) z (me_blinded m)))
  | Load i raw size bits nThreads => do m <- the_member s i;
      match raw, size with
      | None, _ | _, O => Ok s
      | Some raw, _ =>
          do h <- the_table s (me_table m);
          do (core1, h1, zp1, bl) <- blind sha rand fuel p hw (me_core m) (me_secret m) raw size (Some bits) h
                                       (at_rand (me_zp m) (po_rand s)) nThreads;
          Ok (mkPool (upd (po_tables s) (me_table m) h1)
                (upd (po_members s) i (mkMember (me_table m) core1 (me_secret m) zp1 (Some bl))) (p_pos (zp_prf zp1)))
      end
  end.
Fixpoint prun (s : pool) (l : list pcall) : res pool :=
  match l with [] => Ok s | c :: t => do s1 <- pstep s c; prun s1 t end.
Definition no_objects (pos : nat) : pool := mkPool [] [] pos.
End P.
