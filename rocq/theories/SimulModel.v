(** Model of the simulator src/test/eopsisimul.cpp: join, intersect,
    checkIntersectionCorrectness, randomData and main.  Printing, benchmarks,
    allocation failures and the final deletes are left out. *)
From Verif Require Import Base StrIntModel HashBucketsModel PolyModel EopsiModel WorldModel.

(** A pointer to an array of ZZ; [None] is the null pointer. *)
Notation zarray := (option (list Z)) (only parsing).
Definition pget (a : zarray) (i : nat) : res Z :=
  match a with None => UB NullDeref | Some l => aget l i end.

(** eopsisimul.cpp:58-80.  new ZZ[n] gives n zeros. *)
Definition join (set1 : zarray) (card1 : nat) (set2 : zarray) (card2 : nat) : res (list Z) :=
  let res0 := repeat 0 (card1 + card2) in
  (* 70-72 *)
  do res1 <- for_up card1 0 (fun i r => do v <- pget set1 i; aset r i v) res0;
  (* 75-77 *)
  for_up card2 0 (fun i r => do v <- pget set2 i; aset r (card1 + i) v) res1.

(** qsort with the comparison of 98-102.  Sorting by insertion: any other way
    of sorting gives the same array, since the comparison is 0 for equal
    numbers only.  (That qsort moves ZZ objects bytewise is taken to work.) *)
Fixpoint qinsert (x : Z) (l : list Z) : list Z :=
  match l with [] => [x] | y :: t => if x <=? y then x :: l else y :: qinsert x t end.
Definition qsort (l : list Z) : list Z := fold_right qinsert [] l.

(** eopsisimul.cpp:94-134 *)
(* 111-116: the state is the counter and tmp, an index *)
Definition count_step (lu : list Z) (i : nat) (s : nat * option nat) : res (nat * option nat) :=
  let '(card, tmp) := s in
  do a <- aget lu i; do b <- aget lu (i - 1);
  if a =? b then
    do fresh <- match tmp with None => Ok true | Some t => do c <- aget lu t; Ok (negb (a =? c)) end;
    if fresh then Ok (S card, Some i) else Ok s
  else Ok s.
(* 126-130: [for (i = 1; k < card; i++)]; [res] is the array, [k] its used
   part.  The loop reads lu[i], so it ends or leaves the array within
   length lu steps: [n] = length lu + 1 is enough. *)
Fixpoint collect (n : nat) (lu : list Z) (card i k : nat) (r : list Z) : res (list Z) :=
  match n with
  | O => NoFuel
  | S m =>
      if Nat.ltb k card then
        do a <- aget lu i; do b <- aget lu (i - 1);
        do take <- (if a =? b then (if Nat.eqb k 0 then Ok true else do c <- aget r (k - 1); Ok (negb (a =? c))) else Ok false);
        if take then do r1 <- aset r k a; collect m lu card (S i) (S k) r1
        else collect m lu card (S i) k r
      else Ok r
  end.
Definition plain_intersect (set1 : zarray) (card1 : nat) (set2 : zarray) (card2 : nat) : res (list Z * nat) :=
  do l <- join set1 card1 set2 card2;
  let lu := qsort l in
  do (card, _) <- for_up (card1 + card2 - 1) 1 (count_step lu) (0%nat, None);
  do r <- collect (S (length lu)) lu card 1 0 (repeat 0 card);
  Ok (r, card).

(** std::set<ZZ>: the elements in iteration order; insert() ignores an element
    that is there already. *)
Fixpoint set_insert (x : Z) (s : list Z) : list Z :=
  match s with
  | [] => [x]
  | y :: t => match x ?= y with Lt => x :: s | Eq => s | Gt => y :: set_insert x t end
  end.
(** operator== of std::set: same size, same elements in order *)
Fixpoint set_eqb (s t : list Z) : bool :=
  match s, t with
  | [], [] => true
  | x :: s', y :: t' => (x =? y) && set_eqb s' t'
  | _, _ => false
  end.

(** eopsisimul.cpp:137-152; the vector is never longer than LONG_MAX *)
Definition checkIntersectionCorrectness (int1 : zarray) (n : nat) (int2 : list Z) : res bool :=
  if negb (Nat.eqb n (length int2)) then Ok false else
  do (s1, s2) <- for_up n 0 (fun i s => do a <- pget int1 i; do b <- aget int2 i;
                                        Ok (set_insert a (fst s), set_insert b (snd s))) ([], []);
  Ok (set_eqb s1 s2).

Section S.
(** the value of the k-th call of NTL::RandomBits_ZZ, called with b bits *)
Variable rb : nat -> Z -> Z.

(** eopsisimul.cpp:182-184 (do ... while); returns the set and the calls so far *)
Fixpoint fill_set (fuel n : nat) (bits : Z) (k : nat) (s : list Z) : res (list Z * nat) :=
  match fuel with
  | O => NoFuel
  | S f => let s1 := set_insert (rb k bits) s in
           if Nat.ltb (length s1) n then fill_set f n bits (S k) s1 else Ok (s1, S k)
  end.
(** eopsisimul.cpp:163-191; [k]: calls of the generator so far.  RandomBits_ZZ
    takes a long. *)
Definition randomData (fuel n : nat) (bitsize : Z) (k : nat) : res (zarray * nat) :=
  match n with
  | O => Ok (None, k)
  | _ =>
      let data := repeat 0 n in
      do (s, k1) <- fill_set fuel n (s64 bitsize) k [];
      (* 186-189 *)
      do data1 <- for_up (length s) 0 (fun i d => do v <- aget s i; aset d i v) data;
      Ok (Some data1, k1)
  end.

(** The options after parsing (202-211, eopsisimul.h). *)
Record options := mkOptions { op_b : Z; op_p : Z; op_n : Z; op_r : Z; op_k : Z; op_l : Z; op_j : Z }.
Definition default_options : options := mkOptions 32 113 100000 1 10000 30 0.
(** one option letter with the value of atol(optarg); [OptHelp]: -h.
    (CmdModel: from argv to these, and what an unknown letter does.) *)
Inductive option_arg := OptB (v : Z) | OptP (v : Z) | OptN (v : Z) | OptR (v : Z) | OptK (v : Z) | OptL (v : Z) | OptJ (v : Z) | OptHelp.
(** eopsisimul.cpp:222-289; [Exit 1] also stands for the return of main with 1.
    Conversion of the long to size_t (unsigned int for j). *)
Definition parse_step (o : options) (a : option_arg) : res options :=
  match a with
  | OptB v => if v <=? 0 then Exit 1 else Ok (mkOptions (w64 v) (op_p o) (op_n o) (op_r o) (op_k o) (op_l o) (op_j o))
  | OptP v => if v <=? 0 then Exit 1 else Ok (mkOptions (op_b o) (w64 v) (op_n o) (op_r o) (op_k o) (op_l o) (op_j o))
  | OptN v => if v <=? 0 then Exit 1 else Ok (mkOptions (op_b o) (op_p o) (w64 v) (op_r o) (op_k o) (op_l o) (op_j o))
  | OptR v => if v <? 0 then Exit 1 else Ok (mkOptions (op_b o) (op_p o) (op_n o) (w64 v) (op_k o) (op_l o) (op_j o))
  | OptK v => if v <=? 0 then Exit 1 else Ok (mkOptions (op_b o) (op_p o) (op_n o) (op_r o) (w64 v) (op_l o) (op_j o))
  | OptL v => if v <=? 0 then Exit 1 else Ok (mkOptions (op_b o) (op_p o) (op_n o) (op_r o) (op_k o) (w64 v) (op_j o))
  | OptJ v => if v <? 0 then Exit 1 else Ok (mkOptions (op_b o) (op_p o) (op_n o) (op_r o) (op_k o) (op_l o) (w32 v))
  | OptHelp => Exit 1
  end.
Fixpoint parse (o : options) (l : list option_arg) : res options :=
  match l with [] => Ok o | a :: t => do o1 <- parse_step o a; parse o1 t end.
(** eopsisimul.cpp:292-299 *)
Definition check_options (o : options) : res options :=
  if op_n o <? op_r o then Exit 1 else
  if op_p o <? op_b o then Exit 1 else Ok o.

Variable sha : list Z -> list Z.
Variable rand : nat -> Z.
Variable fuel : nat.
(** the prime found by GenPrime_ZZ (330-337) *)
Variable p : Z.
Variables canzass berlekamp : nat -> poly -> list (poly * Z).
Variable hw : nat.
(** the hash function of the tables: MurmurHash3 (354) in the program *)
Variable al : halgo Z.

(** "Alice", "Bob", "Cloud", and the secrets 0x020000 and 0x010000 (357-359) *)
Definition id_alice : list Z := [65; 108; 105; 99; 101].
Definition id_bob : list Z := [66; 111; 98].
Definition id_cloud : list Z := [67; 108; 111; 117; 100].
Definition secret_alice : Z := le_val [0; 0; 2].
Definition secret_bob : Z := le_val [0; 0; 1].

(** eopsisimul.cpp:367-373: the data of Alice and Bob *)
Definition generate (n r : nat) (bits : Z) (k : nat) : res (list Z * list Z * nat) :=
  do (common, k1) <- randomData fuel r bits k;
  do (ua, k2) <- randomData fuel (n - r) bits k1;
  do da <- join common r ua (n - r);
  do (ub, k3) <- randomData fuel (n - r) bits k2;
  do db <- join common r ub (n - r);
  Ok (da, db, k3).

(** eopsisimul.cpp:193-467: returns the verdict printed (true: "correct.").
    [draws]: calls of the generator before main's own ones.  The reference is
    computed before the request is sent (418); it depends on the data only. *)
Definition simul_main (args : list option_arg) (draws : nat) : res bool :=
  do o0 <- parse default_options args;
  do o <- check_options o0;
  let n := Z.to_nat (op_n o) in let r := Z.to_nat (op_r o) in
  let L := Z.to_nat (op_k o) in let h := Z.to_nat (op_l o) in
  (* 352, a size_t *)
  let degree := Z.to_nat (w64 (2 * op_l o + 1)) in
  do (da, db, k) <- generate n r (op_b o) draws;
  do w <- simulate sha rand fuel p canzass berlekamp hw (fun i => rb i DEFAULT_KEY_BITSIZE) L h degree al (op_b o)
            id_alice id_bob id_cloud secret_alice secret_bob da db 1 0 k 0;
  do (cap, card) <- plain_intersect (Some da) n (Some db) n;
  do vs <- getIntersection w 1;
  checkIntersectionCorrectness (Some cap) card vs.
End S.
