(** Model of src/libeopsi/hashbuckets.hpp, hashtable.hpp, markedvector.hpp and
    of the exception classes they use. *)
From Verif Require Import Base StrIntModel.

(** exception.cpp:11-18,55-60: constructing an exception with fatal = true
    calls exit(exitCode) inside the constructor. [None] = it was constructed
    normally (and may then be thrown and caught). *)
Definition exception_ctor (fatal : bool) (code : Z) : option Z :=
  if fatal then Some code else None.
(** outofboundex.cpp:11-20: base constructor non-fatal with code 1, then
    setFatal and handleFatality again. *)
Definition outofbound_ctor (fatal : bool) : option Z :=
  match exception_ctor false 1 with
  | Some c => Some c
  | None => exception_ctor fatal 1
  end.

(** hashalgorithm.hpp:22-44: the digest buffer returned by hash(n) and
    hashSize().  Only deterministic algorithms are representable; see
    MurmurModel for the algorithm that is not. *)
Record halgo (T : Type) := mkHalgo { ha_hash : T -> list Z; ha_size : nat }.
Arguments mkHalgo {T}. Arguments ha_hash {T}. Arguments ha_size {T}.

(** markedvector.hpp:17-28 *)
Record mvec (T : Type) := mkMvec { mv_items : list T; mv_marked : bool }.
Arguments mkMvec {T}. Arguments mv_items {T}. Arguments mv_marked {T}.

(** hashtable.hpp:26-30 and hashbuckets.hpp:31-33 *)
Record hb (T : Type) := mkHb {
  hb_n : Z;
  hb_k : nat;
  hb_maxload : nat;
  hb_buckets : list (mvec T);
  hb_algo : option (halgo T);
  hb_strint : option strint
}.
Arguments mkHb {T}. Arguments hb_n {T}. Arguments hb_k {T}. Arguments hb_maxload {T}.
Arguments hb_buckets {T}. Arguments hb_algo {T}. Arguments hb_strint {T}.

Section HB.
Context {T : Type}.

Definition with_buckets (h : hb T) (bs : list (mvec T)) : hb T :=
  mkHb (hb_n h) (hb_k h) (hb_maxload h) bs (hb_algo h) (hb_strint h).

(** hashbuckets.hpp:107-120 (a null algorithm only prints a warning) *)
Definition setHashAlgorithm (h : hb T) (a : option (halgo T)) : res (hb T) :=
  match a with
  | None => Ok h
  | Some al =>
      do s <- new_strint (ha_size al) None 0;
      Ok (mkHb (hb_n h) (hb_k h) (hb_maxload h) (hb_buckets h) (Some al) (Some s))
  end.

(** hashbuckets.hpp:78-96; reserve() has no observable effect. *)
Definition new_hb (length maxLoad : nat) (a : option (halgo T)) : res (hb T) :=
  do h <- setHashAlgorithm (mkHb 0 length maxLoad [] None None) a;
  Ok (with_buckets h (repeat (mkMvec [] false) length)).

(** std::vector::push_back on bucket [i]; an index outside the array is UB *)
Definition push_at (bs : list (mvec T)) (i : nat) (e : T) : res (list (mvec T)) :=
  do b <- aget bs i;
  aset bs i (mkMvec (mv_items b ++ [e]) (mv_marked b)).

(** the FATAL OutOfBoundException of lines 134, 152 and hashtable.hpp:79:
    its construction exits. *)
Definition throw_oob {A} : res A :=
  match outofbound_ctor true with Some c => Exit c | None => NoFuel end.

(** hashbuckets.hpp:123-144 *)
Definition hb_add (h : hb T) (e : T) : res (hb T) :=
  match hb_strint h with
  | Some s =>
      match hb_algo h with
      | None => UB NullDeref
      | Some al =>
          do s1 <- set_bytes s (ha_hash al e) (ha_size al);
          do index <- rem s1 (Z.of_nat (hb_k h));
          let i := Z.to_nat index in
          do b <- aget (hb_buckets h) i;
          if Nat.eqb (length (mv_items b)) (hb_maxload h) then throw_oob
          else
            do bs <- push_at (hb_buckets h) i e;
            Ok (mkHb (hb_n h) (hb_k h) (hb_maxload h) bs (hb_algo h) (Some s1))
      end
  | None =>
      do bs <- push_at (hb_buckets h) 0 e;
      Ok (with_buckets h bs)
  end.

(** hashtable.hpp:58-62: [list] is the array, [dim] the number of elements
    to add *)
Definition hb_add_list (h : hb T) (l : list T) (dim : nat) : res (hb T) :=
  for_up dim 0 (fun i h => do e <- aget l i; hb_add h e) h.

(** hashbuckets.hpp:147-154 *)
Definition addToBucket (h : hb T) (e : T) (i : nat) : res (hb T) :=
  if Nat.ltb i (hb_k h) then
    do bs <- push_at (hb_buckets h) i e; Ok (with_buckets h bs)
  else throw_oob.

(** hashbuckets.hpp:157-171.  [gen] is pr.generate() as a state transformer. *)
Section Conceal.
Context {G : Type}.
Variable gen : G -> T * G.

(** lines 167-169 *)
Fixpoint fill (n : nat) (items : list T) (g : G) : list T * G :=
  match n with
  | O => (items, g)
  | S m => let '(x, g1) := gen g in fill m (items ++ [x]) g1
  end.

(** lines 161-170, body for bucket i *)
Definition conceal_bucket (maxLoad : nat) (b : mvec T) (g : G) : mvec T * G :=
  let marked := match mv_items b with [] => true | _ => mv_marked b end in
  let '(items, g1) := fill (maxLoad - length (mv_items b)) (mv_items b) g in
  (mkMvec items marked, g1).

Definition conceal (h : hb T) (g : G) : res (hb T * G) :=
  do (bs, g1) <-
    for_up (hb_k h) 0 (fun i '(bs, g) =>
      do b <- aget bs i;
      let '(b1, g1) := conceal_bucket (hb_maxload h) b g in
      do bs1 <- aset bs i b1;
      Ok (bs1, g1)) (hb_buckets h, g);
  Ok (with_buckets h bs, g1).
End Conceal.

(** hashtable.hpp:69-71 *)
Definition hb_size (h : hb T) : Z := hb_n h.
(** hashbuckets.hpp:174-181 *)
Definition getLength (h : hb T) : nat := hb_k h.
Definition getMaxLoad (h : hb T) : nat := hb_maxload h.
(** hashtable.hpp:78-80 and 96-98 *)
Definition getBucket (h : hb T) (i : nat) : res (mvec T) :=
  if Nat.ltb i (hb_k h) then aget (hb_buckets h) i else throw_oob.

(** API histories: any sequence of the public mutators of the class
    (hashbuckets.hpp:56-66, hashtable.hpp:41-62). *)
Inductive top :=
| TAdd (e : T) | TAddTo (e : T) (i : nat) | TAddList (l : list T) (dim : nat)
| TConceal | TSetAlgo (a : option (halgo T)).
Definition apply_top {G} (gen : G -> T * G) (st : hb T * G) (o : top) : res (hb T * G) :=
  let '(h, g) := st in
  match o with
  | TAdd e => do h1 <- hb_add h e; Ok (h1, g)
  | TAddTo e i => do h1 <- addToBucket h e i; Ok (h1, g)
  | TAddList l dim => do h1 <- hb_add_list h l dim; Ok (h1, g)
  | TConceal => conceal gen h g
  | TSetAlgo a => do h1 <- setHashAlgorithm h a; Ok (h1, g)
  end.
Fixpoint run_table {G} (gen : G -> T * G) (st : hb T * G) (l : list top) : res (hb T * G) :=
  match l with [] => Ok st | o :: t => do st1 <- apply_top gen st o; run_table gen st1 t end.

(** hashbuckets.hpp:188-201: the integer part of printStats: total, minimum
    (value, bucket), maximum (value, bucket).  The figures computed
    with doubles and the listing are in FilesModel. *)
Record stats := mkStats { st_total : nat; st_min : nat; st_minb : nat; st_max : nat; st_maxb : nat }.
Definition stats_step (bs : list (mvec T)) (i : nat) (s : stats) : res stats :=
  do b <- aget bs i;
  let n := length (mv_items b) in
  let '(mn, mnb) := if Nat.ltb n (st_min s) then (n, i) else (st_min s, st_minb s) in
  let '(mx, mxb) := if Nat.ltb (st_max s) n then (n, i) else (st_max s, st_maxb s) in
  Ok (mkStats (st_total s + n) mn mnb mx mxb).
Definition print_stats (h : hb T) : res stats :=
  do b0 <- aget (hb_buckets h) 0;
  let n0 := length (mv_items b0) in
  for_up (hb_k h - 1) 1 (stats_step (hb_buckets h)) (mkStats n0 n0 0 n0 0).
End HB.
