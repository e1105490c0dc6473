(** The arrays behind StrInt, HashBuckets and ZZpPolynomials: which calls
    allocate and release them (src/libeopsi/strint.cpp, hashbuckets.hpp,
    zzppoly.cpp), and the copy operations the compiler supplies for these
    classes (they declare a destructor, but no copy constructor and no
    assignment: the pointers are copied).

    Only storage is modelled here; what the calls compute is in StrIntModel,
    HashBucketsModel and PolyModel.  The one content kept is that of the
    buckets, because copies share it.  Simplifications: allocations succeed;
    the limbs of the GMP numbers themselves are left out (mpz_clear of shared
    limbs would be one more double release); the members b and pow2 of the
    StrInt behind a table never change after its constructor, so they are
    written next to the pointer to it. *)
From Verif Require Import Base.

(** an array made by new or new[], with the contents of its cells (used for
    buckets only), or a released one *)
Inductive block := Live (cells : list (list Z)) | Gone.
Notation addr := nat (only parsing).

(** the members that hold pointers: strint.h:29-33; hashtable.hpp:29,
    hashbuckets.hpp:32-33 ([strint]: the object and its arrays b, pow2);
    zzppoly.h:37-40.  [ODead]: the destructor has run. *)
Inductive obj :=
| OStr (b pow2 : addr)
| OTable (buckets : addr) (strint : option (addr * addr * addr)) (maxLoad : nat)
| OPoly (polys fact : option addr) (n : nat)
| ODead.
Record store := mkStore { s_heap : list block; s_objs : list obj }.

Definition alloc (h : list block) (len : nat) : list block * addr := (h ++ [Live (repeat [] len)], length h).
(** delete and delete[] *)
Definition free (h : list block) (a : addr) : res (list block) :=
  match nth_error h a with Some (Live _) => Ok (upd h a Gone) | _ => UB Dangling end.
Definition free_opt (h : list block) (a : option addr) : res (list block) :=
  match a with None => Ok h | Some a => free h a end.
(** using the first [n] cells of an array *)
Definition cells_at (h : list block) (a : addr) : res (list (list Z)) :=
  match nth_error h a with Some (Live c) => Ok c | _ => UB Dangling end.
Definition use (h : list block) (a : addr) (n : nat) : res unit :=
  do c <- cells_at h a; if Nat.leb n (length c) then Ok tt else UB OutOfBounds.
Definition use_opt (h : list block) (a : option addr) (n : nat) : res unit :=
  match a with None => if Nat.eqb n 0 then Ok tt else UB NullDeref | Some a => if Nat.eqb n 0 then Ok tt else use h a n end.

Definition the_obj (s : store) (i : nat) : res obj :=
  match nth_error (s_objs s) i with Some ODead | None => UB Dangling | Some o => Ok o end.
Definition put (s : store) (h : list block) (i : nat) (o : obj) : store := mkStore h (upd (s_objs s) i o).
Definition add_obj (s : store) (h : list block) (o : obj) : store := mkStore h (s_objs s ++ [o]).

(** strint.cpp:14-24: the two arrays; [bytes] = 0 counts as 1 *)
Definition new_str (h : list block) (bytes : nat) : list block * (addr * addr) :=
  let n := match bytes with O => 1%nat | _ => bytes end in
  let '(h1, b) := alloc h n in let '(h2, p) := alloc h1 n in (h2, (b, p)).
(** strint.cpp:62-73 *)
Definition destroy_str (h : list block) (b pow2 : addr) : res (list block) :=
  do h1 <- free h b; free h1 pow2.
(** hashbuckets.hpp:113-119: new StrInt(hashSize()); the old pointer is overwritten *)
Definition set_algo (h : list block) (old : option (addr * addr * addr)) (algo : option nat) : list block * option (addr * addr * addr) :=
  match algo with
  | None => (h, old)
  | Some size => let '(h1, s) := alloc h 1 in let '(h2, (b, p)) := new_str h1 size in (h2, Some (s, b, p))
  end.
(** hashbuckets.hpp:99-104; delete reads the members of the StrInt *)
Definition destroy_table (h : list block) (buckets : addr) (st : option (addr * addr * addr)) : res (list block) :=
  do h1 <- free h buckets;
  match st with
  | None => Ok h1
  | Some (s, b, p) => do _ <- cells_at h1 s; do h2 <- destroy_str h1 b p; free h2 s
  end.
(** zzppoly.cpp:23-31 *)
Definition destroy_poly (h : list block) (polys fact : option addr) : res (list block) :=
  do h1 <- free_opt h polys; free_opt h1 fact.

(** hashbuckets.hpp:123-144; [hv] is the hash value of [e] *)
Definition table_add (h : list block) (buckets : addr) (st : option (addr * addr * addr)) (maxLoad : nat) (e : Z) (hv : nat) : res (list block) :=
  do index <- match st with
              | None => Ok 0%nat
              | Some (s, b, p) =>
                  do _ <- use h s 1; do _ <- use h b 1; do _ <- use h p 1; do c <- cells_at h buckets;
                  if Nat.eqb (length c) 0 then Abort else Ok (hv mod length c)%nat
              end;
  do c <- cells_at h buckets;
  do items <- aget c index;
  if match st with None => false | Some _ => Nat.eqb (length items) maxLoad end then Exit 1 else
  Ok (upd h buckets (Live (upd c index (items ++ [e])))).

(** zzppoly.cpp:65-89 *)
Definition interp (h : list block) (polys fact : option addr) (n0 n : nat) : res (list block * obj) :=
  do (h1, ps) <- (if Nat.eqb n0 n then Ok (h, polys)
                  else do h1 <- free_opt h polys; let '(h2, a) := alloc h1 n in Ok (h2, Some a));
  do _ <- use_opt h1 ps n;
  Ok (h1, OPoly ps fact n).
(** zzppoly.cpp:92-132 *)
Definition factorise (h : list block) (polys fact : option addr) (n : nat) : res (list block * obj) :=
  match polys with
  | None => Ok (h, OPoly polys fact n)
  | Some _ =>
      do h1 <- free_opt h fact;
      let '(h2, a) := alloc h1 n in
      do _ <- use_opt h2 polys n;
      Ok (h2, OPoly polys (Some a) n)
  end.
(** zzppoly.cpp:135-160 *)
Definition find (h : list block) (fact : option addr) (n : nat) : res unit :=
  match fact with None => Ok tt | Some _ => use_opt h fact n end.
(** zzppoly.cpp:163-242 *)
Definition find_all (h : list block) (polys fact : option addr) (n0 n : nat) : res (list block * obj) :=
  do (h1, ps, fs) <- (if Nat.eqb n0 n then Ok (h, polys, fact)
                      else do h1 <- free_opt h polys; do h2 <- free_opt h1 fact;
                           let '(h3, a) := alloc h2 n in let '(h4, c) := alloc h3 n in Ok (h4, Some a, Some c));
  do _ <- use_opt h1 ps n;
  do _ <- use_opt h1 fs n;
  Ok (h1, OPoly ps fs n).

(** The calls a program makes.  Objects are numbered in the order of their
    construction (copies included). *)
Inductive call :=
| CNewStr (bytes : nat)                           (* strint.cpp:12-59 *)
| CNewTable (length maxLoad : nat) (algo : option nat)    (* hashbuckets.hpp:78-96; [algo]: the hashSize of the algorithm *)
| CNewPoly                                        (* zzppoly.cpp:14-20 *)
| CUseStr (i : nat)                               (* any of strint.cpp:76-174 *)
| CSetAlgo (i : nat) (algo : option nat)          (* hashbuckets.hpp:107-120 *)
| CAdd (i : nat) (e : Z) (hv : nat)               (* hashbuckets.hpp:123-144 *)
| CInterpolate (i n : nat) | CFactorise (i : nat) | CFind (i : nat) | CFindAll (i n : nat)
| CCopy (i : nat)                                 (* T x(y), or passing y by value *)
| CAssign (i j : nat)                             (* x = y *)
| CDestroy (i : nat).

(** the implicit assignment of objects of one class *)
Definition same_class (o o' : obj) : bool :=
  match o, o' with OStr _ _, OStr _ _ | OTable _ _ _, OTable _ _ _ | OPoly _ _ _, OPoly _ _ _ => true | _, _ => false end.

Definition exec (s : store) (c : call) : res store :=
  let h := s_heap s in
  match c with
  | CNewStr bytes => let '(h1, (b, p)) := new_str h bytes in Ok (add_obj s h1 (OStr b p))
  | CNewTable len ml algo =>
      let '(h1, st) := set_algo h None algo in let '(h2, a) := alloc h1 len in Ok (add_obj s h2 (OTable a st ml))
  | CNewPoly => Ok (add_obj s h (OPoly None None 0))
  | CUseStr i => do o <- the_obj s i; match o with OStr b p => do _ <- use h b 1; do _ <- use h p 1; Ok s | _ => UB BadCast end
  | CSetAlgo i algo => do o <- the_obj s i;
      match o with OTable a st ml => let '(h1, st1) := set_algo h st algo in Ok (put s h1 i (OTable a st1 ml)) | _ => UB BadCast end
  | CAdd i e hv => do o <- the_obj s i;
      match o with OTable a st ml => do h1 <- table_add h a st ml e hv; Ok (mkStore h1 (s_objs s)) | _ => UB BadCast end
  | CInterpolate i n => do o <- the_obj s i;
      match o with OPoly ps fs n0 => do (h1, o1) <- interp h ps fs n0 n; Ok (put s h1 i o1) | _ => UB BadCast end
  | CFactorise i => do o <- the_obj s i;
      match o with OPoly ps fs n0 => do (h1, o1) <- factorise h ps fs n0; Ok (put s h1 i o1) | _ => UB BadCast end
  | CFind i => do o <- the_obj s i; match o with OPoly _ fs n0 => do _ <- find h fs n0; Ok s | _ => UB BadCast end
  | CFindAll i n => do o <- the_obj s i;
      match o with OPoly ps fs n0 => do (h1, o1) <- find_all h ps fs n0 n; Ok (put s h1 i o1) | _ => UB BadCast end
  | CCopy i => do o <- the_obj s i; Ok (add_obj s h o)
  | CAssign i j => do o <- the_obj s i; do o' <- the_obj s j; if same_class o o' then Ok (put s h i o') else UB BadCast
  | CDestroy i => do o <- the_obj s i;
      do h1 <- match o with
               | OStr b p => destroy_str h b p
               | OTable a st _ => destroy_table h a st
               | OPoly ps fs _ => destroy_poly h ps fs
               | ODead => UB Dangling
               end;
      Ok (put s h1 i ODead)
  end.
Fixpoint exec_all (s : store) (l : list call) : res store :=
  match l with [] => Ok s | c :: t => do s1 <- exec s c; exec_all s1 t end.
(** the program starts without objects *)
Definition start : store := mkStore [] [].

(** hashtable.hpp:78-80 *)
Definition bucket (s : store) (i j : nat) : res (list Z) :=
  do o <- the_obj s i;
  match o with
  | OTable a _ _ => do c <- cells_at (s_heap s) a; if Nat.ltb j (length c) then aget c j else Exit 1
  | _ => UB BadCast
  end.
