(** HashBuckets when memory runs out (src/libeopsi/hashbuckets.hpp,
    strint.cpp, markedvector.hpp).

    Whether an allocation succeeds is decided by a function [ok] on the number
    of the attempt, so that the failures can come at any points.  Some
    allocations of the library are inside try/catch blocks that end with
    exit(2); those of std::vector are not, and their exceptions reach the
    caller.  The tables themselves are those of HashBucketsModel, with the
    capacity of every bucket added.

    Simplifications: the allocations of GMP and NTL (numbers, limbs), of the
    hash algorithm and of message texts are left out; an array of an
    impossible length is one more failing allocation; sizes that
    std::vector chooses when it grows are a parameter. *)
From Verif Require Import Base StrIntModel HashBucketsModel.

(** std::bad_alloc and std::length_error *)
Inductive exn := BadAlloc | LengthError.

(** [m_tries]: allocations tried so far; [m_live]: allocations not released *)
Record mem := mkMem { m_tries : nat; m_live : Z }.

(** a call returns, or an exception leaves it (with the object, if there is
    one, as it is then), or the process ends *)
Inductive out (A E : Type) :=
| Done (m : mem) (a : A)
| Thrown (m : mem) (x : exn) (e : E)
| Stop (r : res unit).
Arguments Done {A E}. Arguments Thrown {A E}. Arguments Stop {A E}.

(** std::vector of the platform: max_size(), and the capacity push_back
    gives to a full vector of capacity c *)
Record policy := mkPolicy { p_max : Z; p_grow : Z -> Z }.

Section Alloc.
Context {T : Type}.
Variable ok : nat -> bool.
Variable pol : policy.

Record atable := mkAt { at_hb : hb T; at_caps : list Z }.

Definition tried (m : mem) (d : Z) : mem := mkMem (S (m_tries m)) (m_live m + d).

(** an outcome of HashBucketsModel inside a call *)
Definition run_res {A B E} (r : res A) (f : A -> out B E) : out B E :=
  match r with
  | Ok a => f a
  | Exit c => Stop (Exit c)
  | UB w => Stop (UB w)
  | Abort => Stop Abort
  | NoFuel => Stop NoFuel
  end.

(** new inside try { } catch (std::bad_alloc) { exit(2); } *)
Definition guarded {B E} (m : mem) (f : mem -> out B E) : out B E :=
  if ok (m_tries m) then f (tried m 1) else Stop (Exit 2).

(** the storage of a vector for [n] elements: [inl] of the memory after *)
Definition vec_new (m : mem) (n : Z) : mem + (mem * exn) :=
  if p_max pol <? n then inr (m, LengthError)
  else if ok (m_tries m) then inl (tried m 1) else inr (tried m 0, BadAlloc).

(** hashbuckets.hpp:107-120: one object, its arrays b and pow2 (strint.cpp:23-24)
    and the array zero (48), which is released again (57); the previous
    object is not released *)
Definition a_setAlgo (m : mem) (t : atable) (a : option (halgo T)) : out atable atable :=
  match a with
  | None => Done m t
  | Some _ =>
      guarded m (fun m1 => guarded m1 (fun m2 => guarded m2 (fun m3 => guarded m3 (fun m4 =>
      run_res (setHashAlgorithm (at_hb t) a) (fun h =>
      Done (mkMem (m_tries m4) (m_live m4 - 1)) (mkAt h (at_caps t)))))))
  end.

(** hashbuckets.hpp:94: 1 + 3 * maxLoad / 4 in size_t *)
Definition reserved (maxLoad : nat) : Z := w64 (1 + w64 (3 * Z.of_nat maxLoad) / 4).
(** hashbuckets.hpp:92-95: reserve() on [n] more buckets *)
Fixpoint a_reserve (n : nat) (m : mem) (t : atable) : out atable unit :=
  match n with
  | O => Done m t
  | S n1 =>
      let r := reserved (hb_maxload (at_hb t)) in
      match vec_new m r with
      | inl m1 => a_reserve n1 m1 (mkAt (at_hb t) (at_caps t ++ [r]))
      | inr (m1, x) => Thrown m1 x tt
      end
  end.
(** hashbuckets.hpp:78-96.  An exception that leaves the constructor takes
    nothing back: the destructor does not run. *)
Definition a_new (m : mem) (length maxLoad : nat) (a : option (halgo T)) : out atable unit :=
  match a_setAlgo m (mkAt (mkHb 0 length maxLoad [] None None) []) a with
  | Done m1 t =>
      guarded m1 (fun m2 =>
      a_reserve length m2 (mkAt (with_buckets (at_hb t) (repeat (mkMvec [] false) length)) []))
  | Thrown m1 x _ => Thrown m1 x tt
  | Stop r => Stop r
  end.

(** std::vector::push_back on bucket [i]: nothing changes if it throws *)
Definition a_push (m : mem) (t : atable) (i : nat) (e : T) : out atable atable :=
  run_res (aget (hb_buckets (at_hb t)) i) (fun b =>
  run_res (aget (at_caps t) i) (fun cap =>
  run_res (push_at (hb_buckets (at_hb t)) i e) (fun bs =>
  let h := with_buckets (at_hb t) bs in
  if Z.of_nat (length (mv_items b)) <? cap then Done m (mkAt h (at_caps t))
  else if p_max pol <=? cap then Thrown m LengthError t
  else match vec_new m (p_grow pol cap) with
       | inl m1 => Done (mkMem (m_tries m1) (m_live m1 - 1)) (mkAt h (upd (at_caps t) i (p_grow pol cap)))
       | inr (m1, x) => Thrown m1 x t
       end))).

(** hashbuckets.hpp:123-144; the number object has been set to the digest
    when push_back throws *)
Definition a_add (m : mem) (t : atable) (e : T) : out atable atable :=
  let h := at_hb t in
  match hb_strint h with
  | Some s =>
      match hb_algo h with
      | None => Stop (UB NullDeref)
      | Some al =>
          run_res (set_bytes s (ha_hash al e) (ha_size al)) (fun s1 =>
          run_res (rem s1 (Z.of_nat (hb_k h))) (fun index =>
          let i := Z.to_nat index in
          run_res (aget (hb_buckets h) i) (fun b =>
          if Nat.eqb (length (mv_items b)) (hb_maxload h) then run_res (@throw_oob unit) (fun _ => Stop NoFuel)
          else a_push m (mkAt (mkHb (hb_n h) (hb_k h) (hb_maxload h) (hb_buckets h) (hb_algo h) (Some s1)) (at_caps t)) i e)))
      end
  | None => a_push m t 0 e
  end.

(** hashtable.hpp:58-62: [n] elements from index [i] on *)
Fixpoint a_addList (n i : nat) (l : list T) (m : mem) (t : atable) : out atable atable :=
  match n with
  | O => Done m t
  | S n1 => run_res (aget l i) (fun e =>
            match a_add m t e with
            | Done m1 t1 => a_addList n1 (S i) l m1 t1
            | Thrown m1 x t1 => Thrown m1 x t1
            | Stop r => Stop r
            end)
  end.

(** hashbuckets.hpp:147-154 *)
Definition a_addTo (m : mem) (t : atable) (e : T) (i : nat) : out atable atable :=
  if Nat.ltb i (hb_k (at_hb t)) then a_push m t i e else run_res (@throw_oob unit) (fun _ => Stop NoFuel).

(** hashbuckets.hpp:157-171; the random number is drawn before push_back *)
Section AConceal.
Context {G : Type}.
Variable gen : G -> T * G.
Fixpoint a_fill (n : nat) (m : mem) (t : atable) (i : nat) (g : G) : out (atable * G) (atable * G) :=
  match n with
  | O => Done m (t, g)
  | S n1 => let '(x, g1) := gen g in
            match a_push m t i x with
            | Done m1 t1 => a_fill n1 m1 t1 i g1
            | Thrown m1 y t1 => Thrown m1 y (t1, g1)
            | Stop r => Stop r
            end
  end.
Definition mark_empty (b : mvec T) : mvec T :=
  match mv_items b with [] => mkMvec [] true | _ => b end.
Fixpoint a_concealFrom (n i : nat) (m : mem) (t : atable) (g : G) : out (atable * G) (atable * G) :=
  match n with
  | O => Done m (t, g)
  | S n1 =>
      run_res (aget (hb_buckets (at_hb t)) i) (fun b =>
      let t1 := mkAt (with_buckets (at_hb t) (upd (hb_buckets (at_hb t)) i (mark_empty b))) (at_caps t) in
      match a_fill (hb_maxload (at_hb t) - length (mv_items b)) m t1 i g with
      | Done m1 (t2, g1) => a_concealFrom n1 (S i) m1 t2 g1
      | Thrown m1 x s => Thrown m1 x s
      | Stop r => Stop r
      end)
  end.
Definition a_conceal (m : mem) (t : atable) (g : G) : out (atable * G) (atable * G) :=
  a_concealFrom (hb_k (at_hb t)) 0 m t g.

Definition with_gen (o : out atable atable) (g : G) : out (atable * G) (atable * G) :=
  match o with
  | Done m t => Done m (t, g)
  | Thrown m x t => Thrown m x (t, g)
  | Stop r => Stop r
  end.

(** one call (HashBucketsModel.top: any public mutator) *)
Definition a_call (m : mem) (t : atable) (g : G) (o : @top T) : out (atable * G) (atable * G) :=
  match o with
  | TAdd e => with_gen (a_add m t e) g
  | TAddTo e i => with_gen (a_addTo m t e i) g
  | TAddList l dim => with_gen (a_addList dim 0 l m t) g
  | TConceal => a_conceal m t g
  | TSetAlgo a => with_gen (a_setAlgo m t a) g
  end.

(** a caller that catches every exception and goes on: the state at the end
    (or the way the process ended) and, for every call made, what was thrown *)
Fixpoint a_run (m : mem) (t : atable) (g : G) (l : list (@top T))
  : (mem * (atable * G) + res unit) * list (option exn) :=
  match l with
  | [] => (inl (m, (t, g)), [])
  | o :: l1 =>
      match a_call m t g o with
      | Done m1 (t1, g1) => let '(r, log) := a_run m1 t1 g1 l1 in (r, None :: log)
      | Thrown m1 x (t1, g1) => let '(r, log) := a_run m1 t1 g1 l1 in (r, Some x :: log)
      | Stop r => (inr r, [])
      end
  end.
End AConceal.

(** hashbuckets.hpp:99-104: the buckets and their elements, and the number
    object with its two arrays *)
Definition a_destroy (m : mem) (t : atable) : mem :=
  mkMem (m_tries m) (m_live m - Z.of_nat (length (at_caps t)) - 1
                     - match hb_strint (at_hb t) with Some _ => 3 | None => 0 end).
End Alloc.
Arguments mkAt {T}. Arguments at_hb {T}. Arguments at_caps {T}.
