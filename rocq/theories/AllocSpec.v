(** What a caller of HashBuckets may expect when allocations fail. *)
From Verif Require Import Base HashBucketsModel HashBucketsSpec AllocModel.

(** std::vector: a full vector that is not of maximal size grows *)
Definition policy_ok (pol : policy) : Prop :=
  1 <= p_max pol /\ forall c, 1 <= c < p_max pol -> c < p_grow pol c <= p_max pol.

(** the same table for every observer (the scratch number object apart) *)
Definition same_table {T} (h h' : hb T) : Prop :=
  hb_n h = hb_n h' /\ hb_k h = hb_k h' /\ hb_maxload h = hb_maxload h' /\
  hb_buckets h = hb_buckets h' /\ hb_algo h = hb_algo h'.

(** the calls of a program without failures that amount to call [o], which
    returned ([None]) or was left by an exception: a call that throws counts
    as not made; of add(list, dim) the first elements are added.  An
    interrupted conceal() amounts to no such calls. *)
Inductive amounts {T} : @top T -> option exn -> list (@top T) -> Prop :=
| am_ok o : amounts o None [o]
| am_add e x : amounts (TAdd e) (Some x) []
| am_addTo e i x : amounts (TAddTo e i) (Some x) []
| am_list l dim j x : (j < dim)%nat -> amounts (TAddList l dim) (Some x) [TAddList l j].
Inductive amounts_all {T} : list (@top T) -> list (option exn) -> list (@top T) -> Prop :=
| aa_nil : amounts_all [] [] []
| aa_cons o x l log c c' : amounts o x c -> amounts_all l log c' -> amounts_all (o :: l) (x :: log) (c ++ c').

Definition is_conceal {T} (o : @top T) : Prop := match o with TConceal => True | _ => False end.

(** an allocation failed between [m] and attempt [n] *)
Definition failed (ok : nat -> bool) (m n : nat) : Prop := exists j, (m <= j < n)%nat /\ ok j = false.

(** [l1] is [l2] with some elements left out *)
Inductive subseq {A} : list A -> list A -> Prop :=
| ss_nil : subseq [] []
| ss_skip x l1 l2 : subseq l1 l2 -> subseq l1 (x :: l2)
| ss_take x l1 l2 : subseq l1 l2 -> subseq (x :: l1) (x :: l2).

(** attempts made for a number object, and allocations it keeps *)
Definition size_algo {T} (a : option (halgo T)) : nat := match a with Some _ => 4%nat | None => 0%nat end.
Definition made {T} (a : option (halgo T)) : Z := match a with Some _ => 3 | None => 0 end.

(** every bucket of [h] has become longer at the end, or stayed; no mark is lost *)
Definition extends {T} (h h' : hb T) : Prop :=
  hb_k h' = hb_k h /\ hb_maxload h' = hb_maxload h /\
  Forall2 (fun b b' => exists f, mv_items b' = mv_items b ++ f /\ (mv_marked b = true -> mv_marked b' = true))
    (hb_buckets h) (hb_buckets h').

(** number objects made by calls of setHashAlgorithm *)
Definition algos_set {T} (a : option (halgo T)) (l : list (@top T)) : Z :=
  Z.of_nat (length (filter (fun o => match o with TSetAlgo (Some _) => true | _ => false end) (TSetAlgo a :: l))).

Definition throws (log : list (option exn)) : nat :=
  length (filter (fun x => match x with Some _ => true | None => false end) log).

(** tables a program can have, whatever failed before *)
Definition a_reachable {T} ok pol (m : mem) (t : @atable T) : Prop :=
  exists (G : Type) (gen : G -> T * G) m0 len ml a m1 t1 g ops g' log,
    match a with Some al => algo_valid al | None => True end /\
    a_new ok pol m0 len ml a = Done m1 t1 /\ Forall op_algo_valid ops /\
    a_run ok pol gen m1 t1 g ops = (inl (m, (t, g')), log).
