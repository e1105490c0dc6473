(** Properties C13-C20 and C67: HashBuckets/HashTable. *)
From Verif Require Import Base Spec Lib StrIntSpec StrIntModel HashBucketsModel HashBucketsSpec HashBucketsProofs.

(** C13: placement and frame of add *)
Theorem C13_add_placement : forall (T : Type) (h : hb T) al e,
  reachable h -> hb_algo h = Some al -> (0 < hb_k h)%nat ->
  let i := index_of al (hb_k h) e in
  exists b, nth_error (hb_buckets h) i = Some b /\
  (length (mv_items b) = hb_maxload h -> hb_add h e = Exit 1) /\
  (length (mv_items b) <> hb_maxload h -> exists h',
     hb_add h e = Ok h' /\
     nth_error (hb_buckets h') i = Some (mkMvec (mv_items b ++ [e]) (mv_marked b)) /\
     (forall j, j <> i -> nth_error (hb_buckets h') j = nth_error (hb_buckets h) j) /\
     hb_k h' = hb_k h /\ hb_maxload h' = hb_maxload h /\ hb_algo h' = hb_algo h /\ hb_size h' = hb_size h).
Proof. exact @add_placement_l. Qed.
Print Assumptions C13_add_placement.

(** C14: any history of adds *)
Theorem C14_add_history : forall (T : Type) (al : halgo T) k ml l,
  algo_valid al -> (0 < k)%nat ->
  exists h0, new_hb k ml (Some al) = Ok h0 /\
  ((forall i, (i < k)%nat -> (length (belonging al k i l) <= ml)%nat) ->
   exists h, hb_add_list h0 l (length l) = Ok h /\
     forall i, (i < k)%nat -> nth_error (hb_buckets h) i = Some (mkMvec (belonging al k i l) false)) /\
  ((exists i, (i < k)%nat /\ (ml < length (belonging al k i l))%nat) ->
   hb_add_list h0 l (length l) = Exit 1).
Proof. exact @add_history_l. Qed.
Print Assumptions C14_add_history.

Lemma nth_error_skipn' {A} (l : list A) n i : nth_error (skipn n l) i = nth_error l (n + i).
Proof. revert l. induction n as [|n IH]; intros l; [reflexivity|]. destruct l; [destruct i; reflexivity|]. apply IH. Qed.
Lemma nth_error_repeat' {A} (x : A) n i : (i < n)%nat -> nth_error (repeat x n) i = Some x.
Proof. revert i. induction n as [|n IH]; intros [|i] H; cbn; try lia; [reflexivity|apply IH; lia]. Qed.
(** C13, without an algorithm: everything goes to the first bucket, whatever
    the maximum load *)
Theorem C13_no_algorithm : forall (T : Type) k ml (l : list T), (0 < k)%nat ->
  exists h0 h, new_hb k ml None = Ok h0 /\ hb_add_list h0 l (length l) = Ok h /\
    nth_error (hb_buckets h) 0 = Some (mkMvec l false) /\
    (forall i, (0 < i < k)%nat -> nth_error (hb_buckets h) i = Some (mkMvec [] false)) /\ length (hb_buckets h) = k.
Proof.
  intros T k ml l Hk. destruct k as [|k]; [lia|]. eexists _, (mkHb 0 (S k) ml (mkMvec l false :: repeat (mkMvec [] false) k) None None).
  split; [reflexivity|]. split; [|split; [reflexivity|split]].
  - unfold hb_add_list. set (body := fun i h => _).
    assert (X : forall m n i0, (i0 + n = length l)%nat -> m = firstn i0 l ->
      for_up n i0 body (mkHb 0 (S k) ml (mkMvec m false :: repeat (mkMvec [] false) k) None None) = Ok (mkHb 0 (S k) ml (mkMvec l false :: repeat (mkMvec [] false) k) None None)).
    { intros m n. revert m. induction n as [|n IH]; intros m i0 E ->; cbn [for_up].
      - rewrite firstn_all2 by lia. reflexivity.
      - unfold body at 1. destruct (nth_error l i0) as [e|] eqn:EE; [|apply nth_error_None in EE; lia]. unfold aget at 1. rewrite EE. cbn [bind].
        cbn [hb_add hb_strint push_at hb_buckets aget nth_error bind aset mv_items mv_marked length upd with_buckets hb_n hb_k hb_maxload hb_algo].
        apply IH; [lia|]. rewrite <- (firstn_skipn i0 l) at 2. rewrite firstn_app, firstn_firstn, firstn_length_le by lia.
        replace (Nat.min (S i0) i0) with i0 by lia. replace (S i0 - i0)%nat with 1%nat by lia. f_equal.
        rewrite <- (Nat.add_0_r i0) in EE. rewrite <- (nth_error_skipn' l i0 0) in EE. destruct (skipn i0 l); [discriminate|]. cbn in EE. injection EE as ->. reflexivity. }
    apply (X [] (length l) O); reflexivity.
  - intros [|i] Hi; [lia|]. cbn [nth_error hb_buckets]. apply nth_error_repeat'. lia.
  - cbn. rewrite repeat_length. reflexivity.
Qed.
Print Assumptions C13_no_algorithm.
Example C13_no_algorithm_nonvacuous : exists h0 h, new_hb 3 1 None = Ok h0 /\ hb_add_list h0 [7; 8; 9] 3 = Ok h /\ map mv_items (hb_buckets h) = [[7; 8; 9]; []; []].
Proof. do 2 eexists. repeat split. Qed.

(** C15: addToBucket is unbounded, and an overfull bucket stays open for add *)
Theorem C15_addToBucket : forall (T : Type) (h : hb T) e i, reachable h ->
  ((i < hb_k h)%nat -> exists b h', nth_error (hb_buckets h) i = Some b /\
     addToBucket h e i = Ok h' /\
     nth_error (hb_buckets h') i = Some (mkMvec (mv_items b ++ [e]) (mv_marked b)) /\
     (forall j, j <> i -> nth_error (hb_buckets h') j = nth_error (hb_buckets h) j) /\
     hb_k h' = hb_k h /\ hb_maxload h' = hb_maxload h /\ hb_algo h' = hb_algo h) /\
  ((hb_k h <= i)%nat -> addToBucket h e i = Exit 1).
Proof. exact @addToBucket_l. Qed.
Print Assumptions C15_addToBucket.

Theorem C15_overfull_never_fails : forall (T : Type) (h : hb T) al l,
  reachable h -> hb_algo h = Some al -> (0 < hb_k h)%nat ->
  (forall e, In e l -> exists b, nth_error (hb_buckets h) (index_of al (hb_k h) e) = Some b /\
      (hb_maxload h < length (mv_items b))%nat) ->
  exists h', hb_add_list h l (length l) = Ok h'.
Proof. exact @overfull_add_l. Qed.
Print Assumptions C15_overfull_never_fails.

(** C16: conceal *)
Theorem C16_conceal : forall (T G : Type) (gen : G -> T * G) (h : hb T) (g : G),
  reachable h -> Forall (fun b => length (mv_items b) <= hb_maxload h)%nat (hb_buckets h) ->
  exists h' fillers,
    let N := (hb_k h * hb_maxload h - total_items h)%nat in
    conceal gen h g = Ok (h', snd (draws gen N g)) /\
    concat fillers = fst (draws gen N g) /\
    (hb_k h' = hb_k h /\ hb_maxload h' = hb_maxload h /\ hb_algo h' = hb_algo h /\ hb_strint h' = hb_strint h /\ hb_n h' = hb_n h /\
     length (hb_buckets h') = hb_k h) /\
    forall i b, nth_error (hb_buckets h) i = Some b ->
      exists b' f, nth_error (hb_buckets h') i = Some b' /\ nth_error fillers i = Some f /\
        mv_items b' = mv_items b ++ f /\
        length (mv_items b') = hb_maxload h /\
        (mv_marked b' = true <-> mv_items b = [] \/ mv_marked b = true).
Proof. exact (fun T G gen h g R => conceal_spec gen h g (reachable_wf h R)). Qed.
Print Assumptions C16_conceal.

(** C17: sealed after conceal (for setRawData: C17_setRawData_twice) *)
Theorem C17_conceal_sealed : forall (T G : Type) (gen : G -> T * G) (h h1 : hb T) (g g1 : G),
  reachable h -> Forall (fun b => length (mv_items b) <= hb_maxload h)%nat (hb_buckets h) ->
  conceal gen h g = Ok (h1, g1) ->
  (forall g2, conceal gen h1 g2 = Ok (h1, g2)) /\
  (forall al e, hb_algo h = Some al -> (0 < hb_k h)%nat -> hb_add h1 e = Exit 1).
Proof. exact @conceal_sealed_l. Qed.
Print Assumptions C17_conceal_sealed.

(** C18: size() *)
Theorem C18_size_always_zero : forall (T : Type) (h : hb T), reachable h -> hb_size h = 0.
Proof. exact @size_zero_l. Qed.
Print Assumptions C18_size_always_zero.

(** C19: equal elements meet in equally numbered buckets *)
Theorem C19_common_bucket : forall (T : Type) (al : halgo T) k ml1 ml2 l1 l2 h01 h02 h1 h2,
  algo_valid al -> (0 < k)%nat ->
  new_hb k ml1 (Some al) = Ok h01 -> hb_add_list h01 l1 (length l1) = Ok h1 ->
  new_hb k ml2 (Some al) = Ok h02 -> hb_add_list h02 l2 (length l2) = Ok h2 ->
  forall e, (In e l1 /\ In e l2) <->
    exists i b1 b2, nth_error (hb_buckets h1) i = Some b1 /\ nth_error (hb_buckets h2) i = Some b2 /\
      In e (mv_items b1) /\ In e (mv_items b2).
Proof. exact @common_bucket_l. Qed.
Print Assumptions C19_common_bucket.

(** C20: getBucket *)
Theorem C20_getBucket : forall (T : Type) (h : hb T) i, reachable h ->
  ((i < hb_k h)%nat -> exists b, nth_error (hb_buckets h) i = Some b /\ getBucket h i = Ok b) /\
  ((hb_k h <= i)%nat -> getBucket h i = Exit 1).
Proof. exact @getBucket_l. Qed.
Print Assumptions C20_getBucket.

(** a FATAL exception never reaches a handler: its construction exits with the
    exit code; a non-fatal one is constructed normally *)
Theorem C20_fatal_exits : forall fatal,
  outofbound_ctor fatal = (if fatal then Some 1 else None).
Proof. exact (fun fatal => match fatal with true => eq_refl | false => eq_refl end). Qed.
Print Assumptions C20_fatal_exits.

(** C67: printStats *)
Theorem C67_print_stats : forall (T : Type) (h : hb T), reachable h -> (0 < hb_k h)%nat ->
  exists s, print_stats h = Ok s /\ st_total s = total_items h /\
    (exists b, nth_error (hb_buckets h) (st_minb s) = Some b /\ length (mv_items b) = st_min s) /\
    (exists b, nth_error (hb_buckets h) (st_maxb s) = Some b /\ length (mv_items b) = st_max s) /\
    (forall i b, nth_error (hb_buckets h) i = Some b -> st_min s <= length (mv_items b) <= st_max s /\
        (length (mv_items b) = st_min s -> st_minb s <= i) /\ (length (mv_items b) = st_max s -> st_maxb s <= i))%nat.
Proof. exact @print_stats_l. Qed.
Print Assumptions C67_print_stats.
Theorem C67_print_stats_empty : forall (T : Type) (h : hb T),
  reachable h -> hb_k h = 0%nat -> print_stats h = UB OutOfBounds.
Proof. exact @print_stats_empty_l. Qed.
Print Assumptions C67_print_stats_empty.

(** *** non-vacuity: a concrete table *)
Definition demo_algo : halgo Z := mkHalgo (fun z => [z mod 256; 0]) 2.
Lemma demo_algo_valid : algo_valid demo_algo.
Proof. split; cbn; intros; lia. Qed.
Definition demo_gen (g : Z) : Z * Z := (g, g + 1).

(** 3 buckets of load 2, elements 1 4 5, one overfull bucket by addToBucket *)
Example demo_reachable : exists h g,
  (exists h0, new_hb 3 2 (Some demo_algo) = Ok h0 /\
     run_table demo_gen (h0, 100) [TAdd 1; TAddList [4; 5] 2] = Ok (h, g)) /\
  reachable h /\ (0 < hb_k h)%nat /\ hb_algo h = Some demo_algo /\
  map mv_items (hb_buckets h) = [[]; [1; 4]; [5]] /\
  Forall (fun b => length (mv_items b) <= hb_maxload h)%nat (hb_buckets h) /\
  hb_add h 7 = Exit 1.
Proof.
  eexists _, _. split; [eexists; split; vm_compute; reflexivity|]. split.
  { exists Z, demo_gen, 3%nat, 2%nat, (Some demo_algo). eexists. exists 100. eexists.
    exists [TAdd 1; TAddList [4; 5] 2]. split; [exact demo_algo_valid|]. split; [vm_compute; reflexivity|].
    split; [repeat constructor|]. vm_compute; reflexivity. }
  split; [cbn; lia|]. split; [reflexivity|]. split; [reflexivity|]. split; [repeat constructor|]. reflexivity.
Qed.

Example demo_conceal : exists h0 h g h1 g1, new_hb 3 2 (Some demo_algo) = Ok h0 /\
  run_table demo_gen (h0, 100) [TAdd 1; TAddList [4; 5] 2] = Ok (h, g) /\
  conceal demo_gen h g = Ok (h1, g1) /\
  map mv_items (hb_buckets h1) = [[100; 101]; [1; 4]; [5; 102]] /\
  map mv_marked (hb_buckets h1) = [true; false; false].
Proof. do 5 eexists. repeat split; vm_compute; reflexivity. Qed.

Example demo_overfull : exists h0 h g h1, new_hb 3 1 (Some demo_algo) = Ok h0 /\
  run_table demo_gen (h0, 100) [TAdd 1; TAddTo 4 1] = Ok (h, g) /\
  hb_add_list h [7; 10; 13] 3 = Ok h1 /\ map mv_items (hb_buckets h1) = [[]; [1; 4; 7; 10; 13]; []].
Proof. do 4 eexists. repeat split; vm_compute; reflexivity. Qed.

Example demo_history : (forall i, (i < 3)%nat -> (length (belonging demo_algo 3 i [1; 4; 5]%Z) <= 2)%nat) /\
  (2 < length (belonging demo_algo 3 1 [1; 4; 5; 7]%Z))%nat.
Proof. split; [intros [|[|[|i]]] H; cbv; lia | cbv; lia]. Qed.
