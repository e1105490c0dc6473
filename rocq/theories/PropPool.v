(** C127: a hash table handed to several clients, or filled beforehand. *)
From Verif Require Import Base Spec HashBucketsModel HashBucketsSpec PRFModel EopsiModel WorldModel PoolModel PoolSpec PoolProofs PropEopsi.

(** Once a client has loaded a non-empty data set, its table is full: whatever
    the program does next (short of addToBucket on this table), the table stays
    as it is, and every client that refers to it ends the process with code 1
    when it is given data, as does adding an element to it. *)
Theorem C127_one_data_set : forall sha rand fuel p hw pos t l1 s1 i raw n b nt s2 l2 s3,
  Forall usable (l1 ++ l2) -> Forall (spares t) (l1 ++ l2) ->
  prun sha rand fuel p hw (no_objects pos) l1 = Ok s1 -> refers s1 i t -> (0 < n)%nat ->
  pstep sha rand fuel p hw s1 (Load i (Some raw) n b nt) = Ok s2 ->
  prun sha rand fuel p hw s2 l2 = Ok s3 ->
  nth_error (po_tables s3) t = nth_error (po_tables s2) t /\
  (forall e, pstep sha rand fuel p hw s3 (TableAdd t e) = Exit 1) /\
  (forall i' v raw' n' b' nt', refers s3 i' t -> (0 < n')%nat ->
     pstep sha rand fuel p hw s3 (Load i' (Some (v :: raw')) n' b' nt') = Exit 1).
Proof. intros. eapply one_data_set_l; eassumption. Qed.
Print Assumptions C127_one_data_set.

(** A client refers to the table it was constructed with, whatever happens. *)
Theorem C127_reference : forall sha rand fuel p hw pos l s i t,
  prun sha rand fuel p hw (no_objects pos) l = Ok s -> (refers s i t <-> nth_error (constructed_with l) i = Some t).
Proof. exact refers_l. Qed.
Print Assumptions C127_reference.

(** What the program put into the table beforehand is outsourced with the data:
    adding elements in the form blind() uses and then loading [raw] is the same,
    in every state and for every outcome, as loading both together. *)
Theorem C127_prefilled : forall sha rand fuel p hw s i m pre raw f b nt,
  nth_error (po_members s) i = Some m -> (exists h, nth_error (po_tables s) (me_table m) = Some h) -> raw <> [] ->
  co_fbits (me_core m) = num_bits f -> 0 <= num_bits f - b - 1 < 2 ^ 63 ->
  prun sha rand fuel p hw s (map (fun v => TableAdd (me_table m) (moved_up p f b v)) pre ++ [Load i (Some raw) (length raw) b nt]) =
  prun sha rand fuel p hw s [Load i (Some (pre ++ raw)) (length (pre ++ raw)) b nt].
Proof.
  intros sha rand fuel p hw s i m pre raw f b nt Hm Hh NR EF PB. unfold moved_up. rewrite <- EF. apply prefilled_l; try assumption. rewrite EF. exact PB.
Qed.
Print Assumptions C127_prefilled.

(** a table with three buckets of two places: the first client loads three
    elements beside one the program added; then the second client, which shares
    the table, cannot load anything, but a client with its own table can *)
Definition pool_program : list pcall :=
  [NewTable 3 2 ex_algo; NewTable 3 2 ex_algo; NewMember 0 61 3 2 5 77; NewMember 0 61 3 2 5 78; NewMember 1 61 3 2 5 79; TableAdd 0 8].
Definition pool_of {A} (r : res A) : option A := match r with Ok s => Some s | _ => None end.
Definition pool_run := prun ex_sha ex_rand 10 61 4.
Example C127_nonvacuous :
  Forall usable pool_program /\ Forall (spares 0) pool_program /\
  exists s1 s2, pool_run (no_objects 0) pool_program = Ok s1 /\ refers s1 0 0 /\ refers s1 1 0 /\
    pstep ex_sha ex_rand 10 61 4 s1 (Load 0 (Some [0; 1; 4]) 3 3 1) = Ok s2 /\
    pstep ex_sha ex_rand 10 61 4 s2 (Load 1 (Some [5]) 1 3 1) = Exit 1 /\
    (exists s3, pstep ex_sha ex_rand 10 61 4 s2 (Load 2 (Some [5]) 1 3 1) = Ok s3).
Proof.
  split; [repeat constructor; try apply ex_algo_valid|]. split; [repeat constructor|].
  assert (B1 : match pool_run (no_objects 0) pool_program with
    | Ok s1 => match nth_error (po_members s1) 0, nth_error (po_members s1) 1 with Some m0, Some m1 => Nat.eqb (me_table m0) 0 && Nat.eqb (me_table m1) 0 | _, _ => false end &&
        match pstep ex_sha ex_rand 10 61 4 s1 (Load 0 (Some [0; 1; 4]) 3 3 1) with
        | Ok s2 => match pstep ex_sha ex_rand 10 61 4 s2 (Load 1 (Some [5]) 1 3 1) with Exit 1 => true | _ => false end &&
                   match pstep ex_sha ex_rand 10 61 4 s2 (Load 2 (Some [5]) 1 3 1) with Ok _ => true | _ => false end
        | _ => false end
    | _ => false end = true) by (vm_compute; reflexivity).
  destruct (pool_run (no_objects 0) pool_program) as [s1| | | |] eqn:E1; try discriminate.
  apply andb_prop in B1. destruct B1 as [BM B1].
  destruct (pstep ex_sha ex_rand 10 61 4 s1 (Load 0 (Some [0; 1; 4]) 3 3 1)) as [s2| | | |] eqn:E2; try discriminate.
  apply andb_prop in B1. destruct B1 as [B1 B2].
  exists s1, s2. split; [reflexivity|].
  destruct (nth_error (po_members s1) 0) as [m0|] eqn:M0; [|discriminate]. destruct (nth_error (po_members s1) 1) as [m1|] eqn:M1; [|discriminate].
  apply andb_prop in BM. destruct BM as [X0 X1]. apply Nat.eqb_eq in X0, X1.
  split; [exists m0; auto|]. split; [exists m1; auto|]. split; [exact E2|]. split.
  - destruct (pstep ex_sha ex_rand 10 61 4 s2 (Load 1 (Some [5]) 1 3 1)) as [|c| | |]; try discriminate.
    destruct c as [|q|]; try discriminate. destruct q; try discriminate. reflexivity.
  - destruct (pstep ex_sha ex_rand 10 61 4 s2 (Load 2 (Some [5]) 1 3 1)) as [s3| | | |]; try discriminate. exists s3. reflexivity.
Qed.

(** the element 8 of the example is 2 in the form blind() uses: loading 2 with
    the others gives the same *)
Example C127_prefilled_nonvacuous : exists (s0 s2 : pool), pool_run (no_objects 0) (removelast pool_program) = Ok s0 /\
  moved_up 61 61 3 2 = 8 /\
  pool_run s0 [TableAdd 0 8; Load 0 (Some [0; 1; 4]) 3 3 1] = Ok s2 /\ pool_run s0 [Load 0 (Some [2; 0; 1; 4]) 4 3 1] = Ok s2.
Proof.
  assert (B : match pool_run (no_objects 0) (removelast pool_program) with
    | Ok s0 => match nth_error (po_members s0) 0 with Some m => Nat.eqb (me_table m) 0 && (co_fbits (me_core m) =? num_bits 61)%Z | None => false end &&
        match nth_error (po_tables s0) 0 with Some _ => true | None => false end &&
        match pool_run s0 [TableAdd 0 8; Load 0 (Some [0; 1; 4]) 3 3 1] with Ok _ => true | _ => false end
    | _ => false end = true) by (vm_compute; reflexivity).
  destruct (pool_run (no_objects 0) (removelast pool_program)) as [s0| | | |]; try discriminate.
  apply andb_prop in B. destruct B as [B B3]. apply andb_prop in B. destruct B as [B1 B2].
  destruct (nth_error (po_members s0) 0) as [m|] eqn:EM; [|discriminate]. apply andb_prop in B1. destruct B1 as [X1 X2].
  apply Nat.eqb_eq in X1. apply Z.eqb_eq in X2.
  destruct (nth_error (po_tables s0) 0) as [h|] eqn:EH; [|discriminate].
  destruct (pool_run s0 [TableAdd 0 8; Load 0 (Some [0; 1; 4]) 3 3 1]) as [s2| | | |] eqn:E2; try discriminate.
  exists s0, s2. split; [reflexivity|]. split; [reflexivity|]. split; [exact E2|].
  rewrite <- E2. symmetry.
  pose proof (C127_prefilled ex_sha ex_rand 10 61 4 s0 0 m [2] [0; 1; 4] 61 3 1 EM ltac:(rewrite X1; eauto) ltac:(discriminate) X2
    ltac:(vm_compute; split; [discriminate|reflexivity])) as T.
  rewrite X1 in T. exact T.
Qed.
