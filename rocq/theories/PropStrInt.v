(** Properties C08-C12: class StrInt. *)
From Verif Require Import Base Spec Lib StrIntSpec StrIntModel StrIntProofs.

(** objects obtained from the constructor by any history of calls *)
Definition obj (bytes : nat) (l : list op) (s : strint) : Prop :=
  exists s0, new_strint bytes None 0 = Ok s0 /\ run s0 l = Ok s.

(** C08: on any object reached by any history, set(n, len) stores the
    little-endian value of the first min(len, capacity) bytes. *)
Theorem C08_set_little_endian : forall bytes l n len,
  Forall op_valid l -> (1 <= len <= length n)%nat ->
  exists s s', obj bytes l s /\ set_bytes s n len = Ok s' /\
    si_z s' = LE (firstn (Nat.min len (Nat.max 1 bytes)) n).
Proof.
  exact (fun bytes l n len V H => ltac:(
    destruct (new_strint_fresh bytes) as [s0 [E0 [W [Z0 [B0 L0]]]]];
    destruct (run_refines (Nat.max 1 bytes) l s0 (0, 0)) as [s1 [E1 [W1 [L1 _]]]];
    [unfold rel; auto | exact V |];
    destruct (set_bytes_ok s1 n len W1 (proj1 H)) as [s2 [E2 [_ [_ [Z2 _]]]]]; [lia|];
    exists s1, s2; rewrite L1 in Z2; repeat split; [exists s0; auto | exact E2 | exact Z2])).
Qed.
Print Assumptions C08_set_little_endian.

(** the constructor with data *)
Theorem C08_ctor_little_endian : forall bytes n len,
  (0 < bytes)%nat -> (1 <= len <= length n)%nat -> Z.of_nat len * Z.of_nat bytes < 2 ^ 64 ->
  exists s, new_strint bytes (Some n) len = Ok s /\ si_z s = LE (firstn (Nat.min len bytes) n).
Proof. exact new_strint_data. Qed.
Print Assumptions C08_ctor_little_endian.

(** without data (a null pointer), or for 0 bytes whatever the data, the
    constructor makes the number 0 *)
Theorem C08_ctor_zero : forall bytes n len, n = None \/ bytes = O ->
  exists s, new_strint bytes n len = Ok s /\ si_z s = 0.
Proof. exact new_strint_zero. Qed.
Print Assumptions C08_ctor_zero.

Example C08_nonvacuous : exists s, new_strint 5 (Some [1;2;3;4;5]) 5 = Ok s /\ si_z s = 1 + 2*256 + 3*65536 + 4*16777216 + 5*4294967296.
Proof. eexists; split; reflexivity. Qed.

(** C09: any history without an empty set behaves as a natural number. *)
Theorem C09_history_value : forall bytes l d,
  Forall op_valid l -> Forall nonempty_op l -> 0 < d ->
  exists s0 s1, new_strint bytes None 0 = Ok s0 /\ run s0 l = Ok s1 /\
    rem s1 d = Ok (fold_left (value_step (Nat.max 1 bytes)) l 0 mod d).
Proof. exact history_value_l. Qed.
Print Assumptions C09_history_value.

(** the same for an object constructed with data *)
Theorem C09_history_of_data : forall bytes n len l d,
  (0 < bytes)%nat -> (1 <= len <= length n)%nat -> Z.of_nat len * Z.of_nat bytes < 2 ^ 64 ->
  Forall op_valid l -> Forall nonempty_op l -> 0 < d ->
  exists s0 s1, new_strint bytes (Some n) len = Ok s0 /\ run s0 l = Ok s1 /\
    rem s1 d = Ok (fold_left (value_step bytes) l (LE (firstn (Nat.min len bytes) n)) mod d).
Proof. exact history_data_l. Qed.
Print Assumptions C09_history_of_data.

Example C09_nonvacuous :
  let l := [SetB [1;2;3] 3; Inc; Add 10; SetU 7; Inc] in
  Forall op_valid l /\ Forall nonempty_op l /\ fold_left (value_step 3) l 0 = 8.
Proof. cbv zeta. repeat constructor. Qed.

(** C10: set(n, 0) stores the scratch value; full refinement of every history
    to the two-component specification [abs_step]. *)
Theorem C10_history_with_empty_set : forall bytes l, Forall op_valid l ->
  exists s0 s1, new_strint bytes None 0 = Ok s0 /\ run s0 l = Ok s1 /\
    let L := Nat.max 1 bytes in
    let a := fold_left (abs_step L) l (0, 0) in
    (forall d, 0 < d -> rem s1 d = Ok (fst a mod d)) /\
    si_z s1 = fst a /\ lsb s1 = Ok (snd a mod (2 ^ 64 - 1)).
Proof. exact history_l. Qed.
Print Assumptions C10_history_with_empty_set.

(** in particular: setting the empty string after v and an addend x gives x *)
Theorem C10_empty_set_refuted : forall bytes n len x buf, (1 <= len <= length n)%nat ->
  exists s0 s1, new_strint bytes None 0 = Ok s0 /\
    run s0 [SetB n len; Add x; SetB buf 0] = Ok s1 /\ si_z s1 = x.
Proof.
  exact (fun bytes n len x buf H => ltac:(
    destruct (history_l bytes [SetB n len; Add x; SetB buf 0]) as [s0 [s1 [E0 [E1 [_ [Z1 _]]]]]];
    [repeat constructor; cbn; lia |];
    exists s0, s1; repeat split; [exact E0 | exact E1 | rewrite Z1; destruct len; [lia|reflexivity]])).
Qed.
Print Assumptions C10_empty_set_refuted.

Example C10_nonvacuous : exists s0 s1, new_strint 4 None 0 = Ok s0 /\
  run s0 [SetB [9] 1; SetB [] 0] = Ok s1 /\ rem s1 100 = Ok 9.
Proof. do 2 eexists; repeat split; reflexivity. Qed.

(** C11: lsb.  After set(bytes) of value v it is v mod (2^64-1): the low 64
    bits for v < 2^64-1, wrong at 2^64-1; set(unsigned long) leaves it as is. *)
Theorem C11_lsb_after_set : forall bytes l n len,
  Forall op_valid l -> (1 <= len <= length n)%nat ->
  exists s, obj bytes (l ++ [SetB n len]) s /\
    let v := LE (firstn (Nat.min len (Nat.max 1 bytes)) n) in
    si_z s = v /\ lsb s = Ok (v mod (2 ^ 64 - 1)) /\
    (0 <= v < 2 ^ 64 - 1 -> lsb s = Ok (v mod 2 ^ 64)) /\
    (v = 2 ^ 64 - 1 -> lsb s = Ok 0).
Proof. exact lsb_after_set_l. Qed.
Print Assumptions C11_lsb_after_set.

Theorem C11_lsb_ignores_set_ulong : forall s v, lsb (set_ulong s v) = lsb s.
Proof. exact (fun s v => eq_refl). Qed.
Print Assumptions C11_lsb_ignores_set_ulong.

Example C11_nonvacuous : LE (firstn (Nat.min 8 (Nat.max 1 8)) [255;255;255;255;255;255;255;255]) = 2 ^ 64 - 1.
Proof. reflexivity. Qed.

(** C12: toBytes *)
Theorem C12_toBytes_exits : forall s barr n,
  2 <= si_z s -> buf_valid barr n -> toBytes s barr (Some n) = Exit 2.
Proof. exact toBytes_big_l. Qed.
Print Assumptions C12_toBytes_exits.

Theorem C12_toBytes_zero_one : forall s buf n v,
  si_z s = v -> v = 0 \/ v = 1 -> buf_valid (Some buf) n ->
  exists rest, toBytes s (Some buf) (Some n) = Ok (mkBytesOut (Some (Some v :: rest)) 1).
Proof. exact toBytes_small_l. Qed.
Print Assumptions C12_toBytes_zero_one.

Theorem C12_toBytes_null_buffer : forall s n,
  (si_z s = 0 -> toBytes s None (Some n) = UB NullDeref) /\
  (si_z s = 1 -> toBytes s None (Some n) = Ok (mkBytesOut None 1)).
Proof. exact (fun s n => conj (toBytes_null_zero_l s n) (toBytes_null_one_l s n)). Qed.
Print Assumptions C12_toBytes_null_buffer.

(** ... a buffer too small for the number whose claimed length is the one
    getByteSize advertises is overrun, and a null length pointer is fatal whatever
    the buffer *)
Theorem C12_toBytes_unchecked :
  (forall s buf, 2 ^ (8 * Z.of_nat (length buf)) <= si_z s ->
     toBytes s (Some buf) (Some (getByteSize s)) = UB OutOfBounds /\ toBytes s (Some buf) None = UB OutOfBounds) /\
  (forall s buf, 0 <= si_z s < 2 ^ (8 * Z.of_nat (length buf)) -> toBytes s (Some buf) None = UB NullDeref) /\
  (forall s, 0 <= si_z s -> toBytes s None None = UB NullDeref).
Proof.
  split; [exact toBytes_overrun_l|]. split.
  - intros s buf H. apply toBytes_nolen_l; lia.
  - intros s H. apply toBytes_nolen_l; [exact H|exact I].
Qed.
Print Assumptions C12_toBytes_unchecked.

Example C12_unchecked_nonvacuous : exists s, new_strint 4 (Some [3;1]) 2 = Ok s /\ 2 ^ (8 * Z.of_nat (length [@None Z])) <= si_z s.
Proof. eexists; repeat split; cbn; try lia. Qed.

Example C12_nonvacuous : exists s, new_strint 4 (Some [3;1]) 2 = Ok s /\ 2 <= si_z s /\
  toBytes s (Some [None; None]) (Some 2) = Exit 2.
Proof. eexists; repeat split; cbn; try lia. Qed.
