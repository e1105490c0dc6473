(** Counting lemmas. *)
From Coq Require Import Znumtheory.
From Verif Require Import Base Spec Lib NtlMiss NtlMissProofs StrIntModel HashBucketsModel HashBucketsSpec HashBucketsProofs.
From Verif Require Import PRFModel PRFSpec PRFProofs PolyModel PolySpec PolyProofs.
From Verif Require Import EopsiModel EopsiSpec EopsiProofs EopsiBlind EopsiRun EopsiFacts CountSpec.

Definition field_elems (p : Z) : list Z := map Z.of_nat (seq 0 (Z.to_nat p)).
Lemma field_elems_in p c : In c (field_elems p) <-> 0 <= c < p.
Proof.
  unfold field_elems. rewrite in_map_iff. split.
  - intros (n & <- & H). apply in_seq in H. lia.
  - intros H. exists (Z.to_nat c). split; [lia|]. apply in_seq. lia.
Qed.
Lemma field_elems_nodup p : NoDup (field_elems p).
Proof. apply FinFun.Injective_map_NoDup; [intros a b H; lia|apply seq_NoDup]. Qed.
Lemma field_elems_length p : length (field_elems p) = Z.to_nat p.
Proof. unfold field_elems. rewrite map_length, seq_length. reflexivity. Qed.

Lemma flat_map_length_const {A B} (f : A -> list B) k l : (forall a, In a l -> length (f a) = k) ->
  length (flat_map f l) = (length l * k)%nat.
Proof.
  induction l as [|a t IH]; intros H; [reflexivity|]. cbn [flat_map length]. rewrite app_length, (H a) by now left.
  rewrite IH by (intros b Hb; apply H; now right). lia.
Qed.
Lemma nodup_app {A} (l m : list A) : NoDup l -> NoDup m -> (forall x, In x l -> In x m -> False) -> NoDup (l ++ m).
Proof.
  induction 1 as [|a l Ha Hl IH]; intros Hm HD; [exact Hm|]. cbn [app]. constructor.
  - intros H. apply in_app_or in H as [H|H]; [contradiction|]. apply (HD a); [now left|exact H].
  - apply IH; [exact Hm|]. intros x H1 H2. apply (HD x); [now right|exact H2].
Qed.

(** each vector occurs exactly once, and there are p^n *)
Lemma vectors_in p n cs : In cs (vectors p n) <-> length cs = n /\ Forall (fun c => 0 <= c < p) cs.
Proof.
  revert cs. induction n as [|n IH]; intros cs; cbn [vectors].
  - split; [intros [<-|[]]; split; [reflexivity|constructor]|]. intros [H _]. destruct cs; [now left|discriminate].
  - fold (field_elems p). rewrite in_flat_map. split.
    + intros (c & Hc & H). apply in_map_iff in H as (t & <- & Ht). apply IH in Ht as [Hl Hf].
      apply field_elems_in in Hc. split; [cbn; congruence|constructor; assumption].
    + intros [Hl Hf]. destruct cs as [|c t]; [discriminate|]. inversion Hf; subst. exists c.
      split; [now apply field_elems_in|]. apply in_map. apply IH. split; [now injection Hl|assumption].
Qed.
Lemma vectors_nodup p n : NoDup (vectors p n).
Proof.
  induction n as [|n IH]; cbn [vectors]; [repeat constructor; intros []|]. fold (field_elems p).
  generalize (field_elems_nodup p). induction 1 as [|c l Hc Hl IHl]; [constructor|]. cbn [flat_map].
  apply nodup_app; [apply FinFun.Injective_map_NoDup; [intros a b H; now injection H|exact IH]|exact IHl|].
  intros x H1 H2. apply in_map_iff in H1 as (t & <- & _). apply in_flat_map in H2 as (c' & Hc' & H2).
  apply in_map_iff in H2 as (t' & E & _). injection E as -> _. contradiction.
Qed.
Lemma vectors_length p n : 0 <= p -> Z.of_nat (length (vectors p n)) = p ^ Z.of_nat n.
Proof.
  intros Hp. induction n as [|n IH]; [reflexivity|]. cbn [vectors]. fold (field_elems p).
  rewrite (flat_map_length_const _ (length (vectors p n))) by (intros a _; apply map_length).
  rewrite field_elems_length, Nat2Z.inj_mul, IH, Z2Nat.id by exact Hp.
  rewrite Nat2Z.inj_succ, Z.pow_succ_r by lia. reflexivity.
Qed.
Lemma vectors_all p n : 0 <= p -> NoDup (vectors p n) /\ Z.of_nat (length (vectors p n)) = p ^ Z.of_nat n /\
  forall cs, In cs (vectors p n) <-> length cs = n /\ Forall (fun c => 0 <= c < p) cs.
Proof. intros H. split; [apply vectors_nodup|]. split; [now apply vectors_length|apply vectors_in]. Qed.

(** a condition that each choice of the other components leaves exactly one
    value of component k holds for exactly p^(n-1) vectors *)
Definition drop_at (k : nat) (cs : list Z) : list Z := firstn k cs ++ skipn (S k) cs.
Lemma split_at (k : nat) (cs : list Z) : (k < length cs)%nat -> exists a c b, cs = a ++ c :: b /\ length a = k.
Proof.
  intros H. destruct (nth_error cs k) as [c|] eqn:E; [|apply nth_error_None in E; lia].
  apply nth_error_split in E as (a & b & -> & <-). eauto.
Qed.
Lemma drop_at_mid a c b : drop_at (length a) (a ++ c :: b) = a ++ b.
Proof.
  unfold drop_at. rewrite firstn_app, Nat.sub_diag, firstn_all, app_nil_r. f_equal.
  rewrite skipn_app. rewrite skipn_all2 by lia. cbn [app]. replace (S (length a) - length a)%nat with 1%nat by lia. reflexivity.
Qed.

Lemma count_one p n k (P : list Z -> bool) : (k < n)%nat ->
  (forall a b, length a = k -> length (a ++ b) = (n - 1)%nat -> Forall (fun c => 0 <= c < p) (a ++ b) ->
     exists c0, 0 <= c0 < p /\ forall c, 0 <= c < p -> (P (a ++ c :: b) = true <-> c = c0)) ->
  length (filter P (vectors p n)) = length (vectors p (n - 1)).
Proof.
  intros Hk H.
  assert (ND : NoDup (filter P (vectors p n))) by (apply NoDup_filter, vectors_nodup).
  assert (DEC : forall cs, In cs (filter P (vectors p n)) -> exists a c b, cs = a ++ c :: b /\ length a = k /\
            length (a ++ b) = (n - 1)%nat /\ Forall (fun c => 0 <= c < p) (a ++ b) /\ 0 <= c < p /\ P (a ++ c :: b) = true).
  { intros cs Hcs. apply filter_In in Hcs as [Hv HP]. apply vectors_in in Hv as [Hl Hf].
    destruct (split_at k cs) as (a & c & b & -> & Ha); [lia|]. exists a, c, b.
    rewrite app_length in Hl. cbn [length] in Hl. apply Forall_app in Hf as [F1 F2]. inversion F2; subst.
    split; [reflexivity|]. split; [reflexivity|]. split; [rewrite app_length; lia|]. split; [now apply Forall_app|]. auto. }
  assert (INJ : forall x y, In x (filter P (vectors p n)) -> In y (filter P (vectors p n)) -> drop_at k x = drop_at k y -> x = y).
  { intros x y Hx Hy E. destruct (DEC x Hx) as (a & c & b & -> & Ha & Hl & Hf & Hc & HP).
    destruct (DEC y Hy) as (a' & c' & b' & -> & Ha' & Hl' & Hf' & Hc' & HP').
    rewrite <- Ha in E at 1. rewrite drop_at_mid in E. rewrite <- Ha' in E. rewrite drop_at_mid in E.
    assert (E1 : a = a' /\ b = b').
    { assert (LL : length a = length a') by congruence. clear -E LL. revert a' LL E. induction a as [|x a IH]; intros [|y a'] LL E; try discriminate; [auto|].
      cbn [app] in E. injection E as -> E. cbn [length] in LL. destruct (IH a' ltac:(lia) E) as [-> ->]. auto. }
    destruct E1 as [<- <-]. destruct (H a b Ha Hl Hf) as (c0 & _ & HU).
    apply HU in HP; [|exact Hc]. apply HU in HP'; [|exact Hc']. congruence. }
  assert (ND2 : NoDup (map (drop_at k) (filter P (vectors p n)))).
  { clear DEC H. induction ND as [|x l Hx ND IH]; cbn [map]; [constructor|]. constructor.
    - intros Hin. apply in_map_iff in Hin as (y & E & Hy). assert (x = y) by (apply INJ; [now left|now right|congruence]). subst. contradiction.
    - apply IH. intros u v Hu Hv. apply INJ; now right. }
  apply Nat.le_antisymm.
  - rewrite <- (map_length (drop_at k)). apply NoDup_incl_length; [exact ND2|].
    intros x Hx. apply in_map_iff in Hx as (cs & <- & Hcs). destruct (DEC cs Hcs) as (a & c & b & -> & Ha & Hl & Hf & _).
    rewrite <- Ha, drop_at_mid. now apply vectors_in.
  - rewrite <- (map_length (drop_at k) (filter P (vectors p n))). apply NoDup_incl_length; [apply vectors_nodup|].
    intros x Hx. apply vectors_in in Hx as [Hl Hf].
    assert (EX : x = firstn k x ++ skipn k x) by (symmetry; apply firstn_skipn).
    assert (Lk : length (firstn k x) = k) by (rewrite firstn_length; lia).
    destruct (H (firstn k x) (skipn k x)) as (c0 & Hc0 & HU); [exact Lk|rewrite <- EX; exact Hl|rewrite <- EX; exact Hf|].
    apply in_map_iff. exists (firstn k x ++ c0 :: skipn k x). split.
    + rewrite <- Lk at 1. rewrite drop_at_mid. now rewrite <- EX.
    + apply filter_In. split.
      * apply vectors_in. rewrite app_length. cbn [length]. split.
        -- assert (length (firstn k x) + length (skipn k x) = length x)%nat by (rewrite <- app_length, <- EX; reflexivity). lia.
        -- rewrite EX in Hf. apply Forall_app in Hf as [F1 F2]. apply Forall_app. split; [exact F1|now constructor].
      * now apply HU.
Qed.

Lemma filter_length_le {A} (f : A -> bool) l : (length (filter f l) <= length l)%nat.
Proof. induction l as [|a t IH]; cbn [filter length]; [lia|]. destruct (f a); cbn [length]; lia. Qed.

(** union bound *)
Lemma filter_union {A I} (Q : I -> A -> bool) (is : list I) (l : list A) N :
  (forall i, In i is -> (length (filter (Q i) l) <= N)%nat) ->
  (length (filter (fun x => existsb (fun i => Q i x) is) l) <= length is * N)%nat.
Proof.
  induction is as [|i t IH]; intros H.
  - assert (E : filter (fun x => existsb (fun i => Q i x) []) l = []) by (clear; induction l; cbn [filter existsb]; auto).
    rewrite E. cbn. lia.
  - cbn [existsb]. assert (S1 : forall m : list A, (length (filter (fun x => Q i x || existsb (fun i => Q i x) t) m) <=
        length (filter (Q i) m) + length (filter (fun x => existsb (fun i => Q i x) t) m))%nat).
    { clear. induction m as [|x m IHm]; [cbn; lia|]. cbn [filter].
      destruct (Q i x); destruct (existsb (fun i => Q i x) t); cbn [orb length]; lia. }
    specialize (S1 l). specialize (IH ltac:(intros; apply H; now right)). assert (H0 := H i (or_introl eq_refl)).
    cbn [length]. lia.
Qed.

Lemma slice_length i h cs : (i + h <= length cs)%nat -> length (slice i h cs) = h.
Proof. intros H. unfold slice. rewrite firstn_length, skipn_length. lia. Qed.

(** changing a component outside a slice does not change the slice; the first
    component of a slice *)
Lemma slice_first h (a b : list Z) c : (0 < h)%nat ->
  slice (length a) h (a ++ c :: b) = c :: firstn (h - 1) b.
Proof.
  intros H. unfold slice. rewrite skipn_app, Nat.sub_diag, skipn_all. cbn [app skipn].
  destruct h; [lia|]. cbn [firstn]. now rewrite Nat.sub_succ, Nat.sub_0_r.
Qed.
Lemma slice_after i h (a b : list Z) c : (length a < i)%nat -> slice i h (a ++ c :: b) = slice (i - 1) h (a ++ b).
Proof.
  intros H. unfold slice. rewrite !skipn_app. rewrite (skipn_all2 a) by lia. rewrite (skipn_all2 a) by lia. cbn [app].
  replace (i - length a)%nat with (S (i - 1 - length a)) by lia. reflexivity.
Qed.
Lemma slice_before i h (a b : list Z) c : (i + h <= length a)%nat -> slice i h (a ++ c :: b) = slice i h a.
Proof.
  intros H. unfold slice. rewrite skipn_app, firstn_app. rewrite skipn_length.
  replace (h - (length a - i))%nat with 0%nat by lia. cbn [firstn]. apply app_nil_r.
Qed.

(** for one bucket and one value that is not in both buckets *)
Lemma count_root p L h j RA RB z : prime p -> (0 < h)%nat -> (j < L)%nat -> 0 <= z < p ->
  Forall (fun c => 0 <= c < p) RA -> Forall (fun c => 0 <= c < p) RB -> ~ (In z RA /\ In z RB) ->
  length (filter (fun cs => combined p RA RB (coefA h j cs) (coefB h j cs) z =? 0) (vectors p (2 * h * L))) =
  length (vectors p (2 * h * L - 1)).
Proof.
  intros HP Hh Hj Hz FA FB HN.
  assert (Hpos : (2 * h * j + 2 * h <= 2 * h * L)%nat) by nia.
  assert (C : prod_value p RA z <> 0 \/ prod_value p RB z <> 0).
  { destruct (Z.eq_dec (prod_value p RA z) 0) as [E1|N1]; [|now left].
    destruct (Z.eq_dec (prod_value p RB z) 0) as [E2|N2]; [|now right].
    apply (prod_value_zero p RA z HP Hz FA) in E1. apply (prod_value_zero p RB z HP Hz FB) in E2. tauto. }
  destruct C as [N|N].
  - apply (count_one p _ (2 * h * j)); [lia|]. intros a b Ha Hl Hf.
    destruct (constant_coefficient p RA RB (firstn (h - 1) b) (slice (2 * h * j + h - 1) h (a ++ b)) z HP N) as (c0 & Hc0 & HU).
    exists c0. split; [exact Hc0|]. intros c Hc. rewrite Z.eqb_eq. rewrite <- (HU c Hc). unfold coefA, coefB.
    rewrite (slice_after (2 * h * j + h)) by lia. rewrite <- Ha at 1. rewrite slice_first by exact Hh. reflexivity.
  - apply (count_one p _ (2 * h * j + h)); [lia|]. intros a b Ha Hl Hf.
    destruct (constant_coefficient p RB RA (firstn (h - 1) b) (slice (2 * h * j) h a) z HP N) as (c0 & Hc0 & HU).
    exists c0. split; [exact Hc0|]. intros c Hc. rewrite Z.eqb_eq. rewrite <- (HU c Hc). unfold coefA, coefB.
    rewrite combined_comm. rewrite (slice_before (2 * h * j)) by lia. rewrite <- Ha at 1. rewrite slice_first by exact Hh. reflexivity.
Qed.

(** candidates: the padded values of the field that can be reported *)
Definition candidates (p w : Z) : list Z :=
  filter (fun v => (padded w v <? p) && (negb (v =? 0) || (w =? 0))) (field_elems p).
Lemma candidates_in p w v : 0 <= w -> In v (candidates p w) <-> 0 <= padded w v < p /\ (v = 0 -> w = 0).
Proof.
  intros Hw. assert (P2 : 0 < 2 ^ w) by (apply Z.pow_pos_nonneg; lia).
  unfold candidates. rewrite filter_In, field_elems_in, andb_true_iff, orb_true_iff, negb_true_iff, Z.ltb_lt, Z.eqb_neq, Z.eqb_eq.
  unfold padded. split.
  - intros [Hv [H1 H2]]. split; [nia|]. intros ->. destruct H2; [congruence|assumption].
  - intros [H1 H2]. split; [nia|]. split; [lia|]. destruct (Z.eq_dec v 0); [right; auto|now left].
Qed.
Lemma candidates_count p w : 0 < p -> 0 <= w -> Z.of_nat (length (candidates p w)) * 2 ^ w <= p.
Proof.
  intros Hp Hw. assert (P2 : 0 < 2 ^ w) by (apply Z.pow_pos_nonneg; lia).
  destruct (Z.eq_dec w 0) as [->|Hn].
  - rewrite Z.mul_1_r. unfold candidates. assert (H := filter_length_le (fun v => (padded 0 v <? p) && (negb (v =? 0) || (0 =? 0))) (field_elems p)).
    rewrite field_elems_length in H. lia.
  - (* all candidates lie between 1 and (p-1)/2^w *)
    assert (INC : incl (candidates p w) (map (fun v => v + 1) (field_elems ((p - 1) / 2 ^ w)))).
    { intros v Hv. apply candidates_in in Hv as [H1 H2]; [|exact Hw]. unfold padded in H1.
      apply in_map_iff. exists (v - 1). split; [lia|]. apply field_elems_in.
      assert (v <> 0) by (intros ->; now apply Hn, H2). assert (0 < v) by nia.
      assert (v <= (p - 1) / 2 ^ w) by (apply Z.div_le_lower_bound; lia). lia. }
    apply NoDup_incl_length in INC; [|apply NoDup_filter, field_elems_nodup].
    rewrite map_length, field_elems_length in INC.
    assert (0 <= (p - 1) / 2 ^ w) by (apply Z.div_pos; lia).
    assert (Z.of_nat (length (candidates p w)) <= (p - 1) / 2 ^ w) by lia.
    assert ((p - 1) / 2 ^ w * 2 ^ w <= p - 1) by (rewrite Z.mul_comm; apply Z.mul_div_le; lia). nia.
Qed.

(** the vectors with which some value not in both buckets of its number is a root *)
Definition wrong (p w : Z) (L h : nat) (RA RB : nat -> list Z) : list (list Z) :=
  let pairs := list_prod (seq 0 L) (candidates p w) in
  let foreign jv := let '(j, v) := jv in
    negb (existsb (Z.eqb (padded w v)) (RA j) && existsb (Z.eqb (padded w v)) (RB j)) in
  filter (fun cs => existsb (fun jv => let '(j, v) := jv in
            combined p (RA j) (RB j) (coefA h j cs) (coefB h j cs) (padded w v) =? 0) (filter foreign pairs))
    (vectors p (2 * h * L)).

Lemma existsb_In z l : existsb (Z.eqb z) l = true <-> In z l.
Proof. rewrite existsb_exists. split; [intros (x & H & E); apply Z.eqb_eq in E; now subst|]. intros H. exists z. split; [exact H|apply Z.eqb_refl]. Qed.

Lemma wrong_right p w L h RA RB cs j v : 0 <= w -> In cs (vectors p (2 * h * L)) -> ~ In cs (wrong p w L h RA RB) ->
  (j < L)%nat -> 0 <= padded w v < p -> (v = 0 -> w = 0) ->
  combined p (RA j) (RB j) (coefA h j cs) (coefB h j cs) (padded w v) = 0 -> In (padded w v) (RA j) /\ In (padded w v) (RB j).
Proof.
  intros Hw Hcs HN Hj Hv H0 HR.
  destruct (existsb (Z.eqb (padded w v)) (RA j) && existsb (Z.eqb (padded w v)) (RB j)) eqn:E.
  - apply andb_prop in E as [E1 E2]. split; now apply existsb_In.
  - exfalso. apply HN. unfold wrong. apply filter_In. split; [exact Hcs|]. apply existsb_exists. exists (j, v). split.
    + apply filter_In. split; [|now rewrite E]. apply in_prod; [apply in_seq; lia|now apply candidates_in].
    + apply Z.eqb_eq. exact HR.
Qed.
Lemma wrong_count p w L h RA RB : prime p -> 2 < p -> 0 <= w ->
  (forall j, (j < L)%nat -> length (RA j) = h /\ length (RB j) = h /\ Forall (fun c => 0 <= c < p) (RA j) /\ Forall (fun c => 0 <= c < p) (RB j)) ->
  Z.of_nat (length (wrong p w L h RA RB)) * 2 ^ w <= Z.of_nat L * p ^ Z.of_nat (2 * h * L).
Proof.
  intros HP Hp2 Hw HR. assert (P2 : 0 < 2 ^ w) by (apply Z.pow_pos_nonneg; lia).
  assert (PP : 0 < p ^ Z.of_nat (2 * h * L)) by (apply Z.pow_pos_nonneg; lia).
  destruct (Nat.eq_dec h 0) as [->|Hh].
  - (* no element: 2 is never 0 *)
    assert (E : wrong p w L 0 RA RB = []).
    { unfold wrong. destruct (filter _ (vectors p (2 * 0 * L))) as [|cs l] eqn:E; [reflexivity|]. exfalso.
      assert (Hin : In cs (cs :: l)) by now left. rewrite <- E in Hin. apply filter_In in Hin as [_ Hin].
      apply existsb_exists in Hin as ([j v] & Hjv & Hin). apply filter_In in Hjv as [Hjv _]. apply in_prod_iff in Hjv as [Hj _].
      apply in_seq in Hj. destruct (HR j ltac:(lia)) as (LA & LB & _). destruct (RA j); [|discriminate]. destruct (RB j); [|discriminate].
      apply Z.eqb_eq in Hin. unfold coefA, coefB, slice in Hin. cbn [firstn] in Hin.
      assert (P1 : prod_value p [] (padded w v) = 1) by (unfold prod_value; cbn [fold_right]; apply Z.mod_small; lia).
      assert (O1 : omega_value p [] (padded w v) = 1) by (unfold omega_value; rewrite value_ev; cbn [app ev]; rewrite Z.mul_0_r, Z.add_0_r; apply Z.mod_small; lia).
      unfold combined in Hin. rewrite P1, O1 in Hin. rewrite Z.mod_small in Hin by lia. lia. }
    rewrite E. cbn [length]. lia.
  - destruct (Nat.eq_dec L 0) as [->|HL].
    { unfold wrong. cbn [seq list_prod filter existsb]. rewrite Nat.mul_0_r. cbn. lia. }
    assert (B : (length (wrong p w L h RA RB) <= (L * length (candidates p w)) * length (vectors p (2 * h * L - 1)))%nat).
    { unfold wrong. eapply Nat.le_trans.
      - apply (filter_union (fun jv cs => let '(j, v) := jv in combined p (RA j) (RB j) (coefA h j cs) (coefB h j cs) (padded w v) =? 0) _ _
                 (length (vectors p (2 * h * L - 1)))).
        intros [j v] Hjv. apply filter_In in Hjv as [Hjv HF]. apply in_prod_iff in Hjv as [Hj Hv].
        apply in_seq in Hj. apply candidates_in in Hv as [Hv _]; [|exact Hw]. destruct (HR j ltac:(lia)) as (_ & _ & FA & FB).
        rewrite count_root; [apply Nat.le_refl|exact HP|lia|lia|exact Hv|exact FA|exact FB|].
        intros [H1 H2]. apply existsb_In in H1, H2. rewrite H1, H2 in HF. discriminate.
      - apply Nat.mul_le_mono_r. rewrite filter_length_le, prod_length, seq_length. apply Nat.le_refl. }
    apply Nat2Z.inj_le in B. rewrite !Nat2Z.inj_mul, vectors_length in B by lia.
    assert (CC := candidates_count p w ltac:(lia) Hw).
    assert (EP : p ^ Z.of_nat (2 * h * L) = p * p ^ Z.of_nat (2 * h * L - 1)).
    { rewrite <- Z.pow_succ_r by lia. f_equal. assert (0 < 2 * h * L)%nat by nia. lia. }
    assert (P1 : 0 < p ^ Z.of_nat (2 * h * L - 1)) by (apply Z.pow_pos_nonneg; lia).
    rewrite EP. set (X := p ^ Z.of_nat (2 * h * L - 1)) in *. set (C := Z.of_nat (length (candidates p w))) in *.
    assert (0 <= C) by (unfold C; lia).
    apply Z.le_trans with (Z.of_nat L * C * X * 2 ^ w); [apply Z.mul_le_mono_nonneg_r; lia|].
    replace (Z.of_nat L * C * X * 2 ^ w) with (Z.of_nat L * X * (C * 2 ^ w)) by ring.
    replace (Z.of_nat L * (p * X)) with (Z.of_nat L * X * p) by ring.
    apply Z.mul_le_mono_nonneg_l; [nia|exact CC].
Qed.
