(** Proofs about the dummies: what conceal() draws, where it goes, and how many
    choices let a dummy meet an element of the other client. *)
From Verif Require Import Base Spec Lib NtlMiss NtlMissProofs StrIntModel HashBucketsModel HashBucketsSpec HashBucketsProofs.
From Verif Require Import PRFModel PRFSpec PRFProofs PolyModel PolySpec PolyProofs InterpProofs PolyObjProofs.
From Verif Require Import EopsiModel EopsiSpec EopsiProofs EopsiBlind EopsiRun EopsiFacts CountSpec CountProofs DummySpec.
From Coq Require Import Znumtheory.

(** *** what is drawn *)
Lemma draws_run sha rand fuel p : forall n st st' vs,
  run_zp sha rand p fuel st (repeat Next n) = Ok (st', vs) ->
  draws (conceal_gen sha rand fuel p) n (Ok st) = (vs, Ok st').
Proof.
  induction n as [|n IH]; intros st st' vs E; cbn [repeat run_zp draws] in *.
  - apply Ok_inj in E. injection E as <- <-. reflexivity.
  - apply bind_ok in E as ([st1 v] & E1 & E). apply bind_ok in E as ([st2 vs2] & E2 & E). apply Ok_inj in E. injection E as <- <-.
    cbn [exec_zp] in E1. unfold conceal_gen at 1. cbn [bind]. rewrite E1. rewrite (IH _ _ _ E2). reflexivity.
Qed.
Lemma nexts_repeat j n : (j <= n)%nat -> nexts (firstn j (repeat Next n)) = Z.of_nat j.
Proof.
  revert n. induction j as [|j IH]; intros n H; [reflexivity|]. destruct n as [|n]; [lia|]. cbn [repeat firstn]. unfold nexts in *. cbn [filter is_next length].
  specialize (IH n ltac:(lia)). lia.
Qed.
Lemma draws_dummies sha rand fuel p pos n : is_sha sha -> 0 < p -> num_bits p + 7 < 2 ^ 64 ->
  exists st, draws (conceal_gen sha rand fuel p) n (Ok (new_zpprf p pos)) = (dummies sha p (rand pos mod p) n, Ok st).
Proof.
  intros HS Hp Hnb. destruct (zp_stream_l sha rand p fuel pos p (repeat Next n) HS Hp Hnb) as (st & vs & E & LV & N).
  { apply Forall_forall. intros c Hc. apply repeat_spec in Hc. subst c. exact I. }
  exists st. rewrite (draws_run _ _ _ _ _ _ _ _ E). f_equal.
  rewrite repeat_length in LV. unfold dummies. apply (nth_ext _ _ 0 0); [rewrite map_length, seq_length; exact LV|].
  intros j Hj. rewrite LV in Hj. assert (NJ : nth_error (repeat Next n) j = Some Next) by (apply nth_error_repeat; exact Hj).
  specialize (N j Next NJ). cbn zeta in N. rewrite nexts_repeat in N by lia. apply (nth_error_nth _ _ 0) in N. rewrite N.
  rewrite (nth_indep _ 0 (key_stream sha p (num_bits p) (rand pos mod p) (Z.of_nat 0 mod 2 ^ 64))) by (rewrite map_length, seq_length; lia).
  rewrite (map_nth (fun i => key_stream sha p (num_bits p) (rand pos mod p) (Z.of_nat i mod 2 ^ 64))), seq_nth by lia. reflexivity.
Qed.

(** *** where it goes *)
Lemma piece {A} (fl : list (list A)) : forall i f, nth_error fl i = Some f ->
  f = firstn (length f) (skipn (list_sum (map (@length A) (firstn i fl))) (concat fl)).
Proof.
  induction fl as [|g fl IH]; intros [|i] f E; try discriminate; cbn [nth_error firstn map list_sum fold_right concat] in *.
  - injection E as <-. cbn [skipn]. rewrite firstn_app, Nat.sub_diag, firstn_all. cbn [firstn]. now rewrite app_nil_r.
  - rewrite skipn_app. rewrite skipn_all2 by lia. cbn [app].
    replace (length g + fold_right Nat.add 0 (map (@length A) (firstn i fl)) - length g)%nat with (list_sum (map (@length A) (firstn i fl))) by (unfold list_sum; lia).
    now apply IH.
Qed.
Lemma lengths_before {A} (fl : list (list A)) (f : nat -> nat) : forall i, (i <= length fl)%nat ->
  (forall k x, (k < i)%nat -> nth_error fl k = Some x -> length x = f k) ->
  map (@length A) (firstn i fl) = map f (seq 0 i).
Proof.
  intros i Hi H. assert (G : forall n s l, (n <= length l)%nat -> (forall k x, (k < n)%nat -> nth_error l k = Some x -> length x = f (s + k)%nat) ->
     map (@length A) (firstn n l) = map f (seq s n)).
  { clear. induction n as [|n IH]; intros s [|g l] Hl HF; try (cbn [length] in Hl; lia); try reflexivity. cbn [firstn map seq]. f_equal.
    - rewrite (HF 0%nat g) by (reflexivity || lia). f_equal. lia.
    - apply IH; [cbn [length] in Hl; lia|]. intros k x Hk E. rewrite (HF (S k) x) by (exact E || lia). f_equal. lia. }
  apply G; [exact Hi|]. exact H.
Qed.

Lemma belonging_total (al : halgo Z) L (zs : list Z) : (0 < L)%nat -> list_sum (map (fun j => length (belonging al L j zs)) (seq 0 L)) = length zs.
Proof.
  intros HL. assert (S0 : forall n s, list_sum (map (fun _ : nat => 0%nat) (seq s n)) = 0%nat) by (induction n as [|n IH]; intros s; cbn; auto).
  induction zs as [|z zs IH]; [apply S0|].
  assert (HI := index_lt al L z HL). cbn [length]. rewrite <- IH.
  assert (G : forall n s, list_sum (map (fun j => length (belonging al L j (z :: zs))) (seq s n)) =
     ((if andb (Nat.leb s (index_of al L z)) (Nat.ltb (index_of al L z) (s + n)) then 1 else 0) + list_sum (map (fun j => length (belonging al L j zs)) (seq s n)))%nat).
  { clear. induction n as [|n IH]; intros s; cbn [seq map list_sum fold_right].
    - destruct (Nat.leb_spec s (index_of al L z)); destruct (Nat.ltb_spec (index_of al L z) (s + 0)); cbn [andb]; lia.
    - change (fold_right Nat.add 0%nat) with list_sum. rewrite IH. unfold belonging at 1. cbn [filter]. fold (belonging al L s zs).
      destruct (Nat.eqb_spec (index_of al L z) s) as [E|E]; cbn [length];
      destruct (Nat.leb_spec (S s) (index_of al L z)); destruct (Nat.leb_spec s (index_of al L z));
      destruct (Nat.ltb_spec (index_of al L z) (S s + n)); destruct (Nat.ltb_spec (index_of al L z) (s + S n)); cbn [andb]; fold (belonging al L s zs); lia. }
  rewrite G. destruct (Nat.leb_spec 0 (index_of al L z)); [|lia]. destruct (Nat.ltb_spec (index_of al L z) (0 + L)); [|lia]. reflexivity.
Qed.
Lemma free_total (al : halgo Z) L h zs : (0 < L)%nat -> fits al L h zs -> free_before al L h zs L = (L * h - length zs)%nat.
Proof.
  intros HL HF. rewrite <- (belonging_total al L zs HL).
  assert (G : forall n, (n <= L)%nat -> (free_before al L h zs n + list_sum (map (fun j => length (belonging al L j zs)) (seq 0 n)) = n * h)%nat).
  { induction n as [|n IH]; intros Hn; [reflexivity|]. unfold free_before in *. rewrite !seq_S, !map_app, !list_sum_app. cbn [map list_sum fold_right Nat.add].
    specialize (HF n ltac:(lia)). unfold free at 2. specialize (IH ltac:(lia)). lia. }
  specialize (G L ltac:(lia)). lia.
Qed.
Lemma free_before_S al L h zs j : free_before al L h zs (S j) = (free_before al L h zs j + free al L h zs j)%nat.
Proof. unfold free_before. rewrite seq_S, map_app, list_sum_app. cbn [map list_sum fold_right Nat.add]. lia. Qed.
Lemma free_before_le al L h zs i j : (i <= j)%nat -> (free_before al L h zs i <= free_before al L h zs j)%nat.
Proof. induction 1 as [|j H IH]; [lia|]. rewrite free_before_S. lia. Qed.

(** the table of a fresh client after blind() *)
Lemma blind_table sha rand fuel p hw L h D al b raw secret nt pos h0 c' h' zp' m :
  is_sha sha -> 2 < p -> num_bits p + 7 < 2 ^ 64 -> algo_valid al -> (0 < L)%nat ->
  new_hb L h (Some al) = Ok h0 ->
  let zs := map (field_value p b) raw in
  fits al L h zs ->
  blind sha rand fuel p hw (new_core p L h D 0) secret raw (length raw) (Some b) h0 (new_zpprf p pos) nt = Ok (c', h', zp', m) ->
  forall j, (j < L)%nat -> contents h' j (filled_up al L h zs (dummies sha p (rand pos mod p) (L * h - length raw)) j).
Proof.
  intros HS Hp Hnb VA HL E0 zs HF E.
  destruct (new_hb_ok L h (Some al) VA) as [h0' [E0' [W [K0 [M0 [A0 B0]]]]]]. assert (h0' = h0) by congruence. subst h0'. clear E0'.
  assert (NB : forall j bk, nth_error (hb_buckets h0) j = Some bk -> bk = mkMvec [] false /\ (j < L)%nat).
  { intros j bk Hj. rewrite B0 in Hj. apply nth_repeat in Hj. exact Hj. }
  unfold blind in E. cbn [new_core co_fbits co_length co_degree] in E.
  apply bind_ok in E as (h1 & E1 & E). apply bind_ok in E as ([h2 g] & E2 & E). apply bind_ok in E as (zp1 & E3 & E).
  apply bind_ok in E as (polys & _ & E). apply bind_ok in E as ([c1 us] & _ & E). apply bind_ok in E as (bl1 & _ & E).
  apply bind_ok in E as ([[zp2 ix] bl2] & _ & E). apply Ok_inj in E. injection E as _ <- _ _.
  cbn [padSize] in E1.
  assert (EA : for_up (length raw) 0 (fun i h => do z <- aget raw i; do pad <- padSize (num_bits p) (Some b); hb_add h (zeroPad z pad mod p)) h0
    = for_up (length zs) 0 (fun i h => do e <- aget zs i; hb_add h e) h0).
  { unfold zs. rewrite map_length. apply for_up_ext. intros i s Hi. cbn [Nat.add] in Hi.
    rewrite (aget_nth 0) by lia. rewrite (aget_nth (field_value p b 0)) by (rewrite map_length; lia). rewrite map_nth. reflexivity. }
  cbn [padSize] in EA. rewrite EA in E1.
  destruct (hb_add_list_gen al zs h0 (length zs) 0 W A0 ltac:(lia)) with (whole := zs) (pre := @nil Z) as [HA _]; auto.
  { intros j bk Hj. destruct (NB j bk Hj) as [-> _]. cbn; lia. }
  cbv zeta in HA. destruct HA as [h1' [E1' [W1 [K1 [M1 [A1 N1]]]]]].
  { intros j bk Hj. destruct (NB j bk Hj) as [-> Hl]. cbn [mv_items length]. rewrite K0, M0. apply HF. exact Hl. }
  assert (h1' = h1) by congruence. subst h1'. clear E1'. rewrite K0, M0 in *.
  assert (N1' : forall j, (j < L)%nat -> nth_error (hb_buckets h1) j = Some (mkMvec (belonging al L j zs) false)).
  { intros j Hj. apply (N1 j (mkMvec [] false)). rewrite B0. apply nth_repeat_some. exact Hj. }
  assert (LB1 : length (hb_buckets h1) = L) by (destruct W1 as [WL1 _]; congruence).
  assert (F1 : Forall (fun b => length (mv_items b) <= hb_maxload h1)%nat (hb_buckets h1)).
  { apply Forall_forall. intros bk Hin. apply In_nth_error in Hin. destruct Hin as [j Hj].
    assert (Hjl : (j < L)%nat) by (rewrite <- LB1; apply nth_error_Some; congruence).
    rewrite (N1' j Hjl) in Hj. injection Hj as <-. cbn [mv_items]. rewrite M1. apply HF. exact Hjl. }
  destruct (conceal_spec (conceal_gen sha rand fuel p) h1 (Ok (new_zpprf p pos)) W1 F1) as [h2' [fillers HC]]. cbv zeta in HC.
  destruct HC as [EC [CF [[K2 [M2 [A2 [S2 [n2 L2]]]]] N2]]]. rewrite EC in E2. apply Ok_inj in E2. injection E2 as -> Eg.
  assert (TI : total_items h1 = length zs).
  { unfold total_items. rewrite <- (belonging_total al L zs HL). 
    assert (G : hb_buckets h1 = map (fun j => mkMvec (belonging al L j zs) false) (seq 0 L)).
    { apply (nth_ext _ _ (mkMvec [] false) (mkMvec [] false)); [rewrite map_length, seq_length; exact LB1|]. intros j Hj. rewrite LB1 in Hj.
      rewrite (nth_error_nth _ _ _ (N1' j Hj)).
      rewrite (nth_indep _ _ (mkMvec (belonging al L 0 zs) false)) by (rewrite map_length, seq_length; exact Hj).
      rewrite (map_nth (fun j => mkMvec (belonging al L j zs) false)), seq_nth by exact Hj. reflexivity. }
    rewrite G. clear. induction (seq 0 L) as [|j l IH]; [reflexivity|]. cbn [map fold_right list_sum mv_items] in *. unfold list_sum in IH. cbn. lia. }
  rewrite K1, M1, TI in CF. unfold zs in CF. rewrite map_length in CF. fold zs in CF.
  destruct (draws_dummies sha rand fuel p pos (L * h - length raw) HS ltac:(lia) Hnb) as [st ED]. rewrite ED in CF. cbn [fst] in CF.
  intros j Hj. destruct (N2 j _ (N1' j Hj)) as [b' [f [Eb [Ef [Ei [El Em]]]]]]. cbn [mv_items] in Ei.
  assert (LF : forall k x, (k < L)%nat -> nth_error fillers k = Some x -> length x = free al L h zs k).
  { intros k x Hk Ex. destruct (N2 k _ (N1' k Hk)) as [b2 [f2 [_ [Ef2 [Ei2 [El2 _]]]]]]. rewrite Ef2 in Ex. injection Ex as ->.
    cbn [mv_items] in Ei2. rewrite Ei2, app_length, M1 in El2. unfold free. lia. }
  exists (mv_marked b'). unfold getBucket. destruct (Nat.ltb_spec j (hb_k h2)); [|lia]. apply aget_ok. rewrite Eb. f_equal.
  unfold filled_up, slice. rewrite <- CF, <- (LF j f Hj Ef). unfold free_before.
  rewrite <- (lengths_before fillers (free al L h zs) j); [|apply Nat.lt_le_incl, nth_error_Some; congruence|intros k x Hk; apply LF; lia].
  rewrite <- (piece fillers j f Ef), <- Ei. destruct b'; reflexivity.
Qed.

(** *** counting *)
Lemma vectors_app p m : forall n, vectors p (m + n) = flat_map (fun ds => map (app ds) (vectors p n)) (vectors p m).
Proof.
  induction m as [|m IH]; intros n.
  - cbn [Nat.add vectors flat_map]. rewrite app_nil_r. symmetry. apply map_id.
  - cbn [Nat.add vectors]. induction (map Z.of_nat (seq 0 (Z.to_nat p))) as [|c l IHl]; [reflexivity|].
    cbn [flat_map]. rewrite flat_map_app, <- IHl. f_equal. rewrite IH. clear.
    induction (vectors p m) as [|d l IH]; [reflexivity|]. cbn [flat_map map]. rewrite map_app, IH, map_map. reflexivity.
Qed.
Lemma filter_flat_bound {A B} (f : B -> bool) (g : A -> list B) c K l :
  (forall a, In a l -> Z.of_nat (length (filter f (g a))) * c <= K) ->
  Z.of_nat (length (filter f (flat_map g l))) * c <= Z.of_nat (length l) * K.
Proof.
  induction l as [|a l IH]; intros H; [cbn; lia|]. cbn [flat_map length]. rewrite filter_app, app_length.
  assert (H1 := H a (or_introl eq_refl)). specialize (IH ltac:(intros; apply H; now right)). nia.
Qed.
Lemma filter_map_length {A B} (f : B -> bool) (g : A -> B) l : length (filter f (map g l)) = length (filter (fun a => f (g a)) l).
Proof. induction l as [|a l IH]; [reflexivity|]. cbn [map filter]. destruct (f (g a)); cbn [length]; lia. Qed.
Lemma filter_length_imp {A} (f g : A -> bool) l : (forall a, In a l -> f a = true -> g a = true) -> (length (filter f l) <= length (filter g l))%nat.
Proof.
  induction l as [|a l IH]; intros H; [cbn; lia|]. cbn [filter]. specialize (IH ltac:(intros x Hx; apply H; now right)).
  assert (H1 := H a (or_introl eq_refl)). destruct (f a); [rewrite H1 by reflexivity; cbn [length]; lia|]. destruct (g a); cbn [length]; lia.
Qed.
Lemma nth_in_field p (l : list Z) e : 0 < p -> Forall (fun c => 0 <= c < p) l -> 0 <= nth e l 0 < p.
Proof.
  intros Hp F. destruct (Nat.lt_ge_cases e (length l)) as [H|H]; [|rewrite nth_overflow by exact H; lia].
  rewrite Forall_forall in F. apply F. now apply nth_In.
Qed.
Lemma Forall_slice {P : Z -> Prop} i h l : Forall P l -> Forall P (slice i h l).
Proof.
  intros F. unfold slice. apply Forall_forall. intros x Hx. rewrite Forall_forall in F. apply F.
  rewrite <- (firstn_skipn i l). apply in_or_app. right. rewrite <- (firstn_skipn h (skipn i l)). apply in_or_app. now left.
Qed.

Lemma nth_firstn_lt i k (l : list Z) : (i < k)%nat -> nth i (firstn k l) 0 = nth i l 0.
Proof.
  intros H. destruct (Nat.lt_ge_cases i (length l)) as [Hl|Hl]; [|rewrite !nth_overflow; [reflexivity|exact Hl|rewrite firstn_length; lia]].
  rewrite <- (firstn_skipn k l) at 2. rewrite app_nth1 by (rewrite firstn_length; lia). reflexivity.
Qed.
Lemma nth_skip i k : forall l : list Z, nth i (skipn k l) 0 = nth (k + i) l 0.
Proof. induction k as [|k IH]; intros [|x l]; cbn [skipn Nat.add nth]; try reflexivity; [destruct i; reflexivity|apply IH]. Qed.

Section Meet.
Variables (p : Z) (L h : nat) (al : halgo Z) (zA zB : list Z).
Hypothesis HP2 : 2 < p.
Hypothesis HL : (0 < L)%nat.
Hypothesis FA : Forall (in_field p) zA.
Hypothesis FB : Forall (in_field p) zB.
Hypothesis fitA : fits al L h zA.
Hypothesis fitB : fits al L h zB.
Variable n : nat.
#[local] Notation mA := (L * h - length zA)%nat.
#[local] Notation mB := (L * h - length zB)%nat.
(** a vector of choices: the dummies of both, then [n] more *)
Definition dumA (xs : list Z) : list Z := slice 0 mA xs.
Definition dumB (xs : list Z) : list Z := slice mA mB xs.
Definition bucketA (xs : list Z) (j : nat) : list Z := filled_up al L h zA (dumA xs) j.
Definition bucketB (xs : list Z) (j : nat) : list Z := filled_up al L h zB (dumB xs) j.

Lemma belonging_field zs j : Forall (in_field p) zs -> Forall (in_field p) (belonging al L j zs).
Proof. intros F. apply Forall_forall. intros x Hx. rewrite Forall_forall in F. apply F. unfold belonging in Hx. apply filter_In in Hx. apply Hx. Qed.
Lemma filled_field zs ds j : Forall (in_field p) zs -> Forall (in_field p) ds -> Forall (in_field p) (filled_up al L h zs ds j).
Proof. intros F1 F2. unfold filled_up. apply Forall_app. split; [now apply belonging_field|now apply Forall_slice]. Qed.
Lemma filled_length zs ds j : fits al L h zs -> length ds = (L * h - length zs)%nat -> (j < L)%nat -> length (filled_up al L h zs ds j) = h.
Proof.
  intros HF HD Hj. unfold filled_up. rewrite app_length, slice_length.
  - unfold free. specialize (HF j Hj). lia.
  - rewrite HD, <- (free_total al L h zs HL HF), <- free_before_S. apply free_before_le. lia.
Qed.
Lemma xs_parts xs : In xs (vectors p (mA + mB + n)) ->
  length (dumA xs) = mA /\ length (dumB xs) = mB /\ Forall (in_field p) (dumA xs) /\ Forall (in_field p) (dumB xs).
Proof.
  intros H. apply vectors_in in H as [HLen HF]. unfold dumA, dumB. rewrite !slice_length by lia.
  split; [reflexivity|]. split; [reflexivity|]. split; now apply Forall_slice.
Qed.

(** the places of dummies: (bucket, position in the vector) *)
Definition places (zs : list Z) (off : nat) : list (nat * nat) :=
  flat_map (fun j => map (fun i => (j, off + free_before al L h zs j + i)%nat) (seq 0 (free al L h zs j))) (seq 0 L).
Lemma places_length zs off : fits al L h zs -> length (places zs off) = (L * h - length zs)%nat.
Proof.
  intros HF. rewrite <- (free_total al L h zs HL HF). unfold places, free_before.
  induction (seq 0 L) as [|j l IH]; [reflexivity|]. cbn [flat_map map list_sum fold_right]. rewrite app_length, map_length, seq_length.
  change (fold_right Nat.add 0%nat) with list_sum. lia.
Qed.
Lemma places_in zs off j k : fits al L h zs -> In (j, k) (places zs off) -> (j < L /\ off <= k < off + (L * h - length zs))%nat.
Proof.
  intros HF H. unfold places in H. apply in_flat_map in H as (j' & Hj & H). apply in_map_iff in H as (i & E & Hi). injection E as -> <-.
  apply in_seq in Hj, Hi. rewrite <- (free_total al L h zs HL HF).
  assert (H1 := free_before_le al L h zs (S j) L ltac:(lia)). rewrite free_before_S in H1. lia.
Qed.

Definition hitA (x : nat * nat * nat) (xs : list Z) : bool := let '(j, k, e) := x in nth k xs 0 =? nth e (bucketB xs j) 0.
Definition hitB (x : nat * nat * nat) (xs : list Z) : bool := let '(j, k, e) := x in nth k xs 0 =? nth e (bucketA xs j) 0.
Definition meets (xs : list Z) : bool :=
  existsb (fun x => hitA x xs) (list_prod (places zA 0) (seq 0 h)) || existsb (fun x => hitB x xs) (list_prod (places zB mA) (seq 0 h)).

Lemma nth_mid (a b : list Z) c : nth (length a) (a ++ c :: b) 0 = c.
Proof. rewrite app_nth2, Nat.sub_diag by lia. reflexivity. Qed.
Lemma hitA_count j k e : In (j, k) (places zA 0) -> length (filter (hitA (j, k, e)) (vectors p (mA + mB + n))) = length (vectors p (mA + mB + n - 1)).
Proof.
  intros H. apply places_in in H; [|exact fitA]. apply (count_one p _ k); [lia|]. intros a b Ha Hl Hf.
  exists (nth e (filled_up al L h zB (slice (mA - 1) mB (a ++ b)) j) 0). split.
  - apply nth_in_field; [lia|]. apply filled_field; [exact FB|]. now apply Forall_slice.
  - intros c Hc. unfold hitA, bucketB, dumB. rewrite <- Ha at 1. rewrite nth_mid, Z.eqb_eq. rewrite slice_after by lia. reflexivity.
Qed.
Lemma hitB_count j k e : In (j, k) (places zB mA) -> length (filter (hitB (j, k, e)) (vectors p (mA + mB + n))) = length (vectors p (mA + mB + n - 1)).
Proof.
  intros H. apply places_in in H; [|exact fitB]. apply (count_one p _ k); [lia|]. intros a b Ha Hl Hf.
  exists (nth e (filled_up al L h zA (slice 0 mA a) j) 0). split.
  - apply nth_in_field; [lia|]. apply filled_field; [exact FA|]. apply Forall_slice. apply Forall_app in Hf. apply Hf.
  - intros c Hc. unfold hitB, bucketA, dumA. rewrite <- Ha at 1. rewrite nth_mid, Z.eqb_eq. rewrite slice_before by lia. reflexivity.
Qed.
Lemma meets_count : Z.of_nat (length (filter meets (vectors p (mA + mB + n)))) * p <= Z.of_nat ((mA + mB) * h) * p ^ Z.of_nat (mA + mB + n).
Proof.
  set (V := vectors p (mA + mB + n)). set (V1 := vectors p (mA + mB + n - 1)).
  assert (B1 : (length (filter (fun xs => existsb (fun x => hitA x xs) (list_prod (places zA 0) (seq 0 h))) V) <= (mA * h) * length V1)%nat).
  { eapply Nat.le_trans; [apply (filter_union hitA _ V (length V1))|].
    - intros [[j k] e] Hx. apply in_prod_iff in Hx as [Hx _]. unfold V, V1. rewrite hitA_count by exact Hx. lia.
    - rewrite prod_length, seq_length, places_length by exact fitA. lia. }
  assert (B2 : (length (filter (fun xs => existsb (fun x => hitB x xs) (list_prod (places zB mA) (seq 0 h))) V) <= (mB * h) * length V1)%nat).
  { eapply Nat.le_trans; [apply (filter_union hitB _ V (length V1))|].
    - intros [[j k] e] Hx. apply in_prod_iff in Hx as [Hx _]. unfold V, V1. rewrite hitB_count by exact Hx. lia.
    - rewrite prod_length, seq_length, places_length by exact fitB. lia. }
  assert (B : (length (filter meets V) <= ((mA + mB) * h) * length V1)%nat).
  { assert (S1 : forall (f g : list Z -> bool) l, (length (filter (fun x => f x || g x) l) <= length (filter f l) + length (filter g l))%nat).
    { clear. intros f g. induction l as [|x l IH]; [cbn; lia|]. cbn [filter]. destruct (f x); destruct (g x); cbn [orb length]; lia. }
    eapply Nat.le_trans; [apply S1|]. nia. }
  destruct (Nat.eq_dec ((mA + mB) * h) 0) as [Z0|NZ].
  - rewrite Z0 in *. assert (length (filter meets V) = 0)%nat by lia. rewrite H. cbn. lia.
  - assert (PN : (0 < mA + mB + n)%nat) by nia.
    assert (E1 : Z.of_nat (length V1) * p = p ^ Z.of_nat (mA + mB + n)).
    { unfold V1. rewrite vectors_length by lia. rewrite Z.mul_comm, <- Z.pow_succ_r by lia. f_equal. lia. }
    rewrite <- E1. apply Nat2Z.inj_le in B. rewrite Nat2Z.inj_mul in B. nia.
Qed.

(** without a meeting, common values are real data of both *)
Lemma no_meeting xs j z : In xs (vectors p (mA + mB + n)) -> meets xs = false -> (j < L)%nat ->
  In z (bucketA xs j) -> In z (bucketB xs j) -> In z (belonging al L j zA) /\ In z (belonging al L j zB).
Proof.
  intros HX HM Hj IA IB. destruct (xs_parts xs HX) as (LA & LB & _ & _). apply vectors_in in HX as [HLen _].
  apply orb_false_elim in HM as [M1 M2].
  assert (EX : forall R, length R = h -> In z R -> exists e, In e (seq 0 h) /\ nth e R 0 = z).
  { intros R HR Hin. apply (In_nth _ _ 0) in Hin as (e & He & En). exists e. split; [apply in_seq; lia|exact En]. }
  assert (SL : forall zs off m, fits al L h zs -> m = (L * h - length zs)%nat -> (off + m <= length xs)%nat ->
     In z (slice (free_before al L h zs j) (free al L h zs j) (slice off m xs)) -> exists k, In (j, k) (places zs off) /\ nth k xs 0 = z).
  { intros zs off m HF -> HO Hin. apply (In_nth _ _ 0) in Hin as (i & Hi & En).
    assert (H1 := free_before_le al L h zs (S j) L ltac:(lia)). rewrite free_before_S, (free_total al L h zs HL HF) in H1.
    rewrite slice_length in Hi by (rewrite slice_length by exact HO; exact H1).
    exists (off + free_before al L h zs j + i)%nat. split.
    - unfold places. apply in_flat_map. exists j. split; [apply in_seq; lia|]. apply in_map_iff. exists i. split; [reflexivity|]. apply in_seq. lia.
    - rewrite <- En. unfold slice. rewrite !nth_firstn_lt by lia. rewrite !nth_skip. rewrite nth_firstn_lt by lia. rewrite nth_skip. f_equal. lia. }
  assert (NA : ~ In z (slice (free_before al L h zA j) (free al L h zA j) (dumA xs))).
  { intros Hin. destruct (SL zA 0%nat mA fitA eq_refl ltac:(lia) Hin) as (k & Hk & En).
    destruct (EX (bucketB xs j)) as (e & He & Ee); [apply filled_length; assumption|exact IB|].
    assert (T : existsb (fun x => hitA x xs) (list_prod (places zA 0) (seq 0 h)) = true); [|congruence].
    apply existsb_exists. exists (j, k, e). split; [apply in_prod; assumption|]. unfold hitA. apply Z.eqb_eq. congruence. }
  assert (NB : ~ In z (slice (free_before al L h zB j) (free al L h zB j) (dumB xs))).
  { intros Hin. destruct (SL zB mA mB fitB eq_refl ltac:(lia) Hin) as (k & Hk & En).
    destruct (EX (bucketA xs j)) as (e & He & Ee); [apply filled_length; assumption|exact IA|].
    assert (T : existsb (fun x => hitB x xs) (list_prod (places zB mA) (seq 0 h)) = true); [|congruence].
    apply existsb_exists. exists (j, k, e). split; [apply in_prod; assumption|]. unfold hitB. apply Z.eqb_eq. congruence. }
  unfold bucketA, bucketB, filled_up in IA, IB. apply in_app_or in IA, IB. tauto.
Qed.
End Meet.
