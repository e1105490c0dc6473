From Verif Require Import Base Spec Lib StrIntSpec StrIntModel StrIntProofs HashBucketsModel HashBucketsSpec HashBucketsProofs AllocModel AllocSpec.

Lemma reserved_eq ml : reserved ml = 1 + w64 (3 * Z.of_nat ml) / 4.
Proof.
  unfold reserved. apply w64_small. pose proof (w64_range (3 * Z.of_nat ml)). unfold M64 in *. lia.
Qed.
Lemma reserved_pos ml : 1 <= reserved ml.
Proof. rewrite reserved_eq. pose proof (w64_range (3 * Z.of_nat ml)). lia. Qed.

Lemma app_nth_cases {A} (l1 l2 : list A) i x : nth_error (l1 ++ l2) i = Some x ->
  (nth_error l1 i = Some x /\ (i < length l1)%nat) \/ (exists k, i = (length l1 + k)%nat /\ nth_error l2 k = Some x).
Proof.
  intros H. destruct (Nat.lt_ge_cases i (length l1)) as [L|L].
  - left. rewrite nth_error_app1 in H by lia. auto.
  - right. exists (i - length l1)%nat. rewrite nth_error_app2 in H by lia. split; [lia|exact H].
Qed.

Section P.
Context {T : Type}.
Variable ok : nat -> bool.
Variable pol : policy.
Hypothesis POL : policy_ok pol.

(** invariant: every bucket has its storage *)
Definition caps_ok (ml : nat) (bs : list (mvec T)) (caps : list Z) : Prop :=
  Forall2 (fun b c => Z.of_nat (length (mv_items b)) <= c /\ reserved ml <= c <= p_max pol) bs caps.
Definition awf (t : @atable T) : Prop :=
  hwf (at_hb t) /\ caps_ok (hb_maxload (at_hb t)) (hb_buckets (at_hb t)) (at_caps t).

Lemma Forall2_nth {A B} (R : A -> B -> Prop) l1 l2 i a : Forall2 R l1 l2 -> nth_error l1 i = Some a ->
  exists b, nth_error l2 i = Some b /\ R a b.
Proof.
  intros F; revert i; induction F; intros [|i] E; try discriminate; cbn in *.
  - inversion E; subst; eauto.
  - eauto.
Qed.
Lemma Forall2_upd {A B} (R : A -> B -> Prop) l1 l2 i a b : Forall2 R l1 l2 -> R a b -> Forall2 R (upd l1 i a) (upd l2 i b).
Proof. intros F; revert i; induction F; intros [|i] E; cbn; constructor; auto. Qed.
Lemma Forall2_upd_l {A B} (R : A -> B -> Prop) l1 l2 i a b : Forall2 R l1 l2 -> nth_error l2 i = Some b -> R a b -> Forall2 R (upd l1 i a) l2.
Proof. intros F; revert i; induction F; intros [|i] E r; try discriminate; cbn in *; constructor; auto. inversion E; subst; exact r. Qed.

Definition pushed (bs : list (mvec T)) (i : nat) (e : T) : list (mvec T) :=
  match nth_error bs i with Some b => upd bs i (mkMvec (mv_items b ++ [e]) (mv_marked b)) | None => bs end.
Lemma push_at_pushed bs i (e : T) : (i < length bs)%nat -> push_at bs i e = Ok (pushed bs i e).
Proof. intros H. destruct (push_at_ok bs i e H) as [b [E1 E2]]. unfold pushed. rewrite E1. exact E2. Qed.
Lemma push_at_out bs i (e : T) : (length bs <= i)%nat -> push_at bs i e = UB OutOfBounds.
Proof. intros H. unfold push_at, aget. apply nth_error_None in H. rewrite H. reflexivity. Qed.

(** what the calls may do to memory: nothing is leaked, attempts are counted *)
Definition frame (m m1 : mem) : Prop := m_live m1 = m_live m /\ (m_tries m <= m_tries m1)%nat.
Lemma frame_refl m : frame m m. Proof. split; [reflexivity|lia]. Qed.
Lemma frame_trans a b c : frame a b -> frame b c -> frame a c.
Proof. unfold frame. intros [? ?] [? ?]; split; [congruence|lia]. Qed.
Definition why (m m1 : mem) (x : exn) (h : hb T) : Prop :=
  match x with
  | BadAlloc => failed ok (m_tries m) (m_tries m1)
  | LengthError => exists b, In b (hb_buckets h) /\ p_max pol <= Z.of_nat (length (mv_items b))
  end.

Lemma a_push_cases m (t : @atable T) i e :
  length (hb_buckets (at_hb t)) = hb_k (at_hb t) -> caps_ok (hb_maxload (at_hb t)) (hb_buckets (at_hb t)) (at_caps t) ->
  (i < hb_k (at_hb t))%nat ->
  (exists m1 caps1, a_push ok pol m t i e = Done m1 (mkAt (with_buckets (at_hb t) (pushed (hb_buckets (at_hb t)) i e)) caps1) /\
     caps_ok (hb_maxload (at_hb t)) (pushed (hb_buckets (at_hb t)) i e) caps1 /\ frame m m1 /\
     forall b, nth_error (hb_buckets (at_hb t)) i = Some b -> Z.of_nat (length (mv_items b)) < reserved (hb_maxload (at_hb t)) -> m1 = m) \/
  (exists m1 x, a_push ok pol m t i e = Thrown m1 x t /\ frame m m1 /\ why m m1 x (at_hb t) /\
     forall b, nth_error (hb_buckets (at_hb t)) i = Some b -> reserved (hb_maxload (at_hb t)) <= Z.of_nat (length (mv_items b))).
Proof.
  intros L C Hi. rewrite <- L in Hi. destruct (aget_lt _ _ Hi) as [b [Eb Eb']].
  destruct (Forall2_nth _ _ _ _ _ C Eb') as [c [Ec [R1 R2]]].
  unfold a_push. rewrite Eb. cbn [run_res]. unfold aget. rewrite Ec. cbn [run_res].
  rewrite (push_at_pushed _ _ e Hi). cbn [run_res].
  assert (Pq : pushed (hb_buckets (at_hb t)) i e = upd (hb_buckets (at_hb t)) i (mkMvec (mv_items b ++ [e]) (mv_marked b)))
    by (unfold pushed; rewrite Eb'; reflexivity).
  assert (PL : Z.of_nat (length (mv_items b ++ [e])) = Z.of_nat (length (mv_items b)) + 1) by (rewrite app_length; cbn; lia).
  destruct (Z.ltb_spec (Z.of_nat (length (mv_items b))) c).
  - left. exists m, (at_caps t). split; [reflexivity|]. split; [|split; [apply frame_refl|auto]].
    rewrite Pq. eapply Forall2_upd_l; eauto. cbn [mv_items]. lia.
  - assert (Hb : forall b0, nth_error (hb_buckets (at_hb t)) i = Some b0 -> reserved (hb_maxload (at_hb t)) <= Z.of_nat (length (mv_items b0)))
      by (intros b0 E0; rewrite Eb' in E0; inversion E0; subst; lia).
    destruct (Z.leb_spec (p_max pol) c).
    + right. exists m, LengthError. split; [reflexivity|]. split; [apply frame_refl|]. split; [|exact Hb].
      exists b. split; [eapply nth_error_In; eauto|lia].
    + pose proof (reserved_pos (hb_maxload (at_hb t))). destruct POL as [_ PG]. specialize (PG c ltac:(lia)).
      unfold vec_new. destruct (Z.ltb_spec (p_max pol) (p_grow pol c)); [lia|].
      destruct (ok (m_tries m)) eqn:Eo.
      * left. do 2 eexists. split; [reflexivity|]. split; [|split].
        -- rewrite Pq. apply Forall2_upd; [exact C|]. cbn [mv_items]. lia.
        -- split; cbn; lia.
        -- intros b0 E0 Lt. apply Hb in E0. lia.
      * right. do 2 eexists. split; [reflexivity|]. split; [split; cbn; lia|]. split; [|exact Hb].
        exists (m_tries m). cbn. split; [lia|exact Eo].
Qed.

Lemma pushed_length bs i (e : T) : length (pushed bs i e) = length bs.
Proof. unfold pushed. destruct (nth_error bs i); [apply upd_length|reflexivity]. Qed.

(** *** add and addToBucket *)
Definition lower {A} (r : res unit) : res A :=
  match r with Ok _ => NoFuel | Exit c => Exit c | UB w => UB w | Abort => Abort | NoFuel => NoFuel end.

Definition awf_caps (t : @atable T) : awf t -> caps_ok (hb_maxload (at_hb t)) (hb_buckets (at_hb t)) (at_caps t) := fun H => proj2 H.

Lemma a_add_cases m t e : awf t ->
  (exists m1 t1, a_add ok pol m t e = Done m1 t1 /\ hb_add (at_hb t) e = Ok (at_hb t1) /\ awf t1 /\ frame m m1) \/
  (exists m1 x t1, a_add ok pol m t e = Thrown m1 x t1 /\ same_table (at_hb t1) (at_hb t) /\ awf t1 /\ frame m m1 /\ why m m1 x (at_hb t)) \/
  (exists r, a_add ok pol m t e = Stop r /\ hb_add (at_hb t) e = lower r).
Proof.
  intros W. pose proof W as [Wh C]. pose proof Wh as [WL [WN WA]]. unfold a_add, hb_add.
  destruct (hb_strint (at_hb t)) as [s|] eqn:Es.
  2:{ destruct (Nat.eq_dec (hb_k (at_hb t)) 0) as [K|K].
      - right. right. unfold a_push. rewrite push_at_out by lia. unfold aget.
        replace (nth_error (hb_buckets (at_hb t)) 0) with (@None (mvec T)) by (symmetry; apply nth_error_None; lia).
        cbn. eexists; split; reflexivity.
      - rewrite (push_at_pushed _ 0 e) by lia. cbn [bind].
        destruct (a_push_cases m t 0%nat e WL C ltac:(lia)) as [[m1 [c1 [E [C1 [F _]]]]]|[m1 [x [E [F [Y _]]]]]]; rewrite E.
        + left. do 2 eexists. split; [reflexivity|]. split; [reflexivity|]. split; [|exact F].
          split; [|exact C1]. unfold hwf, with_buckets; cbn. rewrite pushed_length. rewrite Es in *. auto.
        + right; left. do 3 eexists. split; [reflexivity|]. split; [repeat split|]. split; [exact W|]. split; [exact F|exact Y]. }
  destruct (hb_algo (at_hb t)) as [al|] eqn:Ea; [|contradiction].
  destruct WA as [V [Ws Ls]]. pose proof V as [V1 V2].
  destruct (set_bytes_ok s (ha_hash al e) (ha_size al) Ws V1) as [s1 [E1 [W1 [L1 [Z1 _]]]]].
  { rewrite Ls, Nat.min_id. apply V2. }
  rewrite E1. cbn [bind run_res]. unfold rem. destruct (Z.eqb_spec (Z.of_nat (hb_k (at_hb t))) 0).
  { right; right. cbn [bind run_res]. eexists; split; reflexivity. }
  cbn [bind run_res]. rewrite Ls, Nat.min_id in Z1. rewrite Z1.
  change (Z.to_nat (LE (firstn (ha_size al) (ha_hash al e)) mod Z.of_nat (hb_k (at_hb t)))) with (index_of al (hb_k (at_hb t)) e).
  set (i := index_of al (hb_k (at_hb t)) e).
  assert (Hi : (i < hb_k (at_hb t))%nat) by (apply index_lt; lia).
  destruct (aget_lt (hb_buckets (at_hb t)) i ltac:(lia)) as [b [Eb Eb']]. rewrite Eb. cbn [bind run_res].
  destruct (Nat.eqb (length (mv_items b)) (hb_maxload (at_hb t))).
  { right; right. cbn. eexists; split; reflexivity. }
  rewrite (push_at_pushed _ i e) by lia. cbn [bind].
  set (t' := mkAt _ _).
  assert (W' : awf t').
  { split; [|exact C]. unfold hwf, t'; cbn. try rewrite Ea. split; [exact WL|]. split; [exact WN|]. split; [exact V|]. split; [exact W1|congruence]. }
  destruct (a_push_cases m t' i e WL C Hi) as [[m1 [c1 [E [C1 [F _]]]]]|[m1 [x [E [F [Y _]]]]]]; rewrite E.
  - left. do 2 eexists. split; [reflexivity|]. split; [cbn; try rewrite Ea; reflexivity|]. split; [|exact F].
    split; [|exact C1]. unfold hwf, with_buckets, t'; cbn. rewrite pushed_length; try rewrite Ea. split; [exact WL|]. split; [exact WN|]. split; [exact V|]. split; [exact W1|congruence].
  - right; left. do 3 eexists. split; [reflexivity|]. split; [unfold t'; repeat split; cbn; auto|]. split; [exact W'|]. split; [exact F|exact Y].
Qed.

Lemma a_addTo_cases m t e i : awf t ->
  (exists m1 t1, a_addTo ok pol m t e i = Done m1 t1 /\ addToBucket (at_hb t) e i = Ok (at_hb t1) /\ awf t1 /\ frame m m1) \/
  (exists m1 x, a_addTo ok pol m t e i = Thrown m1 x t /\ frame m m1 /\ why m m1 x (at_hb t)) \/
  (exists r, a_addTo ok pol m t e i = Stop r /\ addToBucket (at_hb t) e i = lower r).
Proof.
  intros W. pose proof W as [Wh C]. pose proof Wh as [WL [WN WA]]. unfold a_addTo, addToBucket.
  destruct (Nat.ltb_spec i (hb_k (at_hb t))) as [Hi|Hi].
  2:{ right; right. cbn. eexists; split; reflexivity. }
  rewrite (push_at_pushed _ i e) by lia. cbn [bind].
  destruct (a_push_cases m t i e WL C Hi) as [[m1 [c1 [E [C1 [F _]]]]]|[m1 [x [E [F [Y _]]]]]]; rewrite E.
  - left. do 2 eexists. split; [reflexivity|]. split; [reflexivity|]. split; [|exact F].
    split; [|exact C1]. unfold hwf, with_buckets; cbn. rewrite pushed_length. auto.
  - right; left. eauto 6.
Qed.

Lemma why_mono m0 m m1 x (h h' : hb T) : frame m0 m -> hb_buckets h = hb_buckets h' -> why m m1 x h -> why m0 m1 x h'.
Proof.
  intros [_ F] E. destruct x; cbn.
  - intros [j [A B]]. exists j. split; [lia|exact B].
  - rewrite E. auto.
Qed.

Lemma a_addList_cases l n : forall i m t, awf t -> (i + n <= length l)%nat ->
  let body := fun i h => do e <- aget l i; hb_add h e in
  (exists m1 t1, a_addList ok pol n i l m t = Done m1 t1 /\ for_up n i body (at_hb t) = Ok (at_hb t1) /\ awf t1 /\ frame m m1) \/
  (exists m1 x t1 j h1, a_addList ok pol n i l m t = Thrown m1 x t1 /\ (j < n)%nat /\ for_up j i body (at_hb t) = Ok h1 /\ hwf h1 /\
     same_table (at_hb t1) h1 /\ awf t1 /\ frame m m1 /\ why m m1 x (at_hb t1)) \/
  (exists r, a_addList ok pol n i l m t = Stop r /\ for_up n i body (at_hb t) = lower r).
Proof.
  induction n as [|n IH]; intros i m t W Hl body; cbn [a_addList for_up].
  - left. do 2 eexists. split; [reflexivity|]. split; [reflexivity|]. split; [exact W|apply frame_refl].
  - destruct (aget_lt l i ltac:(lia)) as [e [Ee _]]. assert (BE : forall h, body i h = hb_add h e) by (intros h; unfold body; rewrite Ee; reflexivity). rewrite Ee. cbn [run_res]. rewrite !BE.
    destruct (a_add_cases m t e W) as [[m1 [t1 [E [A [W1 F]]]]]|[[m1 [x [t1 [E [S [W1 [F Y]]]]]]]|[r [E A]]]]; rewrite E.
    + rewrite A. cbn [bind].
      destruct (IH (S i) m1 t1 W1 ltac:(lia)) as [[m2 [t2 [E2 [A2 [W2 F2]]]]]|[[m2 [x [t2 [j [h2 [E2 [Hj [A2 [Wh2 [S2 [W2 [F2 Y2]]]]]]]]]]]]|[r [E2 A2]]]]; rewrite E2.
      * left. do 2 eexists. split; [reflexivity|]. split; [exact A2|]. split; [exact W2|eapply frame_trans; eauto].
      * right; left. exists m2, x, t2, (S j), h2. split; [reflexivity|]. split; [lia|]. split.
        { cbn [for_up]. rewrite BE, A. exact A2. }
        split; [exact Wh2|]. split; [exact S2|]. split; [exact W2|]. split; [eapply frame_trans; eauto|eapply why_mono; eauto].
      * right; right. eexists; split; [reflexivity|exact A2].
    + right; left. exists m1, x, t1, 0%nat, (at_hb t). split; [reflexivity|]. split; [lia|]. split; [reflexivity|].
      split; [apply W|]. split; [exact S|]. split; [exact W1|]. split; [exact F|].
      eapply why_mono; [apply frame_refl| |exact Y]. symmetry; apply S.
    + right; right. eexists; split; [reflexivity|]. rewrite A. destruct r; reflexivity.
Qed.

(** *** setHashAlgorithm *)
Lemma four (p : nat -> bool) m : (p m && p (S m) && p (S (S m)) && p (S (S (S m))))%bool = true \/ failed p m (m + 4).
Proof.
  destruct (p m) eqn:A; [|right; exists m; split; [lia|exact A]].
  destruct (p (S m)) eqn:B; [|right; exists (S m); split; [lia|exact B]].
  destruct (p (S (S m))) eqn:C; [|right; exists (S (S m)); split; [lia|exact C]].
  destruct (p (S (S (S m)))) eqn:D; [|right; exists (S (S (S m))); split; [lia|exact D]]. left; reflexivity.
Qed.
Lemma a_setAlgo_cases m t a : awf t -> match a with Some al => algo_valid al | None => True end ->
  (exists t1, a_setAlgo ok m t a = Done (mkMem (m_tries m + size_algo a) (m_live m + match a with Some _ => 3 | None => 0 end)) t1 /\
     setHashAlgorithm (at_hb t) a = Ok (at_hb t1) /\ at_caps t1 = at_caps t /\ awf t1) /\ ~ failed ok (m_tries m) (m_tries m + size_algo a) \/
  a_setAlgo ok m t a = Stop (Exit 2) /\ failed ok (m_tries m) (m_tries m + size_algo a).
Proof.
  intros W V. destruct a as [al|]; cbn [a_setAlgo size_algo].
  2:{ left. split. { exists t. rewrite Nat.add_0_r, Z.add_0_r. destruct m. split; [reflexivity|]. split; [reflexivity|]. split; [reflexivity|exact W]. }
      intros [j [A _]]; lia. }
  destruct (setHashAlgorithm_ok (at_hb t) (Some al) V) as [s [Ws [Ls Es]]].
  destruct (four ok (m_tries m)) as [A|A].
  - apply andb_prop in A; destruct A as [A A3]. apply andb_prop in A; destruct A as [A A2]. apply andb_prop in A; destruct A as [A0 A1].
    left. unfold guarded. cbn [tried m_tries m_live]. rewrite A0, A1, A2, A3. split.
    + rewrite Es. cbn [run_res]. eexists. split; [f_equal; f_equal; lia|]. split; [reflexivity|]. split; [reflexivity|].
      destruct W as [[WL [WN _]] C]. split; [|exact C]. unfold hwf; cbn. split; [exact WL|]. split; [exact WN|]. auto.
    + intros [j [B C]]. assert (D : j = m_tries m \/ j = S (m_tries m) \/ j = S (S (m_tries m)) \/ j = S (S (S (m_tries m)))) by lia.
      destruct D as [D|[D|[D|D]]]; subst j; congruence.
  - right. split; [|exact A]. unfold guarded. cbn [tried m_tries m_live].
    destruct A as [j [B C]]. assert (D : j = m_tries m \/ j = S (m_tries m) \/ j = S (S (m_tries m)) \/ j = S (S (S (m_tries m)))) by lia.
    destruct D as [D|[D|[D|D]]]; subst j; rewrite C; try reflexivity;
      repeat match goal with |- context [if ?b then _ else _] => destruct b; try reflexivity end.
Qed.

(** *** conceal *)
Section C.
Context {G : Type}.
Variable gen : G -> T * G.

Lemma upd_upd {A} (l : list A) i a b : upd (upd l i a) i b = upd l i b.
Proof. revert i; induction l as [|h l IH]; intros [|i]; cbn; [reflexivity..|f_equal; apply IH]. Qed.
Lemma upd_id {A} (l : list A) i a : nth_error l i = Some a -> upd l i a = l.
Proof. revert i; induction l as [|h l IH]; intros [|i] E; cbn in *; try discriminate; [congruence|f_equal; auto]. Qed.

Lemma hwf_buckets (h : hb T) bs : hwf h -> length bs = length (hb_buckets h) -> hwf (with_buckets h bs).
Proof. intros [A [B C]] E. unfold hwf, with_buckets; cbn. split; [congruence|auto]. Qed.

Lemma a_fill_cases i n : forall m t g b, awf t -> (i < hb_k (at_hb t))%nat -> nth_error (hb_buckets (at_hb t)) i = Some b ->
  let res n := with_buckets (at_hb t) (upd (hb_buckets (at_hb t)) i (mkMvec (mv_items b ++ fst (draws gen n g)) (mv_marked b))) in
  (exists m1 t1, a_fill ok pol gen n m t i g = Done m1 (t1, snd (draws gen n g)) /\ at_hb t1 = res n /\ awf t1 /\ frame m m1) \/
  (exists m1 x t1 j, a_fill ok pol gen n m t i g = Thrown m1 x (t1, snd (draws gen (S j) g)) /\ (j < n)%nat /\ at_hb t1 = res j /\
     awf t1 /\ frame m m1 /\ why m m1 x (at_hb t1)).
Proof.
  induction n as [|n IH]; intros m t g b W Hi Eb; cbn zeta.
  - left. exists m, t. split; [reflexivity|]. split; [|split; [exact W|apply frame_refl]].
    cbn [draws fst]. rewrite app_nil_r. rewrite upd_id by (rewrite Eb; destruct b; reflexivity). destruct (at_hb t); reflexivity.
  - cbn [a_fill draws]. destruct (gen g) as [x g1] eqn:Eg. pose proof W as [Wh C]. pose proof Wh as [WL _].
    destruct (a_push_cases m t i x WL C Hi) as [[m1 [c1 [E [C1 [F _]]]]]|[m1 [y [E [F [Y _]]]]]]; rewrite E.
    + set (t1 := mkAt _ c1).
      assert (P1 : pushed (hb_buckets (at_hb t)) i x = upd (hb_buckets (at_hb t)) i (mkMvec (mv_items b ++ [x]) (mv_marked b)))
        by (unfold pushed; rewrite Eb; reflexivity).
      assert (W1 : awf t1).
      { split; [|exact C1]. unfold t1; cbn [at_hb]. apply hwf_buckets; [exact Wh|apply pushed_length]. }
      assert (Eb1 : nth_error (hb_buckets (at_hb t1)) i = Some (mkMvec (mv_items b ++ [x]) (mv_marked b))).
      { unfold t1; cbn. rewrite P1. apply upd_nth_same. lia. }
      destruct (IH m1 t1 g1 _ W1 Hi Eb1) as [[m2 [t2 [E2 [A2 [W2 F2]]]]]|[m2 [z [t2 [j [E2 [Hj [A2 [W2 [F2 Y2]]]]]]]]]]; rewrite E2.
      * left. exists m2, t2. destruct (draws gen n g1) as [l g2]. cbn [fst snd] in *. split; [reflexivity|].
        split; [|split; [exact W2|eapply frame_trans; eauto]].
        rewrite A2. unfold t1, with_buckets; cbn. rewrite P1, upd_upd, <- app_assoc. reflexivity.
      * right. exists m2, z, t2, (S j). cbn [draws]. try rewrite Eg. cbn [draws] in *. destruct (gen g1) as [u g2] eqn:Eg2.
        split; [destruct (draws gen j g2); reflexivity|]. split; [lia|]. split.
        { rewrite A2. unfold t1, with_buckets; cbn. rewrite P1, upd_upd, <- app_assoc. destruct (draws gen j g1); reflexivity. }
        split; [exact W2|]. split; [eapply frame_trans; eauto|eapply why_mono; eauto].
    + right. exists m1, y, t, 0%nat. cbn [draws fst]. try rewrite Eg. split; [reflexivity|]. split; [lia|].
      split. { rewrite app_nil_r. rewrite upd_id by (rewrite Eb; destruct b; reflexivity). destruct (at_hb t); reflexivity. }
      split; [exact W|]. split; [exact F|exact Y].
Qed.

Definition new_mark (b : mvec T) : bool := match mv_items b with [] => true | _ => mv_marked b end.
Lemma mark_empty_eq (b : mvec T) : mark_empty b = mkMvec (mv_items b) (new_mark b).
Proof. destruct b as [[|x l] k]; reflexivity. Qed.

Lemma a_concealFrom_cases post : forall pre m t g, awf t -> hb_buckets (at_hb t) = pre ++ post ->
  let ml := hb_maxload (at_hb t) in
  (exists m1 t1, a_concealFrom ok pol gen (length post) (length pre) m t g = Done m1 (t1, snd (conceal_list gen ml post g)) /\
     at_hb t1 = with_buckets (at_hb t) (pre ++ fst (conceal_list gen ml post g)) /\ awf t1 /\ frame m m1) \/
  (exists m1 x t1 p1 b p2 j, let g1 := snd (conceal_list gen ml p1 g) in
     a_concealFrom ok pol gen (length post) (length pre) m t g = Thrown m1 x (t1, snd (draws gen (S j) g1)) /\
     post = p1 ++ b :: p2 /\ (j < ml - length (mv_items b))%nat /\
     at_hb t1 = with_buckets (at_hb t) (pre ++ fst (conceal_list gen ml p1 g) ++ mkMvec (mv_items b ++ fst (draws gen j g1)) (new_mark b) :: p2) /\
     awf t1 /\ frame m m1 /\ why m m1 x (at_hb t1)).
Proof.
  induction post as [|b post IH]; intros pre m t g W Eq ml; cbn [length a_concealFrom].
  - left. exists m, t. split; [reflexivity|]. split; [|split; [exact W|apply frame_refl]].
    cbn. rewrite <- Eq. destruct (at_hb t); reflexivity.
  - assert (Hb : nth_error (hb_buckets (at_hb t)) (length pre) = Some b)
      by (rewrite Eq, nth_error_app2, Nat.sub_diag by lia; reflexivity).
    unfold aget. rewrite Hb. cbn [run_res].
    set (t0 := mkAt _ _). fold ml. set (n := (ml - length (mv_items b))%nat).
    pose proof W as [Wh C]. pose proof Wh as [WL _].
    assert (Hk : (length pre < hb_k (at_hb t))%nat) by (rewrite <- WL, Eq, app_length; cbn; lia).
    assert (W0 : awf t0).
    { split; [apply hwf_buckets; [exact Wh|apply upd_length]|]. unfold t0; cbn [at_hb at_caps with_buckets hb_maxload hb_buckets].
      destruct (Forall2_nth _ _ _ _ _ C Hb) as [c [Ec R]]. eapply Forall2_upd_l; [exact C|exact Ec|].
      rewrite mark_empty_eq. exact R. }
    assert (Hb0 : nth_error (hb_buckets (at_hb t0)) (length pre) = Some (mark_empty b)).
    { unfold t0; cbn. apply upd_nth_same. lia. }
    assert (U : forall v, upd (hb_buckets (at_hb t0)) (length pre) v = pre ++ v :: post).
    { intros v. unfold t0; cbn. rewrite upd_upd, Eq. apply upd_mid. }
    destruct (a_fill_cases (length pre) n m t0 g _ W0 Hk Hb0) as [[m1 [t1 [E [A [W1 F]]]]]|[m1 [x [t1 [j [E [Hj [A [W1 [F Y]]]]]]]]]]; rewrite E;
      rewrite U, mark_empty_eq in A; cbn [mv_items mv_marked] in A.
    + cbn [conceal_list]. unfold conceal_bucket. fold n. rewrite fill_draws. fold (new_mark b).
      set (b1 := mkMvec (mv_items b ++ fst (draws gen n g)) (new_mark b)) in *. set (g1 := snd (draws gen n g)) in *.
      assert (Eq1 : hb_buckets (at_hb t1) = (pre ++ [b1]) ++ post) by (rewrite A, <- app_assoc; reflexivity).
      assert (Eml : hb_maxload (at_hb t1) = ml) by (rewrite A; reflexivity).
      replace (S (length pre)) with (length (pre ++ [b1])) by (rewrite app_length; cbn; lia).
      destruct (IH (pre ++ [b1]) m1 t1 g1 W1 Eq1) as [[m2 [t2 [E2 [A2 [W2 F2]]]]]|[m2 [x [t2 [p1 [b' [p2 [j [E2 [Ep [Hj [A2 [W2 [F2 Y2]]]]]]]]]]]]]];
        rewrite Eml in *; rewrite E2.
      * left. exists m2, t2. destruct (conceal_list gen ml post g1) as [l g2]. cbn [fst snd] in *. split; [reflexivity|].
        split; [|split; [exact W2|eapply frame_trans; eauto]].
        rewrite A2, A, <- app_assoc. reflexivity.
      * right. exists m2, x, t2, (b :: p1), b', p2, j. cbn [conceal_list]. unfold conceal_bucket. fold n. rewrite fill_draws. fold (new_mark b). fold b1. fold g1.
        destruct (conceal_list gen ml p1 g1) as [l g2] eqn:Ec. cbn [fst snd] in *.
        split; [reflexivity|]. split; [rewrite Ep; reflexivity|]. split; [exact Hj|]. split; [|split; [exact W2|split; [eapply frame_trans; eauto|eapply why_mono; eauto]]].
        rewrite A2, A, <- app_assoc. reflexivity.
    + right. exists m1, x, t1, [], b, post, j. cbn [conceal_list fst snd]. split; [reflexivity|]. split; [reflexivity|]. split; [exact Hj|].
      split; [rewrite A; reflexivity|]. split; [exact W1|]. split; [exact F|exact Y].
Qed.

(** *** any call *)
Definition adds (o : @top T) : Z := match o with TSetAlgo (Some _) => 3 | _ => 0 end.

Lemma a_call_cases m t g o : awf t -> op_algo_valid o ->
  (exists m1 t1 g1, a_call ok pol gen m t g o = Done m1 (t1, g1) /\ apply_top gen (at_hb t, g) o = Ok (at_hb t1, g1) /\ awf t1 /\
     m_live m1 = m_live m + adds o /\ (m_tries m <= m_tries m1)%nat) \/
  (exists m1 x t1 g1, a_call ok pol gen m t g o = Thrown m1 x (t1, g1) /\ awf t1 /\ frame m m1 /\ why m m1 x (at_hb t1) /\
     adds o = 0 /\
     (is_conceal o \/ exists c h1, g1 = g /\ amounts o (Some x) c /\ run_table gen (at_hb t, g) c = Ok (h1, g) /\ hwf h1 /\ same_table (at_hb t1) h1)) \/
  (exists r, a_call ok pol gen m t g o = Stop r /\
     (apply_top gen (at_hb t, g) o = lower r \/ r = Exit 2 /\ (exists al, o = TSetAlgo (Some al)) /\ failed ok (m_tries m) (m_tries m + 4))).
Proof.
  intros W V. destruct o as [e|e i|l dim| |a]; cbn [a_call apply_top op_algo_valid adds] in *.
  - destruct (a_add_cases m t e W) as [[m1 [t1 [E [A [W1 [F1 F2]]]]]]|[[m1 [x [t1 [E [S [W1 [F Y]]]]]]]|[r [E A]]]]; rewrite E; cbn [with_gen].
    + left. exists m1, t1, g. rewrite A. split; [reflexivity|]. split; [reflexivity|]. split; [exact W1|]. split; [lia|exact F2].
    + right; left. exists m1, x, t1, g. split; [reflexivity|]. split; [exact W1|]. split; [exact F|].
      split; [eapply why_mono; [apply frame_refl| |exact Y]; symmetry; apply S|]. split; [reflexivity|]. right.
      exists [], (at_hb t). split; [reflexivity|]. split; [constructor|]. split; [reflexivity|]. split; [apply W|exact S].
    + right; right. exists r. split; [reflexivity|]. left. rewrite A. destruct r; reflexivity.
  - destruct (a_addTo_cases m t e i W) as [[m1 [t1 [E [A [W1 [F1 F2]]]]]]|[[m1 [x [E [F Y]]]]|[r [E A]]]]; rewrite E; cbn [with_gen].
    + left. exists m1, t1, g. rewrite A. split; [reflexivity|]. split; [reflexivity|]. split; [exact W1|]. split; [lia|exact F2].
    + right; left. exists m1, x, t, g. split; [reflexivity|]. split; [exact W|]. split; [exact F|].
      split; [exact Y|]. split; [reflexivity|]. right.
      exists [], (at_hb t). split; [reflexivity|]. split; [constructor|]. split; [reflexivity|]. split; [apply W|repeat split].
    + right; right. exists r. split; [reflexivity|]. left. rewrite A. destruct r; reflexivity.
  - unfold hb_add_list.
    destruct (a_addList_cases l dim 0%nat m t W V) as [[m1 [t1 [E [A [W1 [F1 F2]]]]]]|[[m1 [x [t1 [j [h1 [E [Hj [A [Wh [S [W1 [F Y]]]]]]]]]]]]|[r [E A]]]]; rewrite E; cbn [with_gen].
    + left. exists m1, t1, g. rewrite A. split; [reflexivity|]. split; [reflexivity|]. split; [exact W1|]. split; [lia|exact F2].
    + right; left. exists m1, x, t1, g. split; [reflexivity|]. split; [exact W1|]. split; [exact F|]. split; [exact Y|]. split; [reflexivity|]. right.
      exists [TAddList l j], h1. split; [reflexivity|]. split; [constructor; exact Hj|].
      split; [cbn [run_table apply_top]; unfold hb_add_list; rewrite A; reflexivity|]. split; [exact Wh|exact S].
    + right; right. exists r. split; [reflexivity|]. left. rewrite A. destruct r; reflexivity.
  - pose proof W as [[WL _] _]. unfold a_conceal. rewrite <- WL.
    destruct (a_concealFrom_cases (hb_buckets (at_hb t)) [] m t g W eq_refl) as
      [[m1 [t1 [E [A [W1 [F1 F2]]]]]]|[m1 [x [t1 [p1 [b [p2 [j [E [Ep [Hj [A [W1 [F Y]]]]]]]]]]]]]]; cbn [length] in E; rewrite E.
    + left. do 3 eexists. split; [reflexivity|]. split; [rewrite (conceal_eq gen _ g WL), A; reflexivity|]. split; [exact W1|]. split; [lia|exact F2].
    + right; left. do 4 eexists. split; [reflexivity|]. split; [exact W1|]. split; [exact F|]. split; [exact Y|]. split; [reflexivity|]. left; exact I.
  - destruct (a_setAlgo_cases m t a W V) as [[[t1 [E [A [_ W1]]]] _]|[E B]]; rewrite E; cbn [with_gen].
    + left. do 3 eexists. split; [reflexivity|]. split; [rewrite A; reflexivity|]. split; [exact W1|]. cbn. split; [destruct a; lia|lia].
    + right; right. eexists. split; [reflexivity|]. right. split; [reflexivity|]. destruct a as [al|]; [|destruct B as [j [B _]]; cbn in B; lia].
      split; [eauto|exact B].
Qed.

(** *** the scratch number does not matter *)
Lemma same_refl (h : hb T) : same_table h h. Proof. repeat split. Qed.
Lemma same_sym (h h' : hb T) : same_table h h' -> same_table h' h.
Proof. intros [A [B [C [D E]]]]. repeat split; auto. Qed.
Lemma same_trans (h h' h'' : hb T) : same_table h h' -> same_table h' h'' -> same_table h h''.
Proof. unfold same_table. intros [A [B [C [D E]]]] [A' [B' [C' [D' E']]]]. repeat split; congruence. Qed.

Definition alike {A B} (R : A -> B -> Prop) (r : res A) (r' : res B) : Prop :=
  match r, r' with
  | Ok a, Ok b => R a b
  | Exit c, Exit c' => c = c'
  | UB w, UB w' => w = w'
  | Abort, Abort | NoFuel, NoFuel => True
  | _, _ => False
  end.
Definition good (h h' : hb T) : Prop := same_table h h' /\ hwf h /\ hwf h'.

Lemma alike_add h h' e : good h h' -> alike good (hb_add h e) (hb_add h' e).
Proof.
  intros [S [W W']]. pose proof S as [A [B [C [D E]]]].
  destruct (hb_algo h) as [al|] eqn:Ea.
  - destruct (Nat.eq_dec (hb_k h) 0) as [K|K].
    + assert (N : forall h0 : hb T, hwf h0 -> hb_algo h0 = Some al -> hb_k h0 = 0%nat -> hb_add h0 e = Abort).
      { intros h0 [WL [WN WA]] E0 K0. unfold hb_add. rewrite E0 in *. destruct (hb_strint h0) as [s|]; [|contradiction].
        destruct WA as [[V1 V2] [Ws Ls]].
        destruct (set_bytes_ok s (ha_hash al e) (ha_size al) Ws V1) as [s1 [E1 _]]. { rewrite Ls, Nat.min_id. apply V2. }
        rewrite E1, K0. reflexivity. }
      rewrite (N h), (N h') by (auto; congruence). exact I.
    + destruct (hb_add_spec h al e W Ea ltac:(lia)) as [b [s1 [Hb [W1 [L1 E1]]]]].
      destruct (hb_add_spec h' al e W' ltac:(congruence) ltac:(lia)) as [b' [s1' [Hb' [W1' [L1' E1']]]]].
      rewrite <- B, <- D in Hb'. rewrite Hb in Hb'. inversion Hb'; subst b'. 
      destruct (hb_add h e) as [x| | | |] eqn:X; destruct (hb_add h' e) as [x'| | | |] eqn:X';
        rewrite <- C in E1'; destruct (Nat.eqb (length (mv_items b)) (hb_maxload h)); try discriminate; cbn; try congruence.
      split.
      * inversion E1; inversion E1'; subst. unfold same_table; cbn. rewrite <- B, <- D. repeat split; congruence.
      * split; [apply (hb_add_wf h e x W X)|apply (hb_add_wf h' e x' W' X')].
  - assert (N : forall h0 : hb T, hwf h0 -> hb_algo h0 = None -> hb_strint h0 = None).
    { intros h0 [WL [WN WA]] E0. rewrite E0 in WA. destruct (hb_strint h0); [contradiction|reflexivity]. }
    assert (P : forall h0 : hb T, hwf h0 -> hb_algo h0 = None -> hb_add h0 e = do bs <- push_at (hb_buckets h0) 0 e; Ok (with_buckets h0 bs)).
    { intros h0 W0 E0. unfold hb_add. rewrite (N h0 W0 E0). reflexivity. }
    rewrite (P h W Ea), (P h' W' ltac:(congruence)), <- D. destruct (push_at (hb_buckets h) 0 e) as [bs| | | |] eqn:Eq; cbn; auto.
    assert (L : length bs = length (hb_buckets h)).
    { unfold push_at in Eq. inv_bind Eq. apply aset_inv in Eq. destruct Eq as [-> _]. apply upd_length. }
    split; [unfold same_table, with_buckets; cbn; repeat split; congruence|]. 
    split; apply hwf_buckets; auto; congruence.
Qed.

Lemma alike_for n : forall i l h h', good h h' ->
  let body := fun i h => do e <- aget l i; hb_add h e in
  alike good (for_up n i body h) (for_up n i body h').
Proof.
  induction n as [|n IH]; intros i l h h' S body; cbn [for_up]; [exact S|].
  unfold body at 1 3. destruct (aget l i) as [e| | | |]; cbn [bind]; cbn; auto.
  pose proof (alike_add h h' e S) as R. destruct (hb_add h e), (hb_add h' e); cbn in R |- *; auto; try contradiction. apply IH; exact R.
Qed.

Definition good2 (p p' : hb T * G) : Prop := good (fst p) (fst p') /\ snd p = snd p'.
Lemma alike_top h h' g o : good h h' -> op_algo_valid o -> alike good2 (apply_top gen (h, g) o) (apply_top gen (h', g) o).
Proof.
  intros S V. pose proof S as [[A [B [C [D E]]]] [W W']]. destruct o as [e|e i|l dim| |a]; cbn [apply_top op_algo_valid] in *.
  - pose proof (alike_add h h' e S) as R. destruct (hb_add h e), (hb_add h' e); cbn in R |- *; auto; try contradiction. split; [exact R|reflexivity].
  - unfold addToBucket. rewrite <- B, <- D. destruct (Nat.ltb i (hb_k h)); [|cbn; auto].
    destruct (push_at (hb_buckets h) i e) as [bs| | | |] eqn:Eq; cbn; auto.
    assert (L : length bs = length (hb_buckets h)).
    { unfold push_at in Eq. inv_bind Eq. apply aset_inv in Eq. destruct Eq as [-> _]. apply upd_length. }
    split; [|reflexivity]. cbn. split; [unfold same_table, with_buckets; cbn; repeat split; auto|]. split; apply hwf_buckets; auto; congruence.
  - unfold hb_add_list. pose proof (alike_for dim 0%nat l h h' S) as R. cbv zeta in R.
    destruct (for_up dim 0 _ h), (for_up dim 0 _ h'); cbn in R |- *; auto; try contradiction. split; [exact R|reflexivity].
  - pose proof W as [WL W2]; pose proof W' as [WL' W2']. rewrite (conceal_eq gen h g WL), (conceal_eq gen h' g WL'). cbn. rewrite <- C, <- D.
    split; [|reflexivity]. cbn. split; [unfold same_table, with_buckets; cbn; repeat split; auto|].
    split; apply hwf_buckets; auto; rewrite conceal_list_length; congruence.
  - unfold setHashAlgorithm. destruct a as [al|]; [|cbn; split; [exact S|reflexivity]].
    destruct (setHashAlgorithm_ok h (Some al) V) as [s [Ws [Ls Es]]]. unfold setHashAlgorithm in Es.
    destruct (new_strint (ha_size al) None 0) as [s0| | | |]; cbn [bind] in Es |- *; try discriminate.
    injection Es as ->.
    split; [|reflexivity]. cbn. split; [unfold same_table; cbn; repeat split; auto|].
    destruct W as [WL [WN _]]; destruct W' as [WL' [WN' _]]. split; (split; [cbn; congruence|split; [cbn; congruence|cbn; auto]]).
Qed.
Lemma alike_run l : forall h h' g, good h h' -> Forall op_algo_valid l -> alike good2 (run_table gen (h, g) l) (run_table gen (h', g) l).
Proof.
  induction l as [|o l IH]; intros h h' g S V; cbn [run_table]; [split; [exact S|reflexivity]|].
  inversion V as [|? ? V1 V2]; subst. pose proof (alike_top h h' g o S V1) as R.
  destruct (apply_top gen (h, g) o) as [[h1 g1]| | | |], (apply_top gen (h', g) o) as [[h1' g1']| | | |]; cbn in R |- *; auto; try contradiction.
  destruct R as [R1 R2]. cbn in R1, R2. subst g1'. apply IH; auto.
Qed.

Lemma run_table_app l1 l2 : forall st, run_table gen st (l1 ++ l2) = do st1 <- run_table gen st l1; run_table gen st1 l2.
Proof. induction l1 as [|o l1 IH]; intros st; cbn [app run_table]; [destruct st; reflexivity|]. destruct (apply_top gen st o); cbn [bind]; auto. Qed.

(** a whole history without interrupted conceal() *)
Lemma a_run_cases l : forall m t g h, awf t -> Forall op_algo_valid l -> good (at_hb t) h ->
  match a_run ok pol gen m t g l with
  | (inl (m1, (t1, g1)), log) =>
      awf t1 /\ (m_tries m <= m_tries m1)%nat /\ length log = length l /\
      m_live m1 = m_live m + fold_right Z.add 0 (map adds l) /\
      ((forall i o x, nth_error l i = Some o -> nth_error log i = Some (Some x) -> ~ is_conceal o) ->
       exists c h1, amounts_all l log c /\ run_table gen (h, g) c = Ok (h1, g1) /\ good (at_hb t1) h1)
  | (inr r, log) =>
      ((forall i o x, nth_error l i = Some o -> nth_error log i = Some (Some x) -> ~ is_conceal o) ->
       exists o c, nth_error l (length log) = Some o /\ amounts_all (firstn (length log) l) log c /\
        (run_table gen (h, g) (c ++ [o]) = lower r \/
         r = Exit 2 /\ (exists al, o = TSetAlgo (Some al)) /\ exists j, (m_tries m <= j)%nat /\ ok j = false))
  end.
Proof.
  induction l as [|o l IH]; intros m t g h W V S; cbn [a_run].
  - split; [exact W|]. split; [lia|]. split; [reflexivity|]. split; [cbn; lia|]. intros _. exists [], h.
    split; [constructor|]. split; [reflexivity|exact S].
  - inversion V as [|? ? V1 V2]; subst. pose proof (alike_top (at_hb t) h g o S V1) as R.
    destruct (a_call_cases m t g o W V1) as
      [[m1 [t1 [g1 [E [A [W1 [Lv Tr]]]]]]]|[[m1 [x [t1 [g1 [E [W1 [[F1 F2] [Y [Z0 D]]]]]]]]]|[r [E D]]]]; rewrite E.
    + rewrite A in R. destruct (apply_top gen (h, g) o) as [[h1 g1']| | | |] eqn:Eh; cbn in R; try contradiction.
      destruct R as [R1 R2]; cbn in R1, R2; subst g1'.
      specialize (IH m1 t1 g1 h1 W1 V2 R1). destruct (a_run ok pol gen m1 t1 g1 l) as [[[m2 [t2 g2]]|r] log].
      * destruct IH as [W2 [T2 [L2 [M2 K]]]]. split; [exact W2|]. split; [lia|]. split; [cbn; lia|]. split; [cbn; lia|].
        intros H. destruct K as [c [h2 [K1 [K2 K3]]]]. { intros i o' x' Ho Hx. apply (H (Datatypes.S i) o' x'); assumption. }
        exists (o :: c), h2. split; [apply (aa_cons o None l log [o] c); [constructor|exact K1]|]. split; [|exact K3].
        cbn [run_table]. rewrite Eh. exact K2.
      * intros H. destruct IH as [o' [c [K1 [K2 K3]]]]. { intros i o' x' Ho Hx. apply (H (Datatypes.S i) o' x'); assumption. }
        exists o', (o :: c). cbn [length nth_error firstn]. split; [exact K1|]. split; [apply (aa_cons o None _ log [o] c); [constructor|exact K2]|].
        destruct K3 as [K3|[K3 [K4 [j [K5 K6]]]]]; [left; cbn [run_table app]; rewrite Eh; exact K3|right; split; [exact K3|]; split; [exact K4|]; exists j; split; [lia|exact K6]].
    + assert (HC : is_conceal o \/ ~ is_conceal o) by (destruct o; cbn; auto).
      destruct D as [D|[c0 [h0 [-> [D1 [D2 [D3 D4]]]]]]].
      * pose proof (fun h1 => IH m1 t1 g1 h1 W1 V2) as IH'.
        specialize (IH' (at_hb t1)). destruct (a_run ok pol gen m1 t1 g1 l) as [[[m2 [t2 g2]]|r] log].
        -- destruct IH' as [W2 [T2 [L2 [M2 K]]]]. { split; [apply same_refl|split; apply W1]. }
           split; [exact W2|]. split; [lia|]. split; [cbn; lia|]. split; [cbn; lia|].
           intros H. exfalso. apply (H 0%nat o x); try reflexivity. exact D.
        -- intros H. exfalso. apply (H 0%nat o x); try reflexivity. exact D.
      * assert (V0 : Forall op_algo_valid c0).
        { inversion D1; subst; repeat constructor. cbn in *. lia. }
        pose proof (alike_run c0 (at_hb t) h g S V0) as R0. rewrite D2 in R0.
        destruct (run_table gen (h, g) c0) as [[h1 g1']| | | |] eqn:Eh; cbn in R0; try contradiction.
        destruct R0 as [[R1 [R2 R3]] R4]; cbn in R1, R2, R3, R4; subst g1'.
        assert (G1 : good (at_hb t1) h1). { split; [eapply same_trans; eauto|]. split; [apply W1|exact R3]. }
        specialize (IH m1 t1 g h1 W1 V2 G1). destruct (a_run ok pol gen m1 t1 g l) as [[[m2 [t2 g2]]|r] log].
        -- destruct IH as [W2 [T2 [L2 [M2 K]]]]. split; [exact W2|]. split; [lia|]. split; [cbn; lia|]. split; [cbn; lia|].
           intros H. destruct K as [c [h2 [K1 [K2 K3]]]]. { intros i o' x' Ho Hx. apply (H (Datatypes.S i) o' x'); assumption. }
           exists (c0 ++ c), h2. split; [apply aa_cons; [exact D1|exact K1]|]. split; [|exact K3].
           rewrite run_table_app, Eh. exact K2.
        -- intros H. destruct IH as [o' [c [K1 [K2 K3]]]]. { intros i o' x' Ho Hx. apply (H (Datatypes.S i) o' x'); assumption. }
           exists o', (c0 ++ c). cbn [length nth_error firstn]. split; [exact K1|]. split; [apply aa_cons; [exact D1|exact K2]|].
           destruct K3 as [K3|[K3 [K4 [j [K5 K6]]]]];
             [left; rewrite <- app_assoc, run_table_app, Eh; exact K3|right; split; [exact K3|]; split; [exact K4|]; exists j; split; [lia|exact K6]].
    + intros _. exists o, []. split; [reflexivity|]. split; [constructor|]. destruct D as [D|[D1 [D2 [j [D3 D4]]]]].
      * left. cbn [app run_table]. rewrite D in R. destruct (apply_top gen (h, g) o); destruct r; cbn in R |- *; try contradiction; subst; reflexivity.
      * right. split; [exact D1|]. split; [exact D2|]. exists j. split; [lia|exact D4].
Qed.

(** *** the constructor *)
Lemma failed_S m n : failed ok m (S n) -> (m <= n)%nat -> failed ok m n \/ ok n = false.
Proof. intros [j [A B]] H. destruct (Nat.eq_dec j n); [subst; auto|left; exists j; split; [lia|exact B]]. Qed.
Lemma failed_dec m n : failed ok m n \/ ~ failed ok m n.
Proof.
  induction n as [|n IH]; [right; intros [j [A _]]; lia|]. destruct IH as [[j [A B]]|IH].
  - left. exists j. split; [lia|exact B].
  - destruct (le_dec m n) as [L|L]; [|right; intros [j [A _]]; lia].
    destruct (ok n) eqn:E; [right|left; exists n; split; [lia|exact E]].
    intros H. apply failed_S in H; [|exact L]. destruct H; [auto|congruence].
Qed.

Lemma a_reserve_cases n : forall m (t : @atable T), let r := reserved (hb_maxload (at_hb t)) in
  ((0 < n)%nat -> p_max pol < r -> a_reserve ok pol n m t = Thrown m LengthError tt) /\
  (r <= p_max pol \/ n = 0%nat -> ~ failed ok (m_tries m) (m_tries m + n) ->
     a_reserve ok pol n m t = Done (mkMem (m_tries m + n) (m_live m + Z.of_nat n)) (mkAt (at_hb t) (at_caps t ++ repeat r n))) /\
  (r <= p_max pol -> forall j, (j < n)%nat -> ~ failed ok (m_tries m) (m_tries m + j) -> ok (m_tries m + j)%nat = false ->
     a_reserve ok pol n m t = Thrown (mkMem (m_tries m + j + 1) (m_live m + Z.of_nat j)) BadAlloc tt).
Proof.
  induction n as [|n IH]; intros m t r; cbn [a_reserve]; fold r.
  - split; [lia|]. split; [|lia]. intros _ _. cbn [repeat]. rewrite app_nil_r, Nat.add_0_r, Z.add_0_r. destruct m, t; reflexivity.
  - unfold vec_new. split; [|split].
    + intros _ H. destruct (Z.ltb_spec (p_max pol) r); [reflexivity|lia].
    + intros H Hn. destruct H as [H|H]; [|discriminate]. destruct (Z.ltb_spec (p_max pol) r); [lia|].
      destruct (ok (m_tries m)) eqn:E; [|exfalso; apply Hn; exists (m_tries m); split; [lia|exact E]].
      destruct (IH (tried m 1) (mkAt (at_hb t) (at_caps t ++ [r]))) as [_ [B _]]. cbn [at_hb at_caps tried m_tries m_live] in B. fold r in B.
      rewrite B; [|left; exact H|intros [j [J1 J2]]; apply Hn; exists j; split; [lia|exact J2]].
      rewrite <- app_assoc. cbn [app]. change (r :: repeat r n) with (repeat r (S n)). f_equal. f_equal; lia.
    + intros H j Hj Hn Ej. destruct (Z.ltb_spec (p_max pol) r); [lia|]. destruct j as [|j].
      * rewrite Nat.add_0_r in *. rewrite Ej. unfold tried. f_equal. f_equal; lia.
      * destruct (ok (m_tries m)) eqn:E; [|exfalso; apply Hn; exists (m_tries m); split; [lia|exact E]].
        destruct (IH (tried m 1) (mkAt (at_hb t) (at_caps t ++ [r]))) as [_ [_ B]]. cbn [at_hb at_caps tried m_tries m_live] in B. fold r in B.
        rewrite (B H j); [|lia|intros [j' [J1 J2]]; apply Hn; exists j'; split; [lia|exact J2]|rewrite <- Ej; f_equal; lia].
        f_equal. f_equal; lia.
Qed.

Lemma a_setAlgo_raw m (t : @atable T) a h1 : setHashAlgorithm (at_hb t) a = Ok h1 ->
  (~ failed ok (m_tries m) (m_tries m + size_algo a) ->
     a_setAlgo ok m t a = Done (mkMem (m_tries m + size_algo a) (m_live m + made a)) (mkAt h1 (at_caps t))) /\
  (failed ok (m_tries m) (m_tries m + size_algo a) -> a_setAlgo ok m t a = Stop (Exit 2)).
Proof.
  intros E. destruct a as [al|]; cbn [a_setAlgo size_algo made].
  2:{ cbn in E. injection E as <-. split; [|intros [j [A _]]; lia]. intros _. rewrite Nat.add_0_r, Z.add_0_r. destruct m, t; reflexivity. }
  rewrite E. unfold guarded. cbn [tried m_tries m_live run_res]. split.
  - intros H.
    assert (K : forall j, (m_tries m <= j < m_tries m + 4)%nat -> ok j = true).
    { intros j Hj. destruct (ok j) eqn:Ej; [reflexivity|]. exfalso. apply H. exists j. split; [exact Hj|exact Ej]. }
    rewrite !K by lia. f_equal. f_equal; lia.
  - intros [j [B C]]. assert (D : j = m_tries m \/ j = S (m_tries m) \/ j = S (S (m_tries m)) \/ j = S (S (S (m_tries m)))) by lia.
    destruct D as [D|[D|[D|D]]]; subst j; rewrite C; try reflexivity;
      repeat match goal with |- context [if ?b then _ else _] => destruct b; try reflexivity end.
Qed.

Lemma a_new_cases m len ml a : match a with Some al => algo_valid al | None => True end ->
  let first := (m_tries m + size_algo a + 1)%nat in
  let r := reserved ml in
  (failed ok (m_tries m) first -> a_new ok pol m len ml a = Stop (Exit 2)) /\
  (~ failed ok (m_tries m) first ->
    ((0 < len)%nat -> p_max pol < r -> a_new ok pol m len ml a = Thrown (mkMem first (m_live m + made a + 1)) LengthError tt) /\
    (r <= p_max pol -> forall j, (j < len)%nat -> ~ failed ok first (first + j) -> ok (first + j)%nat = false ->
       a_new ok pol m len ml a = Thrown (mkMem (first + j + 1) (m_live m + made a + 1 + Z.of_nat j)) BadAlloc tt) /\
    (r <= p_max pol \/ len = 0%nat -> ~ failed ok first (first + len) ->
       exists t, a_new ok pol m len ml a = Done (mkMem (first + len) (m_live m + made a + 1 + Z.of_nat len)) t /\
         new_hb len ml a = Ok (at_hb t) /\ awf t)).
Proof.
  intros V first r. unfold a_new, new_hb.
  set (h0 := mkHb 0 len ml [] None None).
  assert (S0 : exists h1, setHashAlgorithm h0 a = Ok h1 /\ hb_maxload h1 = ml /\ hwf (with_buckets h1 (repeat (mkMvec [] false) len))).
  { pose proof (setHashAlgorithm_ok h0 a V) as H. destruct a as [al|].
    - destruct H as [s [Ws [Ls E]]]. eexists. split; [exact E|]. split; [reflexivity|]. unfold hwf; cbn. rewrite repeat_length. auto.
    - exists h0. split; [exact H|]. split; [reflexivity|]. unfold hwf; cbn. rewrite repeat_length. auto. }
  destruct S0 as [h1 [E1 [M1 W1]]]. rewrite E1. cbn [bind].
  destruct (a_setAlgo_raw m (mkAt h0 []) a h1 E1) as [A B]. cbn [at_caps] in A.
  destruct (failed_dec (m_tries m) (m_tries m + size_algo a)) as [F|F].
  { rewrite (B F). split; [reflexivity|]. intros N. exfalso. apply N. destruct F as [j [F1 F2]]. exists j. split; [unfold first; lia|exact F2]. }
  rewrite (A F). unfold guarded. cbn [m_tries m_live tried at_hb].
  destruct (ok (m_tries m + size_algo a)%nat) eqn:Eo.
  2:{ split; [reflexivity|]. intros N. exfalso. apply N. eexists. split; [|exact Eo]. unfold first; lia. }
  split.
  { intros [j [F1 F2]]. exfalso. unfold first in F1. destruct (Nat.eq_dec j (m_tries m + size_algo a)); [congruence|].
    apply F. exists j. split; [lia|exact F2]. }
  intros _. set (t1 := mkAt (with_buckets h1 (repeat (mkMvec [] false) len)) []).
  pose proof (a_reserve_cases len (tried (mkMem (m_tries m + size_algo a) (m_live m + made a)) 1) t1) as [P1 [P2 P3]].
  unfold tried in *. cbn [m_tries m_live at_hb at_caps t1 with_buckets hb_maxload] in P1, P2, P3 |- *. rewrite M1 in P1, P2, P3. fold r in P1, P2, P3.
  replace (S (m_tries m + size_algo a)) with first in * by (unfold first; lia).
  split; [exact P1|]. split; [exact P3|].
  intros R N. eexists. split; [apply P2; assumption|]. split; [reflexivity|].
  split; [exact W1|]. cbn [at_hb at_caps with_buckets hb_buckets hb_maxload app]. rewrite M1. fold r.
  destruct R as [R| ->]; [|constructor].
  unfold caps_ok. pose proof (reserved_pos ml) as RP. clear - R RP. subst r. induction len as [|n IH]; cbn; constructor; auto. cbn. lia.
Qed.

(** *** interrupted and repeated conceal() *)
Lemma subseq_refl {A} (l : list A) : subseq l l.
Proof. induction l; [apply ss_nil|apply ss_take; assumption]. Qed.
Lemma subseq_app {A} (a b c d : list A) : subseq a b -> subseq c d -> subseq (a ++ c) (b ++ d).
Proof. induction 1; cbn; intros; [assumption|apply ss_skip; auto|apply ss_take; auto]. Qed.

Lemma mark_iff (b : mvec T) : new_mark b = true <-> mv_items b = [] \/ mv_marked b = true.
Proof.
  unfold new_mark. destruct (mv_items b); split; intros H; auto. destruct H as [H|H]; [discriminate|exact H].
Qed.

(** [fl] are the elements appended to the buckets [bs], giving [bs'] *)
Definition appended (ml : nat) (bs : list (mvec T)) (fl : list (list T)) (bs' : list (mvec T)) : Prop :=
  length fl = length bs /\ length bs' = length bs /\
  forall i b, nth_error bs i = Some b -> exists f, nth_error fl i = Some f /\ length f = (ml - length (mv_items b))%nat /\
    nth_error bs' i = Some (mkMvec (mv_items b ++ f) (new_mark b)).

Lemma missing_app ml (a b : list (mvec T)) : missing ml (a ++ b) = (missing ml a + missing ml b)%nat.
Proof. unfold missing. rewrite map_app. induction (map (fun b0 : mvec T => (ml - length (mv_items b0))%nat) a) as [|x l IH]; cbn; lia. Qed.
Lemma missing_cons ml b (bs : list (mvec T)) : missing ml (b :: bs) = (ml - length (mv_items b) + missing ml bs)%nat.
Proof. reflexivity. Qed.

Lemma appended_cons ml b (bs bs' : list (mvec T)) fl : appended ml (b :: bs) fl bs' -> 
  exists f fl1 bs1, fl = f :: fl1 /\ bs' = mkMvec (mv_items b ++ f) (new_mark b) :: bs1 /\ length f = (ml - length (mv_items b))%nat /\ appended ml bs fl1 bs1.
Proof.
  intros [A [B C]]. destruct fl as [|f fl]; [discriminate|]. destruct bs' as [|b1 bs']; [discriminate|].
  destruct (C 0%nat b eq_refl) as [f' [F1 [F2 F3]]]. cbn in F1, F3. injection F1 as <-. injection F3 as ->.
  exists f, fl, bs'. split; [reflexivity|]. split; [reflexivity|]. split; [exact F2|].
  cbn in A, B. split; [lia|]. split; [lia|]. intros i b0 Hb. exact (C (S i) b0 Hb).
Qed.
Lemma appended_full ml p : forall fl q, appended ml p fl q -> missing ml q = 0%nat.
Proof.
  induction p as [|b0 p IH]; intros fl1 q P1.
  - destruct P1 as [_ [B _]]. destruct q; [reflexivity|discriminate].
  - apply appended_cons in P1. destruct P1 as [f [fl' [q' [-> [-> [L P1]]]]]]. rewrite missing_cons. cbn [mv_items].
    rewrite app_length, (IH _ _ P1). lia.
Qed.
Lemma appended_concat ml bs : forall fl bs', appended ml bs fl bs' -> length (concat fl) = missing ml bs.
Proof.
  induction bs as [|b bs IH]; intros fl bs' A.
  - destruct A as [A _]. destruct fl; [reflexivity|discriminate].
  - apply appended_cons in A. destruct A as [f [fl1 [bs1 [-> [_ [L A]]]]]]. cbn [concat]. rewrite app_length, missing_cons, (IH _ _ A). lia.
Qed.
Lemma appended_mk ml b (bs bs' : list (mvec T)) fl f : length f = (ml - length (mv_items b))%nat -> appended ml bs fl bs' ->
  appended ml (b :: bs) (f :: fl) (mkMvec (mv_items b ++ f) (new_mark b) :: bs').
Proof.
  intros L [A [B C]]. split; [cbn; lia|]. split; [cbn; lia|]. intros [|i] b0 Hb; cbn in *; [|auto].
  injection Hb as <-. eauto.
Qed.

Lemma appended_conceal ml bs g : exists fl, appended ml bs fl (fst (conceal_list gen ml bs g)) /\
  concat fl = fst (draws gen (missing ml bs) g) /\ snd (conceal_list gen ml bs g) = snd (draws gen (missing ml bs) g).
Proof.
  destruct (conceal_list_spec gen ml bs g) as [fl [L [C [S N]]]]. exists fl. split; [|split; assumption].
  split; [exact L|]. split; [apply conceal_list_length|exact N].
Qed.

(** concealing what an earlier call has concealed already appends nothing *)
Lemma appended_twice ml p1 : forall fl1 q1 p2 fl2 q2, appended ml p1 fl1 q1 -> appended ml (q1 ++ p2) fl2 q2 ->
  exists fl2' q2', concat fl2 = concat fl2' /\ q2 = q1 ++ q2' /\ appended ml p2 fl2' q2'.
Proof.
  induction p1 as [|b p1 IH]; intros fl1 q1 p2 fl2 q2 A1 A2.
  - destruct A1 as [_ [B _]]. destruct q1; [|discriminate]. exists fl2, q2. split; [reflexivity|]. split; [reflexivity|exact A2].
  - apply appended_cons in A1. destruct A1 as [f [fl1' [q1' [-> [-> [Lf A1]]]]]]. cbn [app] in A2.
    apply appended_cons in A2. destruct A2 as [f2 [fl2' [q2' [-> [-> [Lf2 A2]]]]]]. cbn [mv_items] in *.
    assert (f2 = []) by (destruct f2; [reflexivity|]; cbn in Lf2; rewrite app_length in Lf2; lia). subst f2.
    destruct (IH _ _ _ _ _ A1 A2) as [fl3 [q3 [E1 [E2 A3]]]]. exists fl3, q3. split; [exact E1|]. split; [|exact A3].
    rewrite E2, app_nil_r. cbn [app]. f_equal. unfold new_mark. cbn [mv_items mv_marked].
    destruct (mv_items b); [destruct f; reflexivity|reflexivity].
Qed.

Lemma appended_app ml p1 : forall fl1 q1 p2 fl2 q2, appended ml p1 fl1 q1 -> appended ml p2 fl2 q2 -> appended ml (p1 ++ p2) (fl1 ++ fl2) (q1 ++ q2).
Proof.
  induction p1 as [|b p1 IH]; intros fl1 q1 p2 fl2 q2 A1 A2.
  - destruct A1 as [A [B _]]. destruct fl1, q1; try discriminate. exact A2.
  - apply appended_cons in A1. destruct A1 as [f [fl1' [q1' [-> [-> [Lf A1]]]]]]. cbn [app].
    apply appended_mk; [exact Lf|]. apply IH; assumption.
Qed.

Lemma a_run_cons m t g o l : a_run ok pol gen m t g (o :: l) =
  match a_call ok pol gen m t g o with
  | Done m1 (t1, g1) => let '(r, log) := a_run ok pol gen m1 t1 g1 l in (r, None :: log)
  | Thrown m1 x (t1, g1) => let '(r, log) := a_run ok pol gen m1 t1 g1 l in (r, Some x :: log)
  | Stop r => (inr r, [])
  end.
Proof. reflexivity. Qed.
Lemma repeat_cons {A} (a : A) n : repeat a (S n) = a :: repeat a n. Proof. reflexivity. Qed.

Lemma retry_l xs : forall m t g m' t' g', awf t ->
  a_run ok pol gen m t g (repeat TConceal (S (length xs))) = (inl (m', (t', g')), map Some xs ++ [None]) ->
  let N := (missing (hb_maxload (at_hb t)) (hb_buckets (at_hb t)) + length xs)%nat in
  exists fl, at_hb t' = with_buckets (at_hb t) (hb_buckets (at_hb t')) /\
    appended (hb_maxload (at_hb t)) (hb_buckets (at_hb t)) fl (hb_buckets (at_hb t')) /\
    subseq (concat fl) (fst (draws gen N g)) /\ g' = snd (draws gen N g) /\ m_live m' = m_live m.
Proof.
  induction xs as [|x xs IH]; intros m t g m' t' g' W E N; subst N; rewrite repeat_cons, a_run_cons in E; cbn [a_call] in E;
    pose proof W as [[WL _] _]; unfold a_conceal in E; rewrite <- WL in E;
    destruct (a_concealFrom_cases (hb_buckets (at_hb t)) [] m t g W eq_refl) as
      [[m1 [t1 [E1 [A [W1 [F1 F2]]]]]]|[m1 [y [t1 [p1 [b [p2 [j [E1 [Ep [Hj [A [W1 [[F1 F2] Y]]]]]]]]]]]]]]; cbn [length] in E1; rewrite E1 in E.
  - cbn in E. injection E as <- <- <-. rewrite Nat.add_0_r.
    destruct (appended_conceal (hb_maxload (at_hb t)) (hb_buckets (at_hb t)) g) as [fl [P [C S]]].
    exists fl. rewrite A. cbn [hb_buckets with_buckets app]. split; [reflexivity|]. split; [exact P|]. split; [rewrite C; apply subseq_refl|]. split; [exact S|exact F1].
  - cbn in E. discriminate.
  - cbn [map app] in E.
    destruct (a_run ok pol gen m1 t1 (snd (conceal_list gen (hb_maxload (at_hb t)) (hb_buckets (at_hb t)) g)) (repeat TConceal (length (x :: xs)))) as [r log]. discriminate.
  - cbn [map app] in E. change (length (x :: xs)) with (S (length xs)) in E.
    set (ml := hb_maxload (at_hb t)) in *. set (g1 := snd (conceal_list gen ml p1 g)) in *.
    destruct (a_run ok pol gen m1 t1 (snd (draws gen (S j) g1)) (repeat TConceal (S (length xs)))) as [r log] eqn:R.
    injection E as E2 E3 E4. subst r y log.
    specialize (IH m1 t1 _ m' t' g' W1 R). cbv zeta in IH. rewrite A in IH. cbn [with_buckets hb_buckets hb_maxload app] in IH. fold ml in IH.
    destruct IH as [fl2 [Q1 [Q2 [Q3 [Q4 Q5]]]]].
    destruct (appended_conceal ml p1 g) as [fl1 [P1 [P2 P3]]]. fold g1 in P3.
    destruct (appended_twice ml p1 fl1 _ _ _ _ P1 Q2) as [fl3 [q3 [U1 [U2 U3]]]].
    apply appended_cons in U3. destruct U3 as [f [fl4 [q4 [-> [-> [Lf U4]]]]]].
    cbn [mv_items mv_marked] in *.
    assert (Mk : new_mark (mkMvec (mv_items b ++ fst (draws gen j g1)) (new_mark b)) = new_mark b).
    { unfold new_mark; cbn [mv_items mv_marked]. destruct (mv_items b); [destruct (fst (draws gen j g1)); reflexivity|reflexivity]. }
    rewrite Mk, <- app_assoc in U2.
    exists (fl1 ++ (fst (draws gen j g1) ++ f) :: fl4).
    split; [exact Q1|]. split.
    { rewrite U2, Ep. apply appended_app; [exact P1|]. apply appended_mk; [|exact U4].
      rewrite app_length, draws_length in *. lia. }
    (* counting the draws *)
    assert (M : (missing ml (hb_buckets (at_hb t)) + length (x :: xs) = missing ml p1 + (j + 1) +
        (missing ml (fst (conceal_list gen ml p1 g) ++ mkMvec (mv_items b ++ fst (draws gen j g1)) (new_mark b) :: p2) + length xs))%nat).
    { rewrite Ep, !missing_app, !missing_cons. cbn [mv_items length]. rewrite app_length, draws_length.
      assert (Z : missing ml (fst (conceal_list gen ml p1 g)) = 0%nat).
      { eapply appended_full; exact P1. }
      rewrite Z. lia. }
    rewrite M. rewrite <- Nat.add_assoc, draws_add. cbn [fst snd]. rewrite <- P3. rewrite <- Nat.add_assoc, draws_add. cbn [fst snd].
    rewrite (draws_add gen 1).  cbn [fst snd].
    assert (G1 : snd (draws gen 1 (snd (draws gen j g1))) = snd (draws gen (S j) g1)).
    { replace (S j) with (j + 1)%nat by lia. rewrite draws_add. reflexivity. }
    rewrite G1. split; [|split; [exact Q4|lia]].
    rewrite concat_app. cbn [concat]. rewrite P2. apply subseq_app; [apply subseq_refl|]. rewrite <- app_assoc. apply subseq_app; [apply subseq_refl|].
    cbn [concat] in U1. rewrite <- U1.
    cbn [draws]. destruct (gen (snd (draws gen j g1))) as [z g3]. cbn [fst snd app]. apply ss_skip. exact Q3.
Qed.

(** *** nothing is lost *)
Definition longer (b b' : mvec T) : Prop := exists f, mv_items b' = mv_items b ++ f /\ (mv_marked b = true -> mv_marked b' = true).
Lemma longer_refl b : longer b b. Proof. exists []. rewrite app_nil_r. auto. Qed.
Lemma all_longer_refl bs : Forall2 longer bs bs. Proof. induction bs; constructor; auto using longer_refl. Qed.
Lemma all_longer_trans a b c : Forall2 longer a b -> Forall2 longer b c -> Forall2 longer a c.
Proof.
  intros H; revert c; induction H as [|x y a b Hx Hr IH]; intros c H2; inversion H2; subst; constructor.
  - destruct Hx as [f [F1 F2]]. match goal with K : longer y _ |- _ => destruct K as [f' [F1' F2']] end.
    exists (f ++ f'). rewrite app_assoc, <- F1. auto.
  - apply IH; assumption.
Qed.
Lemma extends_refl (h : hb T) : extends h h. Proof. split; [reflexivity|]. split; [reflexivity|]. apply all_longer_refl. Qed.
Lemma extends_trans (a b c : hb T) : extends a b -> extends b c -> extends a c.
Proof. intros [A [B C]] [A' [B' C']]. split; [congruence|]. split; [congruence|]. eapply all_longer_trans; eauto. Qed.
Lemma same_extends (a b c : hb T) : extends a b -> same_table c b -> extends a c.
Proof. intros [A [B C]] [_ [K [M [D _]]]]. split; [congruence|]. split; [congruence|]. rewrite D. exact C. Qed.

Lemma push_at_longer bs i (e : T) bs1 : push_at bs i e = Ok bs1 -> Forall2 longer bs bs1.
Proof.
  unfold push_at. intros E. inv_bind E. apply aset_inv in E. destruct E as [-> _]. apply aget_ok in Hb. revert i Hb.
  induction bs as [|x bs IH]; intros [|i] Hb; try discriminate; cbn in *.
  - injection Hb as ->. constructor; [|apply all_longer_refl]. exists [e]. cbn. auto.
  - constructor; [apply longer_refl|apply IH; exact Hb].
Qed.
Lemma hb_add_extends (h h1 : hb T) e : hb_add h e = Ok h1 -> extends h h1.
Proof.
  unfold hb_add. destruct (hb_strint h) as [s|].
  - destruct (hb_algo h) as [al|]; [|discriminate]. intros E. inv_bind E. inv_bind E. inv_bind E.
    destruct (Nat.eqb _ _); [discriminate|]. inv_bind E. injection E as <-. split; [reflexivity|]. split; [reflexivity|].
    eapply push_at_longer; eauto.
  - intros E. inv_bind E. injection E as <-. split; [reflexivity|]. split; [reflexivity|]. eapply push_at_longer; eauto.
Qed.
Lemma for_extends l n : forall i (h h1 : hb T), for_up n i (fun i h => do e <- aget l i; hb_add h e) h = Ok h1 -> extends h h1.
Proof.
  induction n as [|n IH]; intros i h h1 E; cbn [for_up] in E; [injection E as <-; apply extends_refl|].
  inv_bind E. inv_bind Hb. eapply extends_trans; [eapply hb_add_extends; eauto|eapply IH; eauto].
Qed.
Lemma conceal_longer ml bs : forall g, Forall2 longer bs (fst (conceal_list gen ml bs g)).
Proof.
  induction bs as [|b bs IH]; intros g; cbn [conceal_list]; [constructor|]. unfold conceal_bucket. rewrite fill_draws.
  specialize (IH (snd (draws gen (ml - length (mv_items b)) g))).
  destruct (conceal_list gen ml bs (snd (draws gen (ml - length (mv_items b)) g))) as [l g2]. cbn [fst] in *. constructor; [|exact IH].
  eexists. cbn. split; [reflexivity|]. destruct (mv_items b); auto.
Qed.
Lemma apply_top_extends (h h1 : hb T) g g1 o : length (hb_buckets h) = hb_k h -> apply_top gen (h, g) o = Ok (h1, g1) -> extends h h1.
Proof.
  intros L. destruct o as [e|e i|l dim| |a]; cbn [apply_top]; intros E.
  - inv_bind E. injection E as <- <-. eapply hb_add_extends; eauto.
  - inv_bind E. injection E as <- <-. unfold addToBucket in Hb. destruct (Nat.ltb i (hb_k h)); [|discriminate].
    inv_bind Hb. injection Hb as <-. split; [reflexivity|]. split; [reflexivity|]. eapply push_at_longer; eauto.
  - inv_bind E. injection E as <- <-. eapply for_extends; eauto.
  - rewrite (conceal_eq gen h g L) in E. injection E as <- <-. split; [reflexivity|]. split; [reflexivity|]. apply conceal_longer.
  - inv_bind E. injection E as <- <-. destruct a as [al|]; cbn in Hb.
    + inv_bind Hb. injection Hb as <-. split; [reflexivity|]. split; [reflexivity|]. apply all_longer_refl.
    + injection Hb as <-. apply extends_refl.
Qed.

Lemma a_run_extends l : forall m t g m1 t1 g1 log, awf t -> Forall op_algo_valid l ->
  a_run ok pol gen m t g l = (inl (m1, (t1, g1)), log) -> extends (at_hb t) (at_hb t1).
Proof.
  induction l as [|o l IH]; intros m t g m1 t1 g1 log W V E.
  - cbn in E. injection E as <- <- <- <-. apply extends_refl.
  - inversion V as [|? ? V1 V2]; subst. pose proof W as [[WL _] _]. rewrite a_run_cons in E.
    assert (K : forall m2 t2 g2, awf t2 -> extends (at_hb t) (at_hb t2) -> forall r log', a_run ok pol gen m2 t2 g2 l = (r, log') ->
              r = inl (m1, (t1, g1)) -> extends (at_hb t) (at_hb t1)).
    { intros m2 t2 g2 W2 X r log' R ->. eapply extends_trans; [exact X|eapply IH; eauto]. }
    destruct (a_call_cases m t g o W V1) as
      [[m2 [t2 [g2 [E1 [A [W2 _]]]]]]|[[m2 [x [t2 [g2 [E1 [W2 [_ [_ [_ D]]]]]]]]]|[r [E1 _]]]]; rewrite E1 in E; [| |discriminate].
    + destruct (a_run ok pol gen m2 t2 g2 l) as [r log'] eqn:R. injection E as E2 E3. eapply K; eauto. eapply apply_top_extends; eauto.
    + destruct (a_run ok pol gen m2 t2 g2 l) as [r log'] eqn:R. injection E as E2 E3. eapply K; eauto. clear K R E2 E3.
      destruct D as [D|[c [h2 [-> [D1 [D2 [D3 D4]]]]]]].
      * destruct o; try contradiction. cbn [a_call] in E1. unfold a_conceal in E1. rewrite <- WL in E1.
        destruct (a_concealFrom_cases (hb_buckets (at_hb t)) [] m t g W eq_refl) as
          [[m3 [t3 [E3 [A [W3 _]]]]]|[m3 [x' [t3 [p1 [b [p2 [j [E3 [Ep [Hj [A [W3 _]]]]]]]]]]]]]; cbn [length] in E3; rewrite E3 in E1; [discriminate|].
        injection E1 as <- <- <- <-. rewrite A. split; [reflexivity|]. split; [reflexivity|]. cbn [with_buckets hb_buckets app]. rewrite Ep.
        apply Forall2_app; [apply conceal_longer|]. constructor; [|apply all_longer_refl].
        eexists. cbn. split; [reflexivity|]. unfold new_mark. destruct (mv_items b); auto.
      * eapply same_extends; [|exact D4]. inversion D1; subst; cbn [run_table] in D2.
        -- injection D2 as <-. apply extends_refl.
        -- injection D2 as <-. apply extends_refl.
        -- inv_bind D2. destruct a as [h3 g3]. injection D2 as <- <-. eapply apply_top_extends; eauto.
Qed.

(** *** the algorithm of a table *)
Definition sets (o : @top T) : bool := match o with TSetAlgo (Some _) => true | _ => false end.
Lemma apply_top_algo (h h1 : hb T) g g1 o : hwf h -> apply_top gen (h, g) o = Ok (h1, g1) ->
  hb_algo h1 = match o with TSetAlgo (Some al) => Some al | _ => hb_algo h end.
Proof.
  intros W. destruct o as [e|e i|l dim| |a]; cbn [apply_top]; intros E.
  - inv_bind E. injection E as <- <-. apply (hb_add_wf _ _ _ W Hb).
  - inv_bind E. injection E as <- <-. unfold addToBucket in Hb. destruct (Nat.ltb i (hb_k h)); [|discriminate].
    inv_bind Hb. injection Hb as <-. reflexivity.
  - inv_bind E. injection E as <- <-. apply (hb_add_list_wf _ _ _ _ _ W Hb).
  - rewrite (conceal_eq gen h g (proj1 W)) in E. injection E as <- <-. reflexivity.
  - inv_bind E. injection E as <- <-. destruct a as [al|]; cbn in Hb.
    + inv_bind Hb. injection Hb as <-. reflexivity.
    + injection Hb as <-. reflexivity.
Qed.
Lemma a_run_algo l : forall m t g m1 t1 g1 log, awf t -> Forall op_algo_valid l ->
  a_run ok pol gen m t g l = (inl (m1, (t1, g1)), log) ->
  (hb_algo (at_hb t1) = None <-> hb_algo (at_hb t) = None /\ existsb sets l = false).
Proof.
  induction l as [|o l IH]; intros m t g m1 t1 g1 log W V E.
  - cbn in E. injection E as <- <- <- <-. cbn. tauto.
  - inversion V as [|? ? V1 V2]; subst. pose proof W as [[WL _] _]. rewrite a_run_cons in E. cbn [existsb].
    destruct (a_call_cases m t g o W V1) as
      [[m2 [t2 [g2 [E1 [A [W2 _]]]]]]|[[m2 [x [t2 [g2 [E1 [W2 [_ [_ [Z0 D]]]]]]]]]|[r [E1 _]]]]; rewrite E1 in E; [| |discriminate].
    + destruct (a_run ok pol gen m2 t2 g2 l) as [r log'] eqn:R. injection E as -> E3. rewrite (IH _ _ _ _ _ _ _ W2 V2 R).
      rewrite (apply_top_algo _ _ _ _ _ (proj1 W) A). destruct o as [e|e i|la dim| |[al|]]; cbn [sets orb]; try tauto.
      split; intros [? ?]; discriminate.
    + destruct (a_run ok pol gen m2 t2 g2 l) as [r log'] eqn:R. injection E as -> E3. rewrite (IH _ _ _ _ _ _ _ W2 V2 R).
      assert (So : sets o = false) by (destruct o as [e|e i|la dim| |[al|]]; try reflexivity; cbn in Z0; lia).
      rewrite So. cbn [orb].
      assert (Ea : hb_algo (at_hb t2) = hb_algo (at_hb t)); [|rewrite Ea; tauto].
      destruct D as [D|[c [h2 [-> [D1 [D2 [D3 D4]]]]]]].
      * destruct o; try contradiction. cbn [a_call] in E1. unfold a_conceal in E1. rewrite <- WL in E1.
        destruct (a_concealFrom_cases (hb_buckets (at_hb t)) [] m t g W eq_refl) as
          [[m3 [t3 [E4 [A [W3 _]]]]]|[m3 [x' [t3 [p1 [b [p2 [j [E4 [Ep [Hj [A [W3 _]]]]]]]]]]]]]; cbn [length] in E4; rewrite E4 in E1; [discriminate|].
        injection E1 as <- <- <- <-. rewrite A. reflexivity.
      * destruct D4 as [_ [_ [_ [_ ->]]]]. inversion D1; subst; cbn [run_table] in D2.
        -- injection D2 as <-. reflexivity.
        -- injection D2 as <-. reflexivity.
        -- inv_bind D2. destruct a as [h3 g3]. injection D2 as <- <-. apply (apply_top_algo _ _ _ _ _ (proj1 W) Hb).
Qed.
End C.

(** *** reachable tables *)
Lemma least m n : failed ok m n -> exists j, (m <= j < n)%nat /\ ok j = false /\ ~ failed ok m j.
Proof.
  induction n as [|n IH]; [intros [j [A _]]; lia|]. intros F.
  destruct (failed_dec m n) as [G|G].
  - destruct (IH G) as [j [A B]]. exists j. split; [lia|exact B].
  - destruct F as [j [A B]]. assert (j = n). { destruct (Nat.eq_dec j n); [assumption|]. exfalso. apply G. exists j. split; [lia|exact B]. }
    subst j. exists n. split; [lia|]. auto.
Qed.
Lemma a_new_done m len ml (a : option (halgo T)) m1 t1 : match a with Some al => algo_valid al | None => True end ->
  a_new ok pol m len ml a = Done m1 t1 ->
  awf t1 /\ new_hb len ml a = Ok (at_hb t1) /\ m_live m1 = m_live m + made a + 1 + Z.of_nat len /\
  m_tries m1 = (m_tries m + size_algo a + 1 + len)%nat /\ ~ failed ok (m_tries m) (m_tries m1).
Proof.
  intros V E. pose proof (a_new_cases m len ml a V) as [A B]. cbv zeta in A, B.
  set (first := (m_tries m + size_algo a + 1)%nat) in *.
  destruct (failed_dec (m_tries m) first) as [F|F]. { rewrite (A F) in E. discriminate. }
  destruct (B F) as [B1 [B2 B3]].
  assert (R : reserved ml <= p_max pol \/ len = 0%nat).
  { destruct (Z.le_gt_cases (reserved ml) (p_max pol)) as [R|R]; [auto|]. right.
    destruct len; [reflexivity|]. rewrite B1 in E by lia. discriminate. }
  destruct (failed_dec first (first + len)) as [F2|F2].
  - exfalso. apply least in F2. destruct F2 as [j [J1 [J2 J3]]]. destruct R as [R|R]; [|lia].
    rewrite (B2 R (j - first)%nat) in E; [discriminate|lia|..]; replace (first + (j - first))%nat with j by lia; assumption.
  - destruct (B3 R F2) as [t [E3 [N W]]]. rewrite E3 in E. injection E as <- <-. split; [exact W|]. split; [exact N|]. cbn. split; [reflexivity|]. split; [reflexivity|].
    intros [j [J1 J2]]. destruct (Nat.lt_ge_cases j first); [apply F|apply F2]; exists j; split; auto; lia.
Qed.

Lemma good_refl (t : @atable T) : awf t -> good (at_hb t) (at_hb t).
Proof. intros W. split; [apply same_refl|]. split; apply W. Qed.

Lemma a_reachable_wf m t : a_reachable ok pol m t -> awf t.
Proof.
  intros [G [gen [m0 [len [ml [a [m1 [t1 [g [ops [g' [log [V [E [Vo R]]]]]]]]]]]]]]].
  destruct (a_new_done _ _ _ _ _ _ V E) as [W _].
  pose proof (a_run_cases gen ops m1 t1 g (at_hb t1) W Vo (good_refl _ W)) as H. rewrite R in H. apply H.
Qed.
End P.
