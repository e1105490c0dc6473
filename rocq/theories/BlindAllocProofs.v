(** Proofs about setRawData and blind when allocations fail. *)
From Verif Require Import Base Spec Lib NtlMiss NtlMissProofs StrIntModel HashBucketsModel HashBucketsSpec HashBucketsProofs.
From Verif Require Import PRFModel PRFSpec PRFProofs PolyModel PolySpec PolyProofs InterpProofs PolyObjProofs EopsiModel EopsiSpec EopsiProofs EopsiBlind.
From Verif Require Import AllocModel AllocSpec AllocProofs BlindAllocModel BlindAllocSpec.

Lemma le_dec_all {A} (bs : list A) (f : nat -> A -> nat) (h : nat) :
  (forall i b, nth_error bs i = Some b -> (f i b <= h)%nat) \/ (exists i b, nth_error bs i = Some b /\ (h < f i b)%nat).
Proof.
  revert f. induction bs as [|a bs IH]; intros f; [left; intros [|i] b H; discriminate|].
  destruct (Nat.le_gt_cases (f 0%nat a) h) as [Ha|Ha]; [|right; exists 0%nat, a; split; [reflexivity|exact Ha]].
  destruct (IH (fun i => f (S i))) as [K|[i [b [E K]]]].
  - left. intros [|i] b H; cbn in H; [injection H as <-; exact Ha|apply K; exact H].
  - right. exists (S i), b. split; assumption.
Qed.

Lemma contents_nth (t : hb Z) j R : length (hb_buckets t) = hb_k t ->
  (contents t j R <-> exists m, nth_error (hb_buckets t) j = Some (mkMvec R m)).
Proof.
  intros L. unfold contents, getBucket. split; intros [m E]; exists m.
  - destruct (Nat.ltb j (hb_k t)); [|discriminate]. apply aget_ok. exact E.
  - assert (j < length (hb_buckets t))%nat by (apply nth_error_Some; congruence).
    destruct (Nat.ltb_spec j (hb_k t)); [|lia]. apply aget_ok. exact E.
Qed.

Section B.
Variable p : Z.
Hypothesis Hp : 1 < p.
Hypothesis Hnb : num_bits p + 7 < 2 ^ 64.
Variable sha : list Z -> list Z.
Hypothesis HS : is_sha sha.
Variable rand : nat -> Z.
Variable fuel hw : nat.
Variable ok : nat -> bool.
Variable pol : policy.
Hypothesis POL : policy_ok pol.

Lemma a_load_eq b raw : forall n i m (t : @atable Z), (i + n <= length raw)%nat ->
  a_load p ok pol n i raw (num_bits p) (Some b) m t = a_addList ok pol n i (map (field_value p b) raw) m t.
Proof.
  induction n as [|n IH]; intros i m t H; [reflexivity|]. cbn [a_load a_addList].
  rewrite (aget_nth 0) by lia. rewrite (aget_nth (field_value p b 0)) by (rewrite map_length; lia). rewrite map_nth.
  cbn [bind padSize run_res]. fold (field_value p b (nth i raw 0)).
  destruct (a_add ok pol m t (field_value p b (nth i raw 0))) as [m1 t1| |]; try reflexivity. apply IH. lia.
Qed.
Lemma a_load_prefix raw fb b k : forall n i m (t : @atable Z), (i + n <= k)%nat -> (k <= length raw)%nat ->
  a_load p ok pol n i raw fb b m t = a_load p ok pol n i (firstn k raw) fb b m t.
Proof.
  induction n as [|n IH]; intros i m t H Hk; [reflexivity|]. cbn [a_load].
  assert (E : aget raw i = aget (firstn k raw) i).
  { rewrite (aget_nth 0 raw) by lia. rewrite (aget_nth 0) by (rewrite firstn_length; lia). f_equal.
    rewrite <- (firstn_skipn k raw) at 1. apply app_nth1. rewrite firstn_length. lia. }
  rewrite E. destruct (do z <- aget (firstn k raw) i; do pad <- padSize fb b; Ok (zeroPad z pad mod p)); cbn [run_res]; try reflexivity.
  destruct (a_add ok pol m t a) as [m1 t1| |]; try reflexivity. apply IH; lia.
Qed.
Lemma a_blind_prefix m k raw n bits : (n <= length raw)%nat ->
  a_blind sha rand fuel p ok pol m k raw n bits = a_blind sha rand fuel p ok pol m k (firstn n raw) (length (firstn n raw)) bits.
Proof.
  intros H. rewrite firstn_length, Nat.min_l by lia. unfold a_blind, guarded.
  repeat (destruct (ok _); [|reflexivity]). rewrite (a_load_prefix raw _ _ n) by lia. reflexivity.
Qed.

Lemma a_copies_cases : forall (bs : list (mvec Z)) m,
  Forall (fun b => Z.of_nat (length (mv_items b)) <= p_max pol) bs ->
  (exists m1, a_copies ok pol bs m = inl m1 /\ frame m m1) \/
  (exists m1, a_copies ok pol bs m = inr (m1, BadAlloc) /\ frame m m1 /\ failed ok (m_tries m) (m_tries m1)).
Proof.
  induction bs as [|b bs IH]; intros m F; [left; exists m; split; [reflexivity|apply frame_refl]|].
  inversion F as [|? ? Hb F']; subst. cbn [a_copies]. destruct (mv_items b) as [|x l] eqn:E; [apply IH; exact F'|].
  unfold vec_new. cbv zeta in *. destruct (Z.ltb_spec (p_max pol) (Z.of_nat (length (x :: l)))); [lia|].
  destruct (ok (m_tries m)) eqn:Eo.
  - cbn [tried m_tries m_live]. destruct (IH (mkMem (S (m_tries m)) (m_live m + 1 - 1)) F') as [[m1 [E1 F1]]|[m1 [E1 [F1 X]]]].
    + left. exists m1. split; [exact E1|]. unfold frame in *; cbn in F1; lia.
    + right. exists m1. split; [exact E1|]. split; [unfold frame in *; cbn in F1; lia|].
      destruct X as [j [J1 J2]]. exists j. cbn in J1. split; [lia|exact J2].
  - right. eexists. split; [reflexivity|]. split; [unfold frame; cbn; lia|]. exists (m_tries m). cbn. split; [lia|exact Eo].
Qed.

Lemma blind_split c secret raw b h zp nt h1 h2 zp1 :
  for_up (length raw) 0 (fun i h => do z <- aget raw i; do pad <- padSize (co_fbits c) (Some b); hb_add h (zeroPad z pad mod p)) h = Ok h1 ->
  conceal (conceal_gen sha rand fuel p) h1 (Ok zp) = Ok (h2, Ok zp1) ->
  blind sha rand fuel p hw c secret raw (length raw) (Some b) h zp nt =
  do (c1, zp2, bl) <- blind_rest sha rand fuel p c secret h2 zp1; Ok (c1, h2, zp2, bl).
Proof.
  intros E1 E2. unfold blind, blind_rest. cbv zeta. rewrite E1. cbn [bind]. rewrite E2. cbn [bind].
  repeat match goal with
  | |- context [bind (mapM ?f ?l) _] => destruct (mapM f l); cbn [bind]; try reflexivity
  | |- context [bind (getUnknowns ?a ?b ?c ?d ?e ?f) _] => destruct (getUnknowns a b c d e f) as [[? ?]| | | |]; cbn [bind]; try reflexivity
  | |- context [bind (evalPolys ?a ?b ?c ?d ?e ?f) _] => destruct (evalPolys a b c d e f); cbn [bind]; try reflexivity
  | |- context [bind (for_up ?a ?b ?c ?d) _] => destruct (for_up a b c d) as [[[? ?] ?]| | | |]; cbn [bind]; try reflexivity
  end.
Qed.

(** *** the invariant *)
Definition kinv (al : halgo Z) (L h D : nat) (k : aclient) : Prop :=
  party_ok p (ac_core k) /\ co_length (ac_core k) = L /\ co_degree (ac_core k) = D /\
  awf pol (ac_table k) /\ hb_algo (at_hb (ac_table k)) = Some al /\ hb_k (at_hb (ac_table k)) = L /\
  hb_maxload (at_hb (ac_table k)) = h /\
  (forall i b, nth_error (hb_buckets (at_hb (ac_table k))) i = Some b -> (length (mv_items b) <= h)%nat) /\
  zp_inv p (ac_zp k) /\ (D <= length (points_of sha p (ac_core k) D))%nat.

Definition why_thrown (m m1 : mem) (x : exn) (h : nat) : Prop :=
  match x with BadAlloc => failed ok (m_tries m) (m_tries m1) | LengthError => p_max pol <= Z.of_nat h end.

Lemma why_why m m1 x (t : hb Z) h : (forall i b, nth_error (hb_buckets t) i = Some b -> (length (mv_items b) <= h)%nat) ->
  why ok pol m m1 x t -> why_thrown m m1 x h.
Proof.
  intros F. destruct x; cbn; [auto|]. intros [b [I Hb]]. apply In_nth_error in I. destruct I as [i Hi].
  specialize (F i b Hi). lia.
Qed.

Definition unfilled (al : halgo Z) (t t1 : hb Z) (l : list Z) : Prop :=
  forall i b, nth_error (hb_buckets t) i = Some b ->
    nth_error (hb_buckets t1) i = Some (mkMvec (mv_items b ++ belonging al (hb_k t) i l) (mv_marked b)).

(** loading the data *)
Lemma load_cases al h b raw m (t : @atable Z) : awf pol t -> hb_algo (at_hb t) = Some al -> (0 < hb_k (at_hb t))%nat ->
  hb_maxload (at_hb t) = h ->
  (forall i b, nth_error (hb_buckets (at_hb t)) i = Some b -> (length (mv_items b) <= h)%nat) ->
  let zs := map (field_value p b) raw in
  let fit l := forall i bk, nth_error (hb_buckets (at_hb t)) i = Some bk -> (length (mv_items bk) + length (belonging al (hb_k (at_hb t)) i l) <= h)%nat in
  let out l := exists i bk, nth_error (hb_buckets (at_hb t)) i = Some bk /\ (h < length (mv_items bk) + length (belonging al (hb_k (at_hb t)) i l))%nat in
  let o := a_load p ok pol (length raw) 0 raw (num_bits p) (Some b) m t in
  (fit zs /\ exists m1 t1, o = Done m1 t1 /\ awf pol t1 /\ frame m m1 /\ hb_algo (at_hb t1) = Some al /\ hb_k (at_hb t1) = hb_k (at_hb t) /\
     hb_maxload (at_hb t1) = h /\ unfilled al (at_hb t) (at_hb t1) zs /\
     for_up (length zs) 0 (fun i h => do e <- aget zs i; hb_add h e) (at_hb t) = Ok (at_hb t1)) \/
  (exists m1 x t1 j, o = Thrown m1 x t1 /\ (j < length zs)%nat /\ awf pol t1 /\ frame m m1 /\ why ok pol m m1 x (at_hb t1) /\ hb_algo (at_hb t1) = Some al /\ hb_k (at_hb t1) = hb_k (at_hb t) /\
     hb_maxload (at_hb t1) = h /\ fit (firstn j zs) /\ unfilled al (at_hb t) (at_hb t1) (firstn j zs)) \/
  (out zs /\ o = Stop (Exit 1)).
Proof.
  intros W Ha Hk Hm Hle zs fit out o. unfold o. rewrite a_load_eq by lia. fold zs.
  assert (LZ : length zs = length raw) by apply map_length. rewrite <- LZ.
  assert (Dec : forall l, fit l \/ out l).
  { intros l. apply (le_dec_all (hb_buckets (at_hb t)) (fun i bk => length (mv_items bk) + length (belonging al (hb_k (at_hb t)) i l))%nat h). }
  assert (Hle' : forall i b, nth_error (hb_buckets (at_hb t)) i = Some b -> (length (mv_items b) <= hb_maxload (at_hb t))%nat) by (rewrite Hm; exact Hle).
  pose proof (hb_add_list_gen al) as G.
  destruct (a_addList_cases ok pol POL zs (length zs) 0 m t W ltac:(lia)) as
    [[m1 [t1 [E [A [W1 F]]]]]|[[m1 [x [t1 [j [h1 [E [Hj [A [Wh1 [S [W1 [F Y]]]]]]]]]]]]|[r [E A]]]]; cbv zeta in *; rewrite E.
  - destruct (G zs (at_hb t) (length zs) 0%nat (proj1 W) Ha Hk Hle' zs [] eq_refl eq_refl eq_refl) as [GA GB]. cbv zeta in GA, GB.
    rewrite Hm in GA, GB. destruct (Dec zs) as [Fz|Oz].
    + left. split; [exact Fz|]. destruct (GA Fz) as [h' [E' [W' [K' [M' [A' N']]]]]]. assert (h' = at_hb t1) by congruence. subst h'.
      exists m1, t1. split; [reflexivity|]. split; [exact W1|]. split; [exact F|]. split; [congruence|]. split; [exact K'|]. split; [congruence|].
      split; [exact N'|exact A].
    + rewrite (GB Oz) in A. discriminate.
  - right; left. exists m1, x, t1, j. split; [reflexivity|]. split; [exact Hj|]. split; [exact W1|]. split; [exact F|]. split; [exact Y|].
    assert (LF : length (firstn j zs) = j) by (rewrite firstn_length; lia).
    assert (A2 : for_up j 0 (fun i h => do e <- aget (firstn j zs) i; hb_add h e) (at_hb t) = Ok h1).
    { rewrite <- A. apply for_up_ext. intros i s Hi. cbn [Nat.add] in Hi. rewrite (aget_nth 0 zs) by lia. rewrite (aget_nth 0) by lia.
      rewrite <- (firstn_skipn j zs) at 2. rewrite app_nth1 by lia. reflexivity. }
    destruct (G (firstn j zs) (at_hb t) j 0%nat (proj1 W) Ha Hk Hle' (firstn j zs) [] eq_refl eq_refl (eq_sym LF)) as [GA GB]. cbv zeta in GA, GB.
    rewrite Hm in GA, GB. destruct (Dec (firstn j zs)) as [Fz|Oz]; [|rewrite (GB Oz) in A2; discriminate].
    destruct (GA Fz) as [h' [E' [W' [K' [M' [A' N']]]]]]. assert (h' = h1) by congruence. subst h'.
    destruct S as [S1 [S2 [S3 [S4 S5]]]]. split; [congruence|]. split; [congruence|]. split; [congruence|]. split; [exact Fz|].
    intros i bk Hi. rewrite S4. apply N'. exact Hi.
  - destruct (G zs (at_hb t) (length zs) 0%nat (proj1 W) Ha Hk Hle' zs [] eq_refl eq_refl eq_refl) as [GA GB]. cbv zeta in GA, GB.
    rewrite Hm in GA, GB. right; right. destruct (Dec zs) as [Fz|Oz].
    + destruct (GA Fz) as [h' [E' _]]. rewrite E' in A. destruct r; discriminate.
    + split; [exact Oz|]. rewrite (GB Oz) in A. destruct r as [[]|code|w| |]; cbn in A; try discriminate. injection A as <-. reflexivity.
Qed.

(** filling up *)
Definition filled (h : nat) (bs bs' : list (mvec Z)) (P : nat) : Prop :=
  forall i b, nth_error bs i = Some b -> exists f m', nth_error bs' i = Some (mkMvec (mv_items b ++ f) m') /\ Forall (in_field p) f /\
    ((i < P)%nat -> length (mv_items b ++ f) = h) /\ (i = P -> (length (mv_items b ++ f) < h)%nat) /\ ((P < i)%nat -> f = []).

Lemma Forall_concat_nth {A} (Q : A -> Prop) (fl : list (list A)) i f : Forall Q (concat fl) -> nth_error fl i = Some f -> Forall Q f.
Proof.
  intros F H. apply Forall_forall. intros x Hx. rewrite Forall_forall in F. apply F. apply in_concat. exists f. split; [|exact Hx].
  eapply nth_error_In. exact H.
Qed.

Lemma fill_cases h m (t : @atable Z) zp : awf pol t -> zp_inv p zp -> hb_maxload (at_hb t) = h ->
  (forall i b, nth_error (hb_buckets (at_hb t)) i = Some b -> (length (mv_items b) <= h)%nat) ->
  let o := a_conceal ok pol (conceal_gen sha rand fuel p) m t (Ok zp) in
  let bs := hb_buckets (at_hb t) in
  (exists m1 t1 zp1, o = Done m1 (t1, Ok zp1) /\ awf pol t1 /\ frame m m1 /\ zp_inv p zp1 /\
     conceal (conceal_gen sha rand fuel p) (at_hb t) (Ok zp) = Ok (at_hb t1, Ok zp1) /\
     at_hb t1 = with_buckets (at_hb t) (hb_buckets (at_hb t1)) /\ filled h bs (hb_buckets (at_hb t1)) (hb_k (at_hb t))) \/
  (exists m1 x t1 zp1 P, o = Thrown m1 x (t1, Ok zp1) /\ (P < hb_k (at_hb t))%nat /\ awf pol t1 /\ frame m m1 /\ zp_inv p zp1 /\ why ok pol m m1 x (at_hb t1) /\
     at_hb t1 = with_buckets (at_hb t) (hb_buckets (at_hb t1)) /\ filled h bs (hb_buckets (at_hb t1)) P).
Proof.
  intros W I Hm Hle o bs. pose proof W as [[WL _] _]. unfold o, a_conceal. rewrite <- WL. fold bs.
  set (gen := conceal_gen sha rand fuel p).
  assert (AF : forall (q q' : list (mvec Z)) fl i b f, nth_error q i = Some b -> nth_error fl i = Some f -> length f = (h - length (mv_items b))%nat ->
     nth_error q' i = Some (mkMvec (mv_items b ++ f) (new_mark b)) -> (length (mv_items b) <= h)%nat -> length (mv_items b ++ f) = h).
  { intros q q' fl i b f _ _ E _ Hb. rewrite app_length. lia. }
  destruct (a_concealFrom_cases ok pol POL gen bs [] m t (Ok zp) W eq_refl) as
    [[m1 [t1 [E [A [W1 F]]]]]|[m1 [x [t1 [p1 [b0 [p2 [j [E [Ep [Hj [A [W1 [F Y]]]]]]]]]]]]]]; cbv zeta in *; cbn [length] in E; rewrite E.
  - left. pose proof (conceal_eq gen (at_hb t) (Ok zp) WL) as C. fold bs in C. rewrite Hm in *.
    destruct (appended_conceal gen h bs (Ok zp)) as [fl [[P1 [P2 P3]] [CF SF]]].
    destruct (draws_ok p Hp Hnb sha HS rand fuel (missing h bs) zp I) as [dl [zp1 [ED [I1 FD]]]]. fold gen in ED.
    rewrite ED in CF, SF. cbn [fst snd] in CF, SF.
    exists m1, t1, zp1. rewrite SF. split; [reflexivity|]. split; [exact W1|]. split; [exact F|]. split; [exact I1|]. split; [rewrite C, SF, A; reflexivity|].
    split; [rewrite A; reflexivity|]. rewrite A. cbn [app with_buckets hb_buckets].
    intros i b Hb. destruct (P3 i b Hb) as [f [F1 [F2 F3]]]. exists f, (new_mark b). split; [exact F3|].
    split; [rewrite <- CF in FD; eapply Forall_concat_nth; [exact FD|exact F1]|].
    assert (i < length bs)%nat by (apply nth_error_Some; congruence). specialize (Hle i b Hb).
    split; [intros _; rewrite app_length; lia|]. split; lia.
  - right. rewrite Hm in *. cbn [app] in A. pose proof (draws_ok p Hp Hnb sha HS rand fuel) as DO. fold gen in DO.
    destruct (appended_conceal gen h p1 (Ok zp)) as [fl [[P1 [P2 P3]] [CF SF]]].
    destruct (DO (missing h p1) zp I) as [dl [zp1 [ED [I1 FD]]]]. rewrite ED in CF, SF. cbn [fst snd] in CF, SF. rewrite SF in *.
    destruct (DO (S j) zp1 I1) as [dl2 [zp2 [ED2 [I2 _]]]]. destruct (DO j zp1 I1) as [dl3 [zp3 [ED3 [I3 FD3]]]].
    rewrite ED2. rewrite ED3 in A. cbn [fst snd] in *.
    assert (L3 : length dl3 = j). { pose proof (draws_length gen j (Ok zp1)) as DL. rewrite ED3 in DL. exact DL. }
    exists m1, x, t1, zp2, (length p1). split; [reflexivity|]. split; [rewrite Ep, app_length; cbn; lia|]. split; [exact W1|]. split; [exact F|].
    split; [exact I2|]. split; [exact Y|]. split; [rewrite A; reflexivity|]. rewrite A. cbn [with_buckets hb_buckets]. rewrite Ep.
    intros i b Hb. pose proof Hb as Hb0. apply app_nth_cases in Hb. destruct Hb as [[Hb Hi]|[k [-> Hb]]].
    + destruct (P3 i b Hb) as [f [F1 [F2 F3]]]. exists f, (new_mark b). split; [rewrite nth_error_app1 by lia; exact F3|].
      split; [rewrite <- CF in FD; eapply Forall_concat_nth; [exact FD|exact F1]|].
      assert ((length (mv_items b) <= h)%nat) by (apply (Hle i); fold bs; rewrite Ep; exact Hb0).
      split; [intros _; rewrite app_length; lia|]. split; lia.
    + rewrite nth_error_app2 by lia. rewrite P2. replace (length p1 + k - length p1)%nat with k by lia. destruct k as [|k]; cbn [nth_error] in Hb |- *.
      * injection Hb as <-. eexists dl3, _. split; [reflexivity|]. split; [exact FD3|]. split; [lia|]. split; [intros _; rewrite app_length; lia|lia].
      * exists [], (mv_marked b). rewrite app_nil_r. split; [destruct b; exact Hb|]. split; [constructor|]. split; [lia|]. split; [lia|reflexivity].
Qed.

(** *** the call *)
Definition fits_in (al : halgo Z) (t : hb Z) (h : nat) (zs : list Z) : Prop :=
  forall i bk, nth_error (hb_buckets t) i = Some bk -> (length (mv_items bk) + length (belonging al (hb_k t) i zs) <= h)%nat.
Definition too_many (al : halgo Z) (t : hb Z) (h : nat) (zs : list Z) : Prop :=
  exists i bk, nth_error (hb_buckets t) i = Some bk /\ (h < length (mv_items bk) + length (belonging al (hb_k t) i zs))%nat.

Lemma unfilled_le al t t1 l h : length (hb_buckets t) = length (hb_buckets t1) -> unfilled al t t1 l -> fits_in al t h l ->
  forall i b, nth_error (hb_buckets t1) i = Some b -> (length (mv_items b) <= h)%nat.
Proof.
  intros L U F i b Hb. assert (Hi : (i < length (hb_buckets t))%nat) by (rewrite L; apply nth_error_Some; congruence).
  destruct (nth_error (hb_buckets t) i) as [b0|] eqn:E; [|apply nth_error_None in E; lia].
  rewrite (U i b0 E) in Hb. injection Hb as <-. cbn [mv_items]. rewrite app_length. apply F. exact E.
Qed.
Lemma filled_le h bs bs' P : length bs = length bs' -> (forall i b, nth_error bs i = Some b -> (length (mv_items b) <= h)%nat) -> filled h bs bs' P ->
  forall i b, nth_error bs' i = Some b -> (length (mv_items b) <= h)%nat.
Proof.
  intros L F U i b Hb. assert (Hi : (i < length bs)%nat) by (rewrite L; apply nth_error_Some; congruence).
  destruct (nth_error bs i) as [b0|] eqn:E; [|apply nth_error_None in E; lia].
  destruct (U i b0 E) as [f [m' [E2 [_ [A [B C]]]]]]. rewrite E2 in Hb. injection Hb as <-. cbn [mv_items]. specialize (F i b0 E).
  destruct (Nat.lt_trichotomy i P) as [X|[X|X]]; [rewrite (A X); lia|specialize (B X); lia|rewrite (C X), app_nil_r; lia].
Qed.

Lemma blind_cases al L h D m k b raw nt : kinv al L h D k -> (0 < L)%nat ->
  let t := at_hb (ac_table k) in
  let zs := map (field_value p b) raw in
  let o := a_blind sha rand fuel p ok pol m k raw (length raw) (Some b) in
  (failed ok (m_tries m) (m_tries m + 4) /\ o = Stop (Exit 2)) \/
  (~ failed ok (m_tries m) (m_tries m + 4) /\
   ((exists m1 k1 bl, o = Done m1 k1 /\ m_live m1 = m_live m + 1 /\ (m_tries m + 4 <= m_tries m1)%nat /\ kinv al L h D k1 /\ fits_in al t h zs /\
       ac_secret k1 = ac_secret k /\ ac_raw k1 = ac_raw k /\ ac_blinded k1 = Some bl /\
       blind sha rand fuel p hw (ac_core k) (ac_secret k) raw (length raw) (Some b) t (ac_zp k) nt = Ok (ac_core k1, at_hb (ac_table k1), ac_zp k1, bl)) \/
    (exists m1 x k1, o = Thrown m1 x k1 /\ m_live m1 = m_live m + 4 /\ (m_tries m + 4 <= m_tries m1)%nat /\ kinv al L h D k1 /\
       why_thrown m m1 x h /\ ac_core k1 = ac_core k /\ ac_secret k1 = ac_secret k /\ ac_raw k1 = ac_raw k /\ ac_blinded k1 = Some (zeros L D) /\
       ((exists j, (j < length zs)%nat /\ ac_zp k1 = ac_zp k /\ unfilled al t (at_hb (ac_table k1)) (firstn j zs)) \/
        (fits_in al t h zs /\ exists P t1, (P <= L)%nat /\ length (hb_buckets t1) = L /\ unfilled al t t1 zs /\
           filled h (hb_buckets t1) (hb_buckets (at_hb (ac_table k1))) P))) \/
    (o = Stop (Exit 1) /\ too_many al t h zs))).
Proof.
  intros K HL t zs o. pose proof K as [PK [EL [ED [W [Ha [Hk [Hm [Hle [I HD]]]]]]]]].
  assert (Ekb : co_fbits (ac_core k) = num_bits p) by apply PK. fold t in Ha, Hk, Hm, Hle.
  unfold o, a_blind, guarded.
  destruct (ok (m_tries m)) eqn:O1; [|left; split; [exists (m_tries m); split; [lia|exact O1]|reflexivity]]. cbn [tried m_tries m_live].
  destruct (ok (S (m_tries m))) eqn:O2; [|left; split; [exists (S (m_tries m)); split; [lia|exact O2]|reflexivity]].
  destruct (ok (S (S (m_tries m)))) eqn:O3; [|left; split; [exists (S (S (m_tries m))); split; [lia|exact O3]|reflexivity]].
  destruct (ok (S (S (S (m_tries m))))) eqn:O4; [|left; split; [exists (S (S (S (m_tries m)))); split; [lia|exact O4]|reflexivity]].
  right. split.
  { intros [j [J1 J2]]. assert (j = m_tries m \/ j = S (m_tries m) \/ j = S (S (m_tries m)) \/ j = S (S (S (m_tries m)))) as [-> | [-> | [-> | ->]]] by lia; congruence. }
  match goal with |- context [a_load _ _ _ _ _ _ _ _ ?mm _] => set (m4 := mm) end.
  assert (L4 : m_live m4 = m_live m + 4) by (unfold m4; cbn; lia).
  assert (T4 : m_tries m4 = (m_tries m + 4)%nat) by (unfold m4; cbn; lia).
  rewrite Ekb, EL, ED. fold (zeros L D).
  assert (WM : forall m1 x (t1 : hb Z), (forall i b, nth_error (hb_buckets t1) i = Some b -> (length (mv_items b) <= h)%nat) ->
    frame m4 m1 -> forall m2, frame m4 m2 -> why ok pol m2 m1 x t1 -> why_thrown m m1 x h).
  { intros m1 x t1 Fl [F1 F2] m2 [F3 F4] Y. apply why_why with (h := h) in Y; [|exact Fl]. destruct x; cbn in *; [|exact Y].
    destruct Y as [j [J1 J2]]. exists j. split; [lia|exact J2]. }
  assert (LT : length (hb_buckets t) = L) by (destruct W as [[WL _] _]; rewrite <- Hk; exact WL).
  assert (Hk0 : (0 < hb_k t)%nat) by lia.
  pose proof (load_cases al h b raw m4 (ac_table k) W Ha Hk0 Hm Hle) as LC. cbv zeta in LC. fold zs in LC. fold t in LC.
  destruct LC as
    [[Fz [m5 [t5 [E5 [W5 [F5 [A5 [K5 [M5 [U5 FU]]]]]]]]]]|[[m5 [x [t5 [j [E5 [Hj [W5 [F5 [Y5 [A5 [K5 [M5 [Fz U5]]]]]]]]]]]]]|[Oz E5]]];
    rewrite E5.
  3: right; right; split; [reflexivity|]; exact Oz.
  2:{ assert (LE : length (hb_buckets t) = length (hb_buckets (at_hb t5))).
      { destruct W5 as [[WL _] _]. rewrite LT, WL, K5, Hk. reflexivity. }
      pose proof (unfilled_le al t (at_hb t5) _ h LE U5 Fz) as Fl.
      right; left. do 3 eexists. split; [reflexivity|]. split; [destruct F5; lia|]. split; [destruct F5; lia|].
      cbn [ac_core ac_secret ac_raw ac_table ac_zp ac_blinded ac_set_blinded ac_set_table].
      split.
      { unfold kinv; cbn [ac_core ac_table ac_zp ac_set_blinded ac_set_table]. split; [exact PK|]. split; [exact EL|]. split; [exact ED|]. split; [exact W5|].
        split; [exact A5|]. split; [etransitivity; [exact K5|exact Hk]|]. split; [exact M5|]. split; [exact Fl|]. split; [exact I|exact HD]. }
      split; [eapply WM; [exact Fl|exact F5|apply frame_refl|exact Y5]|].
      split; [reflexivity|]. split; [reflexivity|]. split; [reflexivity|]. split; [reflexivity|].
      left. exists j. split; [exact Hj|]. split; [reflexivity|exact U5]. }
  assert (LE : length (hb_buckets t) = length (hb_buckets (at_hb t5))).
  { destruct W5 as [[WL _] _]. rewrite LT, WL, K5, Hk. reflexivity. }
  pose proof (unfilled_le al t (at_hb t5) _ h LE U5 Fz) as Fl5.
  cbn [ac_core ac_secret ac_raw ac_table ac_zp ac_blinded ac_set_blinded ac_set_table].
  pose proof (fill_cases h m5 t5 (ac_zp k) W5 I M5 Fl5) as FC. cbv zeta in FC. destruct FC as
    [[m6 [t6 [zp6 [E6 [W6 [F6 [I6 [C6 [B6 X6]]]]]]]]]|[m6 [x [t6 [zp6 [P [E6 [HP [W6 [F6 [I6 [Y6 [B6 X6]]]]]]]]]]]]]; rewrite E6; cbn [run_res].
  2:{ assert (LE6 : length (hb_buckets (at_hb t5)) = length (hb_buckets (at_hb t6))).
      { pose proof W5 as [[WL5 _] _]. pose proof W6 as [[WL6 _] _]. rewrite WL5, WL6, B6. reflexivity. }
      pose proof (filled_le h _ _ P LE6 Fl5 X6) as Fl6.
      right; left. do 3 eexists. split; [reflexivity|]. split; [destruct F5, F6; lia|]. split; [destruct F5, F6; lia|].
      cbn [ac_core ac_secret ac_raw ac_table ac_zp ac_blinded ac_set_blinded ac_set_table].
      split.
      { unfold kinv; cbn [ac_core ac_table ac_zp ac_set_blinded ac_set_table]. split; [exact PK|]. split; [exact EL|]. split; [exact ED|]. split; [exact W6|].
        rewrite B6. cbn [with_buckets hb_algo hb_k hb_maxload hb_buckets].
        split; [exact A5|]. split; [etransitivity; [exact K5|exact Hk]|]. split; [exact M5|]. split; [exact Fl6|]. split; [exact I6|exact HD]. }
      split; [eapply WM; [exact Fl6|eapply frame_trans; eassumption|exact F5|exact Y6]|].
      split; [reflexivity|]. split; [reflexivity|]. split; [reflexivity|]. split; [reflexivity|].
      right. split; [exact Fz|]. exists P, (at_hb t5). split; [lia|]. split; [lia|]. split; [exact U5|exact X6]. }
  assert (LE6 : length (hb_buckets (at_hb t5)) = length (hb_buckets (at_hb t6))).
  { pose proof W5 as [[WL5 _] _]. pose proof W6 as [[WL6 _] _]. rewrite WL5, WL6, B6. reflexivity. }
  pose proof (filled_le h _ _ _ LE6 Fl5 X6) as Fl6.
  (* the copies *)
  assert (FM : Forall (fun b => Z.of_nat (length (mv_items b)) <= p_max pol) (firstn L (hb_buckets (at_hb t6)))).
  { apply Forall_forall. intros bk Hin. assert (Hin' : In bk (hb_buckets (at_hb t6))).
    { rewrite <- (firstn_skipn L). apply in_or_app. left; exact Hin. }
    apply In_nth_error in Hin'. destruct Hin' as [i Hi]. destruct W6 as [_ C]. destruct (Forall2_nth _ _ _ _ _ C Hi) as [c [_ [R1 R2]]]. lia. }
  assert (INV6 : forall c zp, party_ok p c -> co_length c = L -> co_degree c = D -> (D <= length (points_of sha p c D))%nat -> zp_inv p zp -> forall s r bl,
     kinv al L h D (mkAclient c s r t6 zp bl)).
  { intros c zp Q1 Q2 Q3 Q4 Q5 s r bl. unfold kinv; cbn [ac_core ac_table ac_zp ac_set_blinded ac_set_table].
    split; [exact Q1|]. split; [exact Q2|]. split; [exact Q3|]. split; [exact W6|]. rewrite B6. cbn [with_buckets hb_algo hb_k hb_maxload hb_buckets]. split; [exact A5|]. split; [etransitivity; [exact K5|exact Hk]|]. split; [exact M5|].
    split; [exact Fl6|]. split; [exact Q5|exact Q4]. }
  destruct (a_copies_cases (firstn L (hb_buckets (at_hb t6))) m6 FM) as [[m7 [E7 F7]]|[m7 [E7 [F7 Y7]]]]; rewrite E7.
  2:{ right; left. do 3 eexists. split; [reflexivity|]. split; [destruct F5, F6, F7; lia|]. split; [destruct F5, F6, F7; lia|].
      split; [apply INV6; assumption|]. cbn [ac_core ac_secret ac_raw ac_table ac_zp ac_blinded ac_set_blinded ac_set_table why_thrown].
      split. { destruct Y7 as [j [J1 J2]]. exists j. destruct F5, F6, F7. split; [lia|exact J2]. }
      split; [reflexivity|]. split; [reflexivity|]. split; [reflexivity|]. split; [reflexivity|].
      right. split; [exact Fz|]. exists L, (at_hb t5). split; [lia|]. split; [lia|]. split; [exact U5|].
      rewrite K5, Hk in X6. exact X6. }
  (* the rest *)
  left.
  pose proof (blind_ok p Hp Hnb sha HS rand fuel hw (ac_core k) (ac_secret k) raw b t (ac_zp k) nt al PK (proj1 W) Ha) as BO.
  rewrite Hk in BO. specialize (BO ltac:(lia) (eq_sym EL) I). rewrite ED in BO. specialize (BO HD). cbv zeta in BO.
  rewrite Hm in BO. specialize (BO Hle). destruct BO as [BO _]. unfold fits_in in *. rewrite Hk in Fz.
  destruct (BO Fz) as [c' [h' [zp' [R [EB [_ [EU [SC [PK' [W' [A' [K' [M' I']]]]]]]]]]]]].
  assert (SPL : blind sha rand fuel p hw (ac_core k) (ac_secret k) raw (length raw) (Some b) t (ac_zp k) nt =
    do (c1, zp2, bl) <- blind_rest sha rand fuel p (ac_core k) (ac_secret k) (at_hb t6) zp6; Ok (c1, at_hb t6, zp2, bl)).
  { eapply blind_split; [|exact C6]. rewrite Ekb. rewrite <- FU. unfold zs. rewrite map_length. apply for_up_ext. intros i s Hi. cbn [Nat.add] in Hi.
    rewrite (aget_nth 0) by lia. rewrite (aget_nth (field_value p b 0)) by (rewrite map_length; lia). rewrite map_nth. reflexivity. }
  rewrite SPL in EB. destruct (blind_rest sha rand fuel p (ac_core k) (ac_secret k) (at_hb t6) zp6) as [[[c1 zp2] bl]| | | |]; cbn [bind] in EB; try discriminate.
  cbn [run_res].
  assert (Q : c1 = c' /\ zp2 = zp').
  { apply Ok_inj in EB. split; congruence. }
  destruct Q as [-> ->].
  exists (mkMem (m_tries m7) (m_live m7 - 3)). eexists _, bl. split; [reflexivity|]. split; [destruct F5, F6, F7; cbn; lia|]. split; [destruct F5, F6, F7; cbn; lia|].
  split.
  { destruct SC as [_ [_ [S3 [S4 _]]]]. apply INV6; [exact PK'|congruence|congruence| |exact I'].
    unfold points_of. rewrite EU. destruct (Nat.eqb_spec (length (points_of sha p (ac_core k) D)) 0); [unfold points; rewrite map_length, seq_length; lia|lia]. }
  rewrite Hk. split; [exact Fz|]. cbn [ac_core ac_secret ac_raw ac_table ac_zp ac_blinded ac_set_blinded ac_set_table].
  split; [reflexivity|]. split; [reflexivity|]. split; [reflexivity|]. rewrite SPL. reflexivity.
Qed.

(** *** setRawData *)
Definition with_raw (k : aclient) (r : list Z * nat * Z) : aclient :=
  mkAclient (ac_core k) (ac_secret k) (Some r) (ac_table k) (ac_zp k) (ac_blinded k).
Lemma setRaw_eq m k raw n b : n <> 0%nat -> (n <= length raw)%nat ->
  a_setRawData sha rand fuel p ok pol m k (Some raw) n b =
  a_blind sha rand fuel p ok pol m (with_raw k (raw, n, b)) (firstn n raw) (length (firstn n raw)) (Some b).
Proof.
  intros N H. unfold a_setRawData. destruct (Nat.eqb_spec n 0); [contradiction|]. rewrite a_blind_prefix by exact H. reflexivity.
Qed.

Definition real_call (c : option (list Z) * nat * Z) : bool :=
  match c with (Some _, n, _) => negb (Nat.eqb n 0) | _ => false end.
Definition call_ok (c : option (list Z) * nat * Z) : Prop :=
  match c with (Some raw, n, _) => (n <= length raw)%nat | _ => True end.

Lemma calls_inv al L h D : (0 < L)%nat -> forall calls m k m1 k1 log, kinv al L h D k -> Forall call_ok calls ->
  a_calls sha rand fuel p ok pol m k calls = (inl (m1, k1), log) ->
  kinv al L h D k1 /\ (m_tries m <= m_tries m1)%nat /\
  m_live m1 = m_live m + Z.of_nat (length (filter real_call calls)) + 3 * Z.of_nat (throws log).
Proof.
  intros HL. induction calls as [|[[raw n] b] calls IH]; intros m k m1 k1 log K F E.
  - cbn in E. injection E as <- <- <-. cbn. split; [exact K|lia].
  - inversion F as [|? ? C F']; subst. cbn [a_calls] in E.
    destruct raw as [raw|].
    2:{ cbn [a_setRawData] in E. destruct (a_calls sha rand fuel p ok pol m k calls) as [r lg] eqn:E2. injection E as -> <-.
        destruct (IH _ _ _ _ _ K F' E2) as [K1 [T1 L1]]. cbn [filter real_call throws length]. unfold throws in *. cbn [filter]. split; [exact K1|]. split; [exact T1|exact L1]. }
    cbn [filter real_call]. destruct (Nat.eqb_spec n 0) as [->|N].
    { cbn [a_setRawData Nat.eqb] in E. destruct (a_calls sha rand fuel p ok pol m k calls) as [r lg] eqn:E2. injection E as -> <-.
      destruct (IH _ _ _ _ _ K F' E2) as [K1 [T1 L1]]. cbn [negb]. unfold throws in *. cbn [filter]. split; [exact K1|]. split; [exact T1|exact L1]. }
    rewrite (setRaw_eq m k raw n b N C) in E. cbn [negb].
    assert (KR : kinv al L h D (with_raw k (raw, n, b))) by exact K.
    destruct (blind_cases al L h D m _ b (firstn n raw) 0%nat KR HL) as [[_ S]|[_ [[m2 [k2 [bl [S [L2 [T2 [K2 _]]]]]]]|[[m2 [x [k2 [S [L2 [T2 [K2 _]]]]]]]|[S _]]]]]; cbv zeta in S; rewrite S in E; try discriminate.
    + destruct (a_calls sha rand fuel p ok pol m2 k2 calls) as [r lg] eqn:E2. injection E as -> <-.
      destruct (IH _ _ _ _ _ K2 F' E2) as [K1 [T1 L1]]. unfold throws in *. cbn [filter length]. split; [exact K1|]. split; [lia|]. lia.
    + destruct (a_calls sha rand fuel p ok pol m2 k2 calls) as [r lg] eqn:E2. injection E as -> <-.
      destruct (IH _ _ _ _ _ K2 F' E2) as [K1 [T1 L1]]. unfold throws in *. cbn [filter length]. split; [exact K1|]. split; [lia|]. lia.
Qed.

Lemma start_inv al L h D m0 m1 t secret pos pos' : algo_valid al -> a_new ok pol m0 L h (Some al) = Done m1 t ->
  kinv al L h D (mkAclient (new_core p L h D pos) secret None t (new_zpprf p pos') None).
Proof.
  intros V E. destruct (a_new_done ok pol m0 L h (Some al) m1 t V E) as [W [N _]].
  destruct (new_hb_ok L h (Some al) V) as [h0 [E0 [_ [K0 [M0 [A0 B0]]]]]]. assert (h0 = at_hb t) by congruence. subst h0.
  unfold kinv; cbn [ac_core ac_table ac_zp].
  split; [split; [apply new_prf_wf|split; reflexivity]|]. split; [reflexivity|]. split; [reflexivity|]. split; [exact W|].
  split; [exact A0|]. split; [exact K0|]. split; [exact M0|]. split.
  { intros i b Hb. rewrite B0 in Hb. apply nth_repeat in Hb. destruct Hb as [-> _]. cbn. lia. }
  split; [split; [apply new_prf_wf|reflexivity]|]. unfold points_of. cbn [new_core co_unknowns length Nat.eqb]. unfold points. rewrite map_length, seq_length. lia.
Qed.

Lemma reachable_inv al L h D m k : algo_valid al -> (0 < L)%nat -> client_reachable sha rand fuel p ok pol al L h D m k -> kinv al L h D k.
Proof.
  intros V HL [m0 [m1 [t [secret [pos [pos' [calls [log [E [C R]]]]]]]]]].
  eapply calls_inv; [exact HL|eapply start_inv; [exact V|exact E]| |exact R].
  apply Forall_forall. intros [[[raw|] n] b] Hin; cbn; [eapply C; exact Hin|exact Logic.I].
Qed.

(** *** in terms of the contents of buckets *)
Lemma loaded_eq b raw n : 0 <= b < num_bits p -> num_bits p < 2 ^ 63 -> loaded p b raw n = map (field_value p b) (firstn n raw).
Proof.
  intros Hb H. unfold loaded, field_value, padded, pad_width. apply map_ext. intros v.
  rewrite w64_small by (unfold M64; lia). rewrite zeroPad_mul_l by lia. reflexivity.
Qed.
Lemma overflows_iff al t h zs : length (hb_buckets t) = hb_k t -> hb_maxload t = h -> (overflows al t zs <-> too_many al t h zs).
Proof.
  intros L M. unfold overflows, too_many. rewrite M. split.
  - intros [j [R [C H]]]. apply contents_nth in C; [|exact L]. destruct C as [mk C]. exists j, (mkMvec R mk). split; [exact C|exact H].
  - intros [j [bk [C H]]]. exists j, (mv_items bk). split; [|exact H]. apply contents_nth; [exact L|]. exists (mv_marked bk). destruct bk; exact C.
Qed.
Lemma fits_not_overflows al t h zs : length (hb_buckets t) = hb_k t -> hb_maxload t = h -> fits_in al t h zs -> ~ overflows al t zs.
Proof.
  intros L M F O. apply (overflows_iff al t h zs L M) in O. destruct O as [i [b [E H]]]. specialize (F i b E). lia.
Qed.
Lemma stopped_adding_ok al t t1 zs j : length (hb_buckets t) = hb_k t -> length (hb_buckets t1) = hb_k t1 ->
  unfilled al t t1 (firstn j zs) -> stopped_adding al t t1 zs j.
Proof.
  intros L L1 U i R C. apply contents_nth in C; [|exact L]. destruct C as [mk C]. apply contents_nth; [exact L1|].
  specialize (U i _ C). cbn [mv_items mv_marked] in U. eauto.
Qed.
Lemma stopped_filling_ok al t ti t1 zs P h : length (hb_buckets t) = hb_k t -> length (hb_buckets t1) = hb_k t1 -> hb_maxload t = h ->
  unfilled al t ti zs -> filled h (hb_buckets ti) (hb_buckets t1) P -> stopped_filling p al t t1 zs P.
Proof.
  intros L L1 M U F i R C. apply contents_nth in C; [|exact L]. destruct C as [mk C]. specialize (U i _ C). cbn [mv_items mv_marked] in U.
  destruct (F i _ U) as [f [m' [E [FF [A [B G]]]]]]. cbn [mv_items] in E, A, B. rewrite <- app_assoc in E, A, B.
  exists f. cbv zeta. rewrite M. split; [apply contents_nth; [exact L1|]; eauto|]. split; [exact FF|]. split; [exact A|]. split; [exact B|exact G].
Qed.
Lemma kinv_len al L h D k : kinv al L h D k -> length (hb_buckets (at_hb (ac_table k))) = hb_k (at_hb (ac_table k)).
Proof. intros [_ [_ [_ [[[WL _] _] _]]]]. exact WL. Qed.
End B.
