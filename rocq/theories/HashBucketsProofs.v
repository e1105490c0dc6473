From Verif Require Import Base Spec Lib StrIntSpec StrIntModel StrIntProofs HashBucketsModel HashBucketsSpec.

Section P.
Context {T : Type}.

(** invariant of reachable tables *)
Definition hwf (h : hb T) : Prop :=
  length (hb_buckets h) = hb_k h /\ hb_n h = 0 /\
  match hb_algo h, hb_strint h with
  | Some al, Some s => algo_valid al /\ wf s /\ si_len s = ha_size al
  | None, None => True
  | _, _ => False
  end.

Lemma throw_oob_exit {A} : @throw_oob A = Exit 1. Proof. reflexivity. Qed.

Lemma setHashAlgorithm_ok (h : hb T) a :
  match a with Some al => algo_valid al | None => True end ->
  match a with
  | None => setHashAlgorithm h a = Ok h
  | Some al => exists s, wf s /\ si_len s = ha_size al /\
      setHashAlgorithm h a = Ok (mkHb (hb_n h) (hb_k h) (hb_maxload h) (hb_buckets h) (Some al) (Some s))
  end.
Proof.
  destruct a as [al|]; [|reflexivity]. intros V. unfold setHashAlgorithm.
  destruct (new_strint_fresh (ha_size al)) as [s [E [W [_ [_ L]]]]]. rewrite E. cbn [bind].
  exists s. split; [exact W|]. split; [|reflexivity]. destruct V as [V _]. lia.
Qed.

Lemma new_hb_ok k ml (a : option (halgo T)) :
  match a with Some al => algo_valid al | None => True end ->
  exists h, new_hb k ml a = Ok h /\ hwf h /\ hb_k h = k /\ hb_maxload h = ml /\ hb_algo h = a /\
    hb_buckets h = repeat (mkMvec [] false) k.
Proof.
  intros V. unfold new_hb. pose proof (setHashAlgorithm_ok (mkHb 0 k ml [] None None) a V) as H.
  destruct a as [al|].
  - destruct H as [s [W [L E]]]. rewrite E. cbn [bind]. eexists; split; [reflexivity|].
    unfold hwf; cbn. rewrite repeat_length. repeat split; auto; first [apply V | apply W].
  - rewrite H. cbn [bind]. eexists; split; [reflexivity|].
    unfold hwf; cbn. rewrite repeat_length. repeat split; auto.
Qed.

Lemma push_at_ok (bs : list (mvec T)) i e : (i < length bs)%nat ->
  exists b, nth_error bs i = Some b /\
    push_at bs i e = Ok (upd bs i (mkMvec (mv_items b ++ [e]) (mv_marked b))).
Proof.
  intros H. destruct (aget_lt bs i H) as [b [E1 E2]]. exists b. split; [exact E2|].
  unfold push_at. rewrite E1; cbn [bind]. apply aset_ok; exact H.
Qed.

Lemma index_lt (al : halgo T) k e : (0 < k)%nat -> (index_of al k e < k)%nat.
Proof.
  intros H. unfold index_of.
  pose proof (Z.mod_pos_bound (LE (firstn (ha_size al) (ha_hash al e))) (Z.of_nat k) ltac:(lia)). lia.
Qed.

Lemma hb_add_spec (h : hb T) al e :
  hwf h -> hb_algo h = Some al -> (0 < hb_k h)%nat ->
  let i := index_of al (hb_k h) e in
  exists b s1, nth_error (hb_buckets h) i = Some b /\ wf s1 /\ si_len s1 = ha_size al /\
    hb_add h e =
      if Nat.eqb (length (mv_items b)) (hb_maxload h) then Exit 1
      else Ok (mkHb (hb_n h) (hb_k h) (hb_maxload h)
                 (upd (hb_buckets h) i (mkMvec (mv_items b ++ [e]) (mv_marked b)))
                 (hb_algo h) (Some s1)).
Proof.
  intros [WL [WN WA]] Ha Hk. cbv zeta. set (i := index_of al (hb_k h) e).
  rewrite Ha in WA. destruct (hb_strint h) as [s|] eqn:Es; [|contradiction].
  destruct WA as [[V1 V2] [Ws Ls]].
  assert (Hi : (i < length (hb_buckets h))%nat) by (rewrite WL; apply index_lt; exact Hk).
  destruct (set_bytes_ok s (ha_hash al e) (ha_size al) Ws V1) as [s1 [E1 [W1 [L1 [Z1 _]]]]].
  { rewrite Ls, Nat.min_id. apply V2. }
  rewrite Ls, Nat.min_id in Z1.
  destruct (push_at_ok (hb_buckets h) i e Hi) as [b [Eb Ep]].
  exists b, s1. split; [exact Eb|]. split; [exact W1|]. split; [congruence|].
  unfold hb_add. rewrite Es, Ha, E1. cbn [bind]. unfold rem.
  destruct (Z.eqb_spec (Z.of_nat (hb_k h)) 0); [lia|]. cbn [bind]. rewrite Z1.
  change (Z.to_nat (LE (firstn (ha_size al) (ha_hash al e)) mod Z.of_nat (hb_k h))) with i.
  unfold aget. rewrite Eb. cbn [bind]. rewrite throw_oob_exit.
  destruct (Nat.eqb_spec (length (mv_items b)) (hb_maxload h)); [reflexivity|].
  rewrite Ep. reflexivity.
Qed.

Lemma hb_add_wf (h : hb T) e h1 : hwf h -> hb_add h e = Ok h1 ->
  hwf h1 /\ hb_k h1 = hb_k h /\ hb_maxload h1 = hb_maxload h /\ hb_algo h1 = hb_algo h.
Proof.
  intros W E. pose proof W as [WL [WN WA]].
  destruct (hb_algo h) as [al|] eqn:Ha.
  - destruct (Nat.eq_dec (hb_k h) 0) as [Hk|Hk].
    + exfalso. unfold hb_add in E. rewrite Ha in E. destruct (hb_strint h) as [s|]; [|contradiction].
      inv_bind E. inv_bind E. unfold rem in Hb0. rewrite Hk in Hb0. discriminate.
    + destruct (hb_add_spec h al e W Ha ltac:(lia)) as [b [s1 [Eb [W1 [L1 E1]]]]].
      rewrite E1 in E. destruct (Nat.eqb _ _); [discriminate|]. inversion E; subst h1; clear E.
      unfold hwf; cbn. rewrite upd_length, Ha. destruct (hb_strint h) as [s|]; [|contradiction].
      destruct WA as [V _]. split; [|auto]. split; [exact WL|]. split; [exact WN|]. auto.
  - destruct (hb_strint h) as [s|] eqn:Es; [contradiction|].
    unfold hb_add in E. rewrite Es in E. inv_bind E. inversion E; subst h1; clear E.
    unfold push_at in Hb. inv_bind Hb. apply aset_inv in Hb. destruct Hb as [-> Hlt].
    unfold hwf, with_buckets; cbn. rewrite upd_length, Ha, Es. repeat split; auto.
Qed.

Lemma hb_add_list_wf l dim i0 : forall (h h1 : hb T), hwf h ->
  for_up dim i0 (fun i h => do e <- aget l i; hb_add h e) h = Ok h1 ->
  hwf h1 /\ hb_k h1 = hb_k h /\ hb_maxload h1 = hb_maxload h /\ hb_algo h1 = hb_algo h.
Proof.
  revert i0; induction dim as [|dim IH]; cbn [for_up]; intros i0 h h1 W E.
  - inversion E; subst; auto.
  - inv_bind E. inv_bind Hb. apply hb_add_wf in Hb; [|exact W]. destruct Hb as [W1 [A [B C]]].
    apply IH in E; [|exact W1]. destruct E as [W2 [A2 [B2 C2]]]. repeat split; try congruence; apply W2.
Qed.

Lemma addToBucket_spec (h : hb T) e i : hwf h ->
  ((i < hb_k h)%nat -> exists b, nth_error (hb_buckets h) i = Some b /\
     addToBucket h e i = Ok (with_buckets h (upd (hb_buckets h) i (mkMvec (mv_items b ++ [e]) (mv_marked b))))) /\
  ((hb_k h <= i)%nat -> addToBucket h e i = Exit 1).
Proof.
  intros [WL _]. unfold addToBucket. destruct (Nat.ltb_spec i (hb_k h)); split; intros H'; try lia.
  - destruct (push_at_ok (hb_buckets h) i e ltac:(lia)) as [b [Eb Ep]]. exists b. split; [exact Eb|].
    rewrite Ep. reflexivity.
  - reflexivity.
Qed.

(** *** conceal *)
Section Conceal.
Context {G : Type}.
Variable gen : G -> T * G.

Lemma fill_draws n : forall items g,
  fill gen n items g = (items ++ fst (draws gen n g), snd (draws gen n g)).
Proof.
  induction n as [|n IH]; intros items g; cbn [fill draws].
  - rewrite app_nil_r; reflexivity.
  - destruct (gen g) as [x g1]. rewrite IH. destruct (draws gen n g1) as [l g2]. cbn.
    rewrite <- app_assoc. reflexivity.
Qed.

Lemma draws_length n : forall g, length (fst (draws gen n g)) = n.
Proof.
  induction n as [|n IH]; intros g; cbn [draws]; [reflexivity|].
  destruct (gen g) as [x g1]. specialize (IH g1). destruct (draws gen n g1). cbn in *. lia.
Qed.

Lemma draws_add n m : forall g,
  draws gen (n + m) g =
  (fst (draws gen n g) ++ fst (draws gen m (snd (draws gen n g))), snd (draws gen m (snd (draws gen n g)))).
Proof.
  induction n as [|n IH]; intros g; cbn [Nat.add draws].
  - cbn. destruct (draws gen m g); reflexivity.
  - destruct (gen g) as [x g1]. rewrite IH. destruct (draws gen n g1) as [l g2]. cbn.
    destruct (draws gen m g2); reflexivity.
Qed.

(** pure description of conceal on a list of buckets *)
Fixpoint conceal_list (ml : nat) (bs : list (mvec T)) (g : G) : list (mvec T) * G :=
  match bs with
  | [] => ([], g)
  | b :: t => let '(b1, g1) := conceal_bucket gen ml b g in
              let '(t1, g2) := conceal_list ml t g1 in (b1 :: t1, g2)
  end.

Lemma conceal_loop ml : forall post pre g,
  for_up (length post) (length pre) (fun i '(bs, g) =>
      do b <- aget bs i;
      let '(b1, g1) := conceal_bucket gen ml b g in
      do bs1 <- aset bs i b1;
      Ok (bs1, g1)) (pre ++ post, g)
  = Ok (pre ++ fst (conceal_list ml post g), snd (conceal_list ml post g)).
Proof.
  induction post as [|b post IH]; intros pre g; cbn [length for_up conceal_list].
  - cbn. reflexivity.
  - unfold aget at 1. rewrite nth_error_app2, Nat.sub_diag by lia. cbn [nth_error bind].
    destruct (conceal_bucket gen ml b g) as [b1 g1] eqn:Ec.
    rewrite aset_ok by (rewrite app_length; cbn; lia). cbn [bind].
    rewrite upd_mid.
    replace (pre ++ b1 :: post) with ((pre ++ [b1]) ++ post) by (rewrite <- app_assoc; reflexivity).
    replace (S (length pre)) with (length (pre ++ [b1])) by (rewrite app_length; cbn; lia).
    rewrite IH. destruct (conceal_list ml post g1) as [t1 g2]. cbn. rewrite <- app_assoc. reflexivity.
Qed.

Lemma conceal_eq (h : hb T) g : length (hb_buckets h) = hb_k h ->
  conceal gen h g = Ok (with_buckets h (fst (conceal_list (hb_maxload h) (hb_buckets h) g)),
                        snd (conceal_list (hb_maxload h) (hb_buckets h) g)).
Proof.
  intros L. unfold conceal. rewrite <- L.
  change (hb_buckets h, g) with ([] ++ hb_buckets h, g).
  change 0%nat with (length (@nil (mvec T))). rewrite conceal_loop. reflexivity.
Qed.

Lemma conceal_list_length ml bs : forall g, length (fst (conceal_list ml bs g)) = length bs.
Proof.
  induction bs as [|b bs IH]; intros g; cbn [conceal_list]; [reflexivity|].
  destruct (conceal_bucket gen ml b g) as [b1 g1]. specialize (IH g1).
  destruct (conceal_list ml bs g1). cbn in *. lia.
Qed.

(** cells missing to fill every bucket *)
Definition missing (ml : nat) (bs : list (mvec T)) : nat :=
  fold_right Nat.add 0%nat (map (fun b => ml - length (mv_items b))%nat bs).

Lemma conceal_list_spec ml bs : forall g,
  exists fillers,
    length fillers = length bs /\
    concat fillers = fst (draws gen (missing ml bs) g) /\
    snd (conceal_list ml bs g) = snd (draws gen (missing ml bs) g) /\
    forall i b, nth_error bs i = Some b ->
      exists f, nth_error fillers i = Some f /\ length f = (ml - length (mv_items b))%nat /\
        nth_error (fst (conceal_list ml bs g)) i =
          Some (mkMvec (mv_items b ++ f) (match mv_items b with [] => true | _ => mv_marked b end)).
Proof.
  induction bs as [|b bs IH]; intros g.
  - exists []. cbn. repeat split; auto. intros [|i] b H; discriminate.
  - set (n := (ml - length (mv_items b))%nat).
    destruct (IH (snd (draws gen n g))) as [fl [L [C [S N]]]].
    exists (fst (draws gen n g) :: fl).
    cbn [conceal_list]. unfold conceal_bucket. fold n. rewrite fill_draws.
    change (missing ml (b :: bs)) with (n + missing ml bs)%nat. rewrite draws_add.
    destruct (conceal_list ml bs (snd (draws gen n g))) as [t1 g2]. cbn [fst snd] in *.
    split; [cbn; lia|]. split; [cbn; congruence|]. split; [exact S|].
    intros [|i] b' Hb; cbn [nth_error] in *.
    + inversion Hb; subst b'. eexists; split; [reflexivity|]. split; [apply draws_length|reflexivity].
    + apply N; exact Hb.
Qed.

Lemma missing_total ml bs :
  Forall (fun b => length (mv_items b) <= ml)%nat bs ->
  (missing ml bs + fold_right Nat.add 0 (map (fun b => length (@mv_items T b)) bs) = length bs * ml)%nat.
Proof.
  induction 1 as [|b bs Hb Hbs IH]; [reflexivity|]. cbn [missing map fold_right length]. unfold missing. cbn [map fold_right].
  change (fold_right Nat.add 0%nat (map (fun b => (ml - length (mv_items b))%nat) bs)) with (missing ml bs). lia.
Qed.

Lemma conceal_list_full ml bs : 
  Forall (fun b => ml <= length (@mv_items T b) /\ (mv_items b = [] -> mv_marked b = true))%nat bs ->
  forall g, conceal_list ml bs g = (bs, g).
Proof.
  induction 1 as [|b bs [Hb Hm] Hbs IH]; intros g; cbn [conceal_list]; [reflexivity|].
  unfold conceal_bucket. replace (ml - length (mv_items b))%nat with 0%nat by lia. cbn [fill].
  rewrite IH. f_equal. f_equal. destruct b as [it m]. cbn in *. destruct it; [rewrite Hm; auto|reflexivity].
Qed.
End Conceal.

(** the statement of C16 *)
Lemma conceal_spec {G} (gen : G -> T * G) (h : hb T) (g : G) :
  hwf h -> Forall (fun b => length (mv_items b) <= hb_maxload h)%nat (hb_buckets h) ->
  exists h' fillers,
    let N := (hb_k h * hb_maxload h - total_items h)%nat in
    conceal gen h g = Ok (h', snd (draws gen N g)) /\
    concat fillers = fst (draws gen N g) /\
    (hb_k h' = hb_k h /\ hb_maxload h' = hb_maxload h /\ hb_algo h' = hb_algo h /\ hb_strint h' = hb_strint h /\ hb_n h' = hb_n h /\
     length (hb_buckets h') = hb_k h) /\
    forall i b, nth_error (hb_buckets h) i = Some b ->
      exists b' f, nth_error (hb_buckets h') i = Some b' /\ nth_error fillers i = Some f /\
        mv_items b' = mv_items b ++ f /\
        length (mv_items b') = hb_maxload h /\
        (mv_marked b' = true <-> mv_items b = [] \/ mv_marked b = true).
Proof.
  intros [WL [WN WA]] F. rewrite (conceal_eq gen h g WL).
  destruct (conceal_list_spec gen (hb_maxload h) (hb_buckets h) g) as [fl [L [C [S N]]]].
  exists (with_buckets h (fst (conceal_list gen (hb_maxload h) (hb_buckets h) g))), fl.
  pose proof (missing_total (hb_maxload h) (hb_buckets h) F) as MT.
  assert (EN : (hb_k h * hb_maxload h - total_items h)%nat = missing (hb_maxload h) (hb_buckets h)).
  { unfold total_items. rewrite <- WL. lia. }
  cbv zeta. rewrite EN. split; [rewrite S; reflexivity|]. split; [exact C|].
  split. { cbn. rewrite conceal_list_length. repeat split; auto. }
  intros i b Hb. destruct (N i b Hb) as [f [Ef [Lf E]]].
  pose proof (proj1 (Forall_forall _ _) F b (nth_error_In _ _ Hb)) as Hle. cbn beta in Hle.
  eexists _, f. split; [exact E|]. split; [exact Ef|]. cbn [mv_items mv_marked].
  split; [reflexivity|]. split; [rewrite app_length; lia|].
  destruct (mv_items b); split; intros H; auto; try (destruct H as [H|H]; [discriminate|exact H]).
Qed.

Lemma conceal_wf {G} (gen : G -> T * G) (h h1 : hb T) (g g1 : G) :
  hwf h -> conceal gen h g = Ok (h1, g1) -> hwf h1.
Proof.
  intros [WL [WN WA]] E. rewrite (conceal_eq gen h g WL) in E. inversion E; subst.
  unfold hwf, with_buckets; cbn. rewrite conceal_list_length. auto.
Qed.

(** *** reachable tables *)
Lemma run_table_wf {G} (gen : G -> T * G) ops : forall h g h1 g1,
  hwf h -> Forall op_algo_valid ops -> run_table gen (h, g) ops = Ok (h1, g1) -> hwf h1.
Proof.
  induction ops as [|o ops IH]; cbn [run_table]; intros h g h1 g1 W V E.
  - inversion E; subst; exact W.
  - inversion V; subst. inv_bind E. destruct a as [h2 g2]. apply IH in E; auto.
    cbn [apply_top] in Hb. destruct o as [e|e i|l dim| |a].
    + inv_bind Hb. inversion Hb; subst. eapply hb_add_wf; eauto.
    + inv_bind Hb. inversion Hb; subst. destruct (addToBucket_spec h e i W) as [A B].
      destruct (Nat.lt_ge_cases i (hb_k h)) as [Hi|Hi].
      * destruct (A Hi) as [b [Eb Ea]]. rewrite Ea in Hb0. inversion Hb0; subst.
        destruct W as [WL WA]. unfold hwf, with_buckets; cbn. rewrite upd_length. auto.
      * rewrite (B Hi) in Hb0. discriminate.
    + inv_bind Hb. inversion Hb; subst. eapply hb_add_list_wf; eauto.
    + eapply conceal_wf; eauto.
    + inv_bind Hb. inversion Hb; subst. destruct a as [al|].
      * destruct (setHashAlgorithm_ok h (Some al) H1) as [s [Ws [Ls Es]]].
        rewrite Es in Hb0. inversion Hb0; subst. destruct W as [WL [WN _]].
        unfold hwf; cbn. repeat split; auto; first [apply H1 | apply Ws].
      * cbn in Hb0. inversion Hb0; subst; exact W.
Qed.

Lemma reachable_wf (h : hb T) : reachable h -> hwf h.
Proof.
  intros [G [gen [k [ml [a0 [h0 [g0 [g [ops [V [E0 [Vo E]]]]]]]]]]]].
  destruct (new_hb_ok k ml a0 V) as [h0' [E0' [W _]]].
  rewrite E0 in E0'. inversion E0'; subst. eapply run_table_wf; eauto.
Qed.

(** *** C13 *)
Lemma add_placement_l (h : hb T) al e :
  reachable h -> hb_algo h = Some al -> (0 < hb_k h)%nat ->
  let i := index_of al (hb_k h) e in
  exists b, nth_error (hb_buckets h) i = Some b /\
  (length (mv_items b) = hb_maxload h -> hb_add h e = Exit 1) /\
  (length (mv_items b) <> hb_maxload h -> exists h',
     hb_add h e = Ok h' /\
     nth_error (hb_buckets h') i = Some (mkMvec (mv_items b ++ [e]) (mv_marked b)) /\
     (forall j, j <> i -> nth_error (hb_buckets h') j = nth_error (hb_buckets h) j) /\
     hb_k h' = hb_k h /\ hb_maxload h' = hb_maxload h /\ hb_algo h' = hb_algo h /\ hb_size h' = hb_size h).
Proof.
  intros R Ha Hk. apply reachable_wf in R. cbv zeta.
  destruct (hb_add_spec h al e R Ha Hk) as [b [s1 [Eb [W1 [L1 E]]]]]. cbv zeta in *.
  exists b. split; [exact Eb|]. rewrite E.
  destruct (Nat.eqb_spec (length (mv_items b)) (hb_maxload h)); split; intros H; try congruence.
  eexists; split; [reflexivity|]. cbn [hb_buckets hb_k hb_maxload hb_algo hb_size hb_n].
  split; [apply upd_nth_same; apply nth_error_Some; congruence|].
  split; [intros j Hj; apply upd_nth_other; exact Hj|]. auto.
Qed.

(** *** C14 *)
Lemma hb_add_list_gen al l : forall (h : hb T) dim i0,
  hwf h -> hb_algo h = Some al -> (0 < hb_k h)%nat ->
  (forall i b, nth_error (hb_buckets h) i = Some b -> (length (mv_items b) <= hb_maxload h)%nat) ->
  forall whole pre, whole = pre ++ l -> length pre = i0 -> dim = length l ->
  let run := for_up dim i0 (fun i h => do e <- aget whole i; hb_add h e) h in
  ((forall i b, nth_error (hb_buckets h) i = Some b ->
      (length (mv_items b) + length (belonging al (hb_k h) i l) <= hb_maxload h)%nat) ->
   exists h', run = Ok h' /\ hwf h' /\ hb_k h' = hb_k h /\ hb_maxload h' = hb_maxload h /\ hb_algo h' = hb_algo h /\
     forall i b, nth_error (hb_buckets h) i = Some b ->
       nth_error (hb_buckets h') i = Some (mkMvec (mv_items b ++ belonging al (hb_k h) i l) (mv_marked b))) /\
  ((exists i b, nth_error (hb_buckets h) i = Some b /\
      (hb_maxload h < length (mv_items b) + length (belonging al (hb_k h) i l))%nat) ->
   run = Exit 1).
Proof.
  induction l as [|e l IH]; intros h dim i0 W Ha Hk Hle whole pre Hw Hp Hd; cbv zeta; subst dim; cbn [length for_up].
  - split.
    + intros _. exists h. repeat split; auto; try apply W.
      intros i b Hb. cbn. rewrite app_nil_r. destruct b; exact Hb.
    + intros [i [b [Hb Hlt]]]. cbn in Hlt. specialize (Hle i b Hb). lia.
  - assert (Eg : aget whole i0 = Ok e).
    { apply aget_ok. subst. rewrite nth_error_app2, Nat.sub_diag by lia. reflexivity. }
    rewrite Eg. cbn [bind].
    destruct (hb_add_spec h al e W Ha Hk) as [b0 [s1 [Eb0 [Ws [Ls E]]]]]. cbv zeta in *.
    set (ix := index_of al (hb_k h) e) in *.
    assert (Bel : forall i, length (belonging al (hb_k h) i (e :: l)) =
        ((if Nat.eqb ix i then 1 else 0) + length (belonging al (hb_k h) i l))%nat).
    { intros i. unfold belonging; cbn [filter]. fold ix. destruct (Nat.eqb ix i); reflexivity. }
    assert (Bel2 : forall i, belonging al (hb_k h) i (e :: l) =
        if Nat.eqb ix i then e :: belonging al (hb_k h) i l else belonging al (hb_k h) i l).
    { intros i. unfold belonging; cbn [filter]. fold ix. destruct (Nat.eqb ix i); reflexivity. }
    clearbody ix.
    destruct (Nat.eqb_spec (length (mv_items b0)) (hb_maxload h)) as [Hf|Hf].
    + split.
      * intros H. specialize (H ix b0 Eb0). rewrite Bel, Nat.eqb_refl in H. lia.
      * intros _. rewrite E. reflexivity.
    + remember (mkHb (hb_n h) (hb_k h) (hb_maxload h)
         (upd (hb_buckets h) ix (mkMvec (mv_items b0 ++ [e]) (mv_marked b0))) (hb_algo h) (Some s1)) as h1 eqn:Eh1.
      rewrite E. cbn [bind].
      destruct (hb_add_wf h e h1 W E) as [W1 [K1 [M1 A1]]].
      assert (Hlx : (ix < length (hb_buckets h))%nat) by (apply nth_error_Some; congruence).
      assert (Nx : forall i, nth_error (hb_buckets h1) i =
         if Nat.eqb i ix then Some (mkMvec (mv_items b0 ++ [e]) (mv_marked b0)) else nth_error (hb_buckets h) i).
      { intros i. subst h1. cbn [hb_buckets]. rewrite upd_nth, Eb0. reflexivity. }
      destruct (IH h1 (length l) (S i0) W1 ltac:(congruence) ltac:(lia)) with (whole := whole) (pre := pre ++ [e])
        as [IHa IHb].
      { intros i b. rewrite Nx. destruct (Nat.eqb_spec i ix) as [->|Hne].
        - intros Hb; inversion Hb; subst b. cbn [mv_items]. rewrite app_length; cbn.
          specialize (Hle ix b0 Eb0). lia.
        - intros Hb. specialize (Hle i b Hb). lia. }
      { subst. rewrite <- app_assoc. reflexivity. }
      { rewrite app_length; cbn; lia. }
      { reflexivity. }
      split.
      * intros H. destruct IHa as [h' [E' [W' [K' [M' [A' N']]]]]].
        { intros i b. rewrite Nx, K1, M1. destruct (Nat.eqb_spec i ix) as [->|Hne].
          - intros Hb; inversion Hb; subst b. cbn [mv_items]. rewrite app_length; cbn.
            specialize (H ix b0 Eb0). rewrite Bel, Nat.eqb_refl in H. lia.
          - intros Hb. specialize (H i b Hb). rewrite Bel in H. lia. }
        exists h'. split; [exact E'|]. split; [exact W'|]. split; [congruence|]. split; [congruence|]. split; [congruence|].
        intros i b Hb. specialize (N' i). rewrite Nx in N'. rewrite K1 in N'.
        rewrite Bel2.
        destruct (Nat.eqb_spec i ix) as [Heq|Hne].
        -- subst i. rewrite Nat.eqb_refl. rewrite Eb0 in Hb; inversion Hb; subst b0.
           rewrite (N' _ eq_refl). cbn [mv_items mv_marked]. rewrite <- app_assoc. reflexivity.
        -- destruct (Nat.eqb_spec ix i); [congruence|]. apply N'; exact Hb.
      * intros [i [b [Hb Hlt]]]. apply IHb. rewrite Bel in Hlt.
        destruct (Nat.eqb_spec ix i) as [<-|Hne].
        -- rewrite Eb0 in Hb; inversion Hb; subst b0.
           exists ix. eexists. rewrite Nx, Nat.eqb_refl. split; [reflexivity|].
           cbn [mv_items]. rewrite app_length, M1, K1; cbn. lia.
        -- exists i, b. rewrite Nx. destruct (Nat.eqb_spec i ix); [congruence|].
           split; [exact Hb|]. rewrite M1, K1. lia.
Qed.

Lemma nth_repeat {A} (a b : A) n i : nth_error (repeat a n) i = Some b -> b = a /\ (i < n)%nat.
Proof.
  revert i; induction n as [|n IH]; intros [|i]; cbn; intros H; try discriminate.
  - inversion H; split; auto; lia.
  - apply IH in H. destruct H; split; auto; lia.
Qed.
Lemma nth_repeat_some {A} (a : A) n i : (i < n)%nat -> nth_error (repeat a n) i = Some a.
Proof. revert i; induction n as [|n IH]; intros [|i] H; cbn; try lia; auto. apply IH; lia. Qed.

Lemma add_history_l (al : halgo T) k ml l :
  algo_valid al -> (0 < k)%nat ->
  exists h0, new_hb k ml (Some al) = Ok h0 /\
  ((forall i, (i < k)%nat -> (length (belonging al k i l) <= ml)%nat) ->
   exists h, hb_add_list h0 l (length l) = Ok h /\
     forall i, (i < k)%nat -> nth_error (hb_buckets h) i = Some (mkMvec (belonging al k i l) false)) /\
  ((exists i, (i < k)%nat /\ (ml < length (belonging al k i l))%nat) ->
   hb_add_list h0 l (length l) = Exit 1).
Proof.
  intros V Hk. destruct (new_hb_ok k ml (Some al) V) as [h0 [E0 [W [K [M [A B]]]]]].
  exists h0. split; [exact E0|]. unfold hb_add_list.
  destruct (hb_add_list_gen al l h0 (length l) 0 W A ltac:(lia)) with (whole := l) (pre := @nil T) as [P1 P2]; auto.
  { intros i b Hb. rewrite B in Hb. apply nth_repeat in Hb. destruct Hb as [-> _]. cbn; lia. }
  cbv zeta in *. split.
  - intros H. destruct P1 as [h [E [_ [K' [M' [_ N]]]]]].
    { intros i b Hb. rewrite B in Hb. apply nth_repeat in Hb. destruct Hb as [-> Hi]. cbn. rewrite K, M. apply H; exact Hi. }
    exists h. split; [exact E|]. intros i Hi.
    rewrite (N i (mkMvec [] false)); [cbn; rewrite K; reflexivity|]. rewrite B. apply nth_repeat_some; exact Hi.
  - intros [i [Hi Hlt]]. apply P2. exists i, (mkMvec [] false). rewrite B. split; [apply nth_repeat_some; exact Hi|].
    cbn. rewrite K, M. exact Hlt.
Qed.

(** *** C15 *)
Lemma addToBucket_l (h : hb T) e i : reachable h ->
  ((i < hb_k h)%nat -> exists b h', nth_error (hb_buckets h) i = Some b /\
     addToBucket h e i = Ok h' /\
     nth_error (hb_buckets h') i = Some (mkMvec (mv_items b ++ [e]) (mv_marked b)) /\
     (forall j, j <> i -> nth_error (hb_buckets h') j = nth_error (hb_buckets h) j) /\
     hb_k h' = hb_k h /\ hb_maxload h' = hb_maxload h /\ hb_algo h' = hb_algo h) /\
  ((hb_k h <= i)%nat -> addToBucket h e i = Exit 1).
Proof.
  intros R. apply reachable_wf in R. destruct (addToBucket_spec h e i R) as [A B]. split; [|exact B].
  intros Hi. destruct (A Hi) as [b [Eb E]]. exists b. eexists. split; [exact Eb|]. split; [exact E|].
  unfold with_buckets; cbn. split; [apply upd_nth_same; apply nth_error_Some; congruence|].
  split; [intros j Hj; apply upd_nth_other; exact Hj|]. auto.
Qed.

Lemma overfull_add_l (h : hb T) al l : reachable h -> hb_algo h = Some al -> (0 < hb_k h)%nat ->
  (forall e, In e l -> exists b, nth_error (hb_buckets h) (index_of al (hb_k h) e) = Some b /\
      (hb_maxload h < length (mv_items b))%nat) ->
  exists h', hb_add_list h l (length l) = Ok h'.
Proof.
  intros R Ha Hk H. apply reachable_wf in R. unfold hb_add_list.
  destruct (for_up_inv (fun n (h1 : hb T) => hwf h1 /\ hb_k h1 = hb_k h /\ hb_maxload h1 = hb_maxload h /\ hb_algo h1 = hb_algo h /\
     forall i b, nth_error (hb_buckets h) i = Some b -> exists b1, nth_error (hb_buckets h1) i = Some b1 /\
        (length (mv_items b) <= length (mv_items b1))%nat)
     (length l) 0 (fun i h => do e <- aget l i; hb_add h e) h) as [h' [E _]].
  - repeat split; try apply R; auto. intros i b Hb; eauto.
  - intros i h1 Hi [W1 [K1 [M1 [A1 N1]]]]. cbn beta.
    destruct (aget_lt l i ltac:(lia)) as [e [Ee Ee']]. rewrite Ee. cbn [bind].
    destruct (hb_add_spec h1 al e W1 ltac:(congruence) ltac:(lia)) as [b [s1 [Eb [Ws [Ls E]]]]]. cbv zeta in *.
    rewrite K1 in Eb.
    destruct (H e (nth_error_In _ _ Ee')) as [b0 [Eb0 Hlt]].
    destruct (N1 _ _ Eb0) as [b1 [Eb1 Hle]]. rewrite Eb in Eb1. inversion Eb1; subst b1.
    destruct (Nat.eqb_spec (length (mv_items b)) (hb_maxload h1)); [lia|].
    eexists; split; [exact E|].
    destruct (hb_add_wf h1 e _ W1 E) as [W2 [K2 [M2 A2]]].
    split; [exact W2|]. cbn [hb_k hb_maxload hb_algo hb_buckets] in *.
    split; [congruence|]. split; [congruence|]. split; [congruence|].
    intros j bj Hj. destruct (N1 j bj Hj) as [bj1 [Ej1 Hlej]].
    rewrite K1, upd_nth. destruct (Nat.eqb_spec j (index_of al (hb_k h) e)) as [->|Hne].
    + rewrite Eb. rewrite Eb in Ej1; inversion Ej1; subst bj1. eexists; split; [reflexivity|].
      cbn [mv_items]. rewrite app_length; lia.
    + eauto.
  - eauto.
Qed.

(** *** C17 *)
Lemma conceal_sealed_l {G} (gen : G -> T * G) (h h1 : hb T) (g g1 : G) :
  reachable h -> Forall (fun b => length (mv_items b) <= hb_maxload h)%nat (hb_buckets h) ->
  conceal gen h g = Ok (h1, g1) ->
  (forall g2, conceal gen h1 g2 = Ok (h1, g2)) /\
  (forall al e, hb_algo h = Some al -> (0 < hb_k h)%nat -> hb_add h1 e = Exit 1).
Proof.
  intros R F E. apply reachable_wf in R.
  destruct (conceal_spec gen h g R F) as [h1' [fl [E1 [_ [[K [M [A [S [N L]]]]] B]]]]]. cbv zeta in *.
  rewrite E1 in E. inversion E; subst h1' g1; clear E.
  pose proof (conceal_wf gen h h1 g _ R E1) as W1.
  assert (B' : forall i b', nth_error (hb_buckets h1) i = Some b' ->
     length (mv_items b') = hb_maxload h /\ (mv_items b' = [] -> mv_marked b' = true)).
  { intros i b' Hb'. assert (Hi : (i < length (hb_buckets h))%nat).
    { destruct R as [WL _]. rewrite WL, <- L. apply nth_error_Some; congruence. }
    destruct (nth_error (hb_buckets h) i) as [b|] eqn:Eb; [|apply nth_error_None in Eb; lia].
    destruct (B i b Eb) as [b'' [f [Eb'' [_ [I [Ln Mk]]]]]]. rewrite Hb' in Eb''; inversion Eb''; subst b''.
    split; [exact Ln|]. intros Hnil. apply Mk. left. rewrite I in Hnil. apply app_eq_nil in Hnil. tauto. }
  split.
  - intros g2. rewrite (conceal_eq gen h1 g2) by apply W1.
    rewrite conceal_list_full.
    + cbn. destruct h1; reflexivity.
    + apply Forall_forall. intros b Hb. apply In_nth_error in Hb. destruct Hb as [i Hi].
      apply B' in Hi. destruct Hi; split; auto; lia.
  - intros al e Ha Hk. destruct (hb_add_spec h1 al e W1 ltac:(congruence) ltac:(lia)) as [b [s1 [Eb [_ [_ E]]]]].
    cbv zeta in *. rewrite E. apply B' in Eb. destruct (Nat.eqb_spec (length (mv_items b)) (hb_maxload h1)); [reflexivity|lia].
Qed.

(** *** C18 *)
Lemma size_zero_l (h : hb T) : reachable h -> hb_size h = 0.
Proof. intros R. apply reachable_wf in R. apply R. Qed.

(** *** C19 *)
Lemma common_bucket_l (al : halgo T) k ml1 ml2 l1 l2 h01 h02 h1 h2 :
  algo_valid al -> (0 < k)%nat ->
  new_hb k ml1 (Some al) = Ok h01 -> hb_add_list h01 l1 (length l1) = Ok h1 ->
  new_hb k ml2 (Some al) = Ok h02 -> hb_add_list h02 l2 (length l2) = Ok h2 ->
  forall e, (In e l1 /\ In e l2) <->
    exists i b1 b2, nth_error (hb_buckets h1) i = Some b1 /\ nth_error (hb_buckets h2) i = Some b2 /\
      In e (mv_items b1) /\ In e (mv_items b2).
Proof.
  intros V Hk N1 A1 N2 A2 e.
  assert (G : forall ml l h0 h, new_hb k ml (Some al) = Ok h0 -> hb_add_list h0 l (length l) = Ok h ->
     (forall i, (i < k)%nat -> nth_error (hb_buckets h) i = Some (mkMvec (belonging al k i l) false)) /\ length (hb_buckets h) = k).
  { intros ml l h0 h N A. destruct (add_history_l al k ml l V Hk) as [h0' [E0 [P1 P2]]].
    rewrite N in E0; inversion E0; subst h0'.
    destruct (new_hb_ok k ml (Some al) V) as [h0' [E0' [W [K _]]]]. rewrite N in E0'; inversion E0'; subst h0'.
    split.
    - assert (forall i, (i < k)%nat -> (length (belonging al k i l) <= ml)%nat).
      { intros i Hi. destruct (Nat.le_gt_cases (length (belonging al k i l)) ml); auto.
        rewrite P2 in A by eauto. discriminate. }
      destruct (P1 H) as [h' [E' N']]. rewrite A in E'; inversion E'; subst; exact N'.
    - destruct (hb_add_list_wf l (length l) 0 h0 h W A) as [[L _] [K' _]]. congruence. }
  destruct (G _ _ _ _ N1 A1) as [B1 L1]. destruct (G _ _ _ _ N2 A2) as [B2 L2].
  split.
  - intros [I1 I2]. exists (index_of al k e). do 2 eexists.
    split; [apply B1, index_lt; exact Hk|]. split; [apply B2, index_lt; exact Hk|].
    cbn. unfold belonging. rewrite !filter_In, Nat.eqb_refl. auto.
  - intros [i [b1 [b2 [E1 [E2 [I1 I2]]]]]].
    assert (Hi : (i < k)%nat) by (rewrite <- L1; apply nth_error_Some; congruence).
    rewrite (B1 i Hi) in E1. rewrite (B2 i Hi) in E2. inversion E1; subst. inversion E2; subst. cbn in *.
    unfold belonging in *. rewrite filter_In in I1, I2. tauto.
Qed.

(** *** C20 *)
Lemma getBucket_l (h : hb T) i : reachable h ->
  ((i < hb_k h)%nat -> exists b, nth_error (hb_buckets h) i = Some b /\ getBucket h i = Ok b) /\
  ((hb_k h <= i)%nat -> getBucket h i = Exit 1).
Proof.
  intros R. apply reachable_wf in R. destruct R as [WL _]. unfold getBucket.
  destruct (Nat.ltb_spec i (hb_k h)); split; intros H'; try lia; [|reflexivity].
  destruct (aget_lt (hb_buckets h) i ltac:(lia)) as [b [E1 E2]]. eauto.
Qed.

(** *** printStats *)
Lemma print_stats_l (h : hb T) : reachable h -> (0 < hb_k h)%nat ->
  exists s, print_stats h = Ok s /\ st_total s = total_items h /\
    (exists b, nth_error (hb_buckets h) (st_minb s) = Some b /\ length (mv_items b) = st_min s) /\
    (exists b, nth_error (hb_buckets h) (st_maxb s) = Some b /\ length (mv_items b) = st_max s) /\
    (forall i b, nth_error (hb_buckets h) i = Some b -> st_min s <= length (mv_items b) <= st_max s /\
        (length (mv_items b) = st_min s -> st_minb s <= i) /\ (length (mv_items b) = st_max s -> st_maxb s <= i))%nat.
Proof.
  intros R Hk. apply reachable_wf in R. destruct R as [WL _]. unfold print_stats, total_items.
  destruct (hb_buckets h) as [|b0 bs] eqn:Eb; [cbn in WL; lia|]. cbn [aget nth_error bind].
  change (aget (b0 :: bs) 0) with (Ok b0). cbn [bind].
  rewrite <- Eb in *. set (n0 := length (mv_items b0)).
  destruct (for_up_inv (fun i s =>
     st_total s = fold_right Nat.add 0%nat (map (fun b => length (mv_items b)) (firstn i (hb_buckets h))) /\
     (exists b, nth_error (hb_buckets h) (st_minb s) = Some b /\ length (mv_items b) = st_min s) /\
     (exists b, nth_error (hb_buckets h) (st_maxb s) = Some b /\ length (mv_items b) = st_max s) /\
     (st_minb s < i /\ st_maxb s < i)%nat /\
     (forall j b, (j < i)%nat -> nth_error (hb_buckets h) j = Some b -> st_min s <= length (mv_items b) <= st_max s /\
        (length (mv_items b) = st_min s -> st_minb s <= j) /\ (length (mv_items b) = st_max s -> st_maxb s <= j))%nat)
     (hb_k h - 1) 1 (stats_step (hb_buckets h)) (mkStats n0 n0 0 n0 0)) as [s [E [I1 [I2 [I3 [_ I4]]]]]].
  - cbn [st_total st_min st_minb st_max st_maxb]. rewrite Eb. cbn [firstn map fold_right nth_error]. subst n0.
    split; [lia|]. split; [eauto|]. split; [eauto|]. split; [lia|]. intros [|j] b Hj; cbn; [|lia].
    intros E; inversion E; subst; lia.
  - intros i s Hi [I1 [I2 [I3 [[I5 I6] I4]]]]. unfold stats_step.
    destruct (aget_lt (hb_buckets h) i ltac:(lia)) as [b [E1 E2]]. rewrite E1. cbn [bind].
    set (n := length (mv_items b)).
    assert (F : firstn (S i) (hb_buckets h) = firstn i (hb_buckets h) ++ [b]).
    { clear - E2. revert i E2. induction (hb_buckets h) as [|x l IH]; intros [|i] E2; cbn in *; try discriminate.
      - inversion E2; reflexivity.
      - rewrite <- IH by exact E2. reflexivity. }
    assert (FS : forall l : list (mvec T), fold_right Nat.add 0%nat (map (fun b => length (mv_items b)) (l ++ [b])) =
       (fold_right Nat.add 0%nat (map (fun b => length (mv_items b)) l) + n)%nat).
    { induction l as [|x l IHl]; cbn; [subst n; lia|]. rewrite IHl. lia. }
    destruct (Nat.ltb_spec n (st_min s)); destruct (Nat.ltb_spec (st_max s) n);
      (eexists; split; [reflexivity|]); cbn [st_total st_min st_minb st_max st_maxb]; rewrite F, FS, I1;
      (split; [reflexivity|]); (split; [eauto|]); (split; [eauto|]); (split; [lia|]);
      intros j bj Hj Ej; (destruct (Nat.eq_dec j i) as [->|Hne];
        [rewrite E2 in Ej; inversion Ej; subst bj; fold n; lia | specialize (I4 j bj ltac:(lia) Ej); lia]).
  - exists s. split; [exact E|]. split.
    { rewrite I1. f_equal. f_equal. apply firstn_all2. lia. }
    split; [exact I2|]. split; [exact I3|]. intros i b Hb. apply I4; [|exact Hb].
    assert (i < length (hb_buckets h))%nat by (apply nth_error_Some; congruence). lia.
Qed.

Lemma print_stats_empty_l (h : hb T) : reachable h -> hb_k h = 0%nat -> print_stats h = UB OutOfBounds.
Proof.
  intros R Hk. apply reachable_wf in R. destruct R as [WL _]. unfold print_stats.
  destruct (hb_buckets h); [reflexivity|cbn in WL; lia].
Qed.
End P.
