From Verif Require Import Base Lib StorageModel StorageSpec.
From Coq Require Import Lia Permutation.

Definition is_live (b : block) : bool := match b with Live _ => true | Gone => false end.
Definition live (h : list block) : list nat :=
  filter (fun a => match nth_error h a with Some b => is_live b | None => false end) (seq 0 (length h)).

Lemma live_in h a : In a (live h) <-> exists c, nth_error h a = Some (Live c).
Proof.
  unfold live. rewrite filter_In, in_seq. split.
  - intros [_ H]. destruct (nth_error h a) as [[c|]|]; try discriminate. exists c. reflexivity.
  - intros [c H]. rewrite H. split; [|reflexivity]. assert (a < length h)%nat by (apply nth_error_Some; congruence). lia.
Qed.
Lemma live_nodup h : NoDup (live h).
Proof. apply NoDup_filter, seq_NoDup. Qed.
Lemma live_count h : length (live h) = length (filter is_live h).
Proof.
  unfold live. enough (G : forall pre, length (filter (fun a => match nth_error (pre ++ h) a with Some b => is_live b | None => false end) (seq (length pre) (length h))) = length (filter is_live h)) by (apply (G [])).
  induction h as [|b t IH]; intros pre; [reflexivity|]. cbn [length seq filter].
  assert (E : nth_error (pre ++ b :: t) (length pre) = Some b). { rewrite nth_error_app2 by lia. rewrite Nat.sub_diag. reflexivity. }
  rewrite E. specialize (IH (pre ++ [b])). rewrite app_length in IH. cbn [length] in IH. rewrite Nat.add_1_r in IH. rewrite <- app_assoc in IH. cbn [app] in IH.
  destruct (is_live b); cbn [length]; rewrite IH; reflexivity.
Qed.
Lemma live_ext h h' : (forall a, (exists c, nth_error h a = Some (Live c)) <-> (exists c, nth_error h' a = Some (Live c))) -> Permutation (live h) (live h').
Proof. intros H. apply NoDup_Permutation; try apply live_nodup. intros a. rewrite !live_in. apply H. Qed.

Lemma free_perm h a R : Permutation (live h) (a :: R) -> exists h', free h a = Ok h' /\ Permutation (live h') R.
Proof.
  intros P. assert (HA : In a (live h)) by (eapply Permutation_in; [symmetry; exact P|left; reflexivity]).
  apply live_in in HA. destruct HA as [c HA]. unfold free. rewrite HA. eexists. split; [reflexivity|].
  assert (LT : (a < length h)%nat) by (apply nth_error_Some; congruence).
  assert (ND : NoDup (a :: R)) by (eapply Permutation_NoDup; [exact P|apply live_nodup]).
  inversion ND as [|x y NI ND' E]; subst. apply NoDup_Permutation; [apply live_nodup|exact ND'|]. intros b. rewrite live_in. split.
  - intros [d HB]. rewrite upd_nth in HB. destruct (Nat.eqb_spec b a) as [->|NE].
    { destruct (nth_error h a); discriminate. }
    assert (IB : In b (live h)) by (apply live_in; exists d; exact HB). pose proof (Permutation_in _ P IB) as [E|I]; [congruence|exact I].
  - intros I. assert (NE : b <> a) by (intros ->; contradiction).
    assert (IB : In b (live h)) by (eapply Permutation_in; [symmetry; exact P|right; exact I]). apply live_in in IB. destruct IB as [d HB]. exists d.
    rewrite upd_nth_other by exact NE. exact HB.
Qed.
Lemma free_opt_perm h a R : Permutation (live h) ((match a with Some x => [x] | None => [] end) ++ R) -> exists h', free_opt h a = Ok h' /\ Permutation (live h') R.
Proof. destruct a as [a|]; cbn [app free_opt]; intros P; [apply free_perm, P|]. exists h. split; [reflexivity|exact P]. Qed.
Lemma alloc_perm h n R h' a : alloc h n = (h', a) -> Permutation (live h) R -> Permutation (live h') (a :: R).
Proof.
  unfold alloc. intros E P. injection E as <- <-. rewrite <- P. clear R P.
  assert (E : live (h ++ [Live (repeat [] n)]) = live h ++ [length h]).
  { unfold live. rewrite app_length. cbn [length]. rewrite Nat.add_1_r, seq_S, filter_app. cbn [filter]. rewrite nth_error_app2 by lia. rewrite Nat.add_0_l, Nat.sub_diag. cbn. f_equal.
    apply filter_ext_in. intros b HB. apply in_seq in HB. rewrite nth_error_app1 by lia. reflexivity. }
  rewrite E. symmetry. apply Permutation_cons_append.
Qed.

Definition fine {A} (r : res A) (Q : A -> Prop) : Prop :=
  match r with Ok x => Q x | UB Dangling | UB BadCast => False | _ => True end.
Lemma fine_bind {A B} (r : res A) (f : A -> res B) Q : fine r (fun x => fine (f x) Q) -> fine (bind r f) Q.
Proof. destruct r as [x| |w| |]; cbn; trivial. Qed.
Lemma fine_weaken {A} (r : res A) (Q Q' : A -> Prop) : fine r Q -> (forall x, Q x -> Q' x) -> fine r Q'.
Proof. destruct r as [x| |w| |]; cbn; auto. Qed.
Lemma fine_use h a n : In a (live h) -> fine (use h a n) (fun _ => True).
Proof. intros H. apply live_in in H. destruct H as [c H]. unfold use, cells_at. rewrite H. cbn. destruct (Nat.leb n (length c)); exact I. Qed.
Lemma fine_use_opt h a n : (forall x, a = Some x -> In x (live h)) -> fine (use_opt h a n) (fun _ => True).
Proof. intros H. unfold use_opt. destruct a as [a|]; destruct (Nat.eqb n 0); try exact I. apply fine_use, H, eq_refl. Qed.

Definition opt (a : option nat) : list nat := match a with Some x => [x] | None => [] end.
Definition owned (o : obj) : list nat :=
  match o with
  | OStr b p => [b; p]
  | OTable t st _ => t :: match st with Some (s, b, p) => [b; p; s] | None => [] end
  | OPoly ps fs _ => opt ps ++ opt fs
  | ODead => []
  end.
Lemma holds_owned o a : holds o a <-> In a (owned o).
Proof.
  destruct o as [b p|t st ml|ps fs n|]; cbn [holds owned In].
  - intuition congruence.
  - destruct st as [[[s b] p]|]; cbn [In]; split.
    + intros [->|[s' [b' [p' [E H]]]]]; [left; reflexivity|]. injection E as <- <- <-. intuition congruence.
    + intros [->|[->|[->|[->|[]]]]]; [left; reflexivity| | |]; right; do 3 eexists; (split; [reflexivity|tauto]).
    + intros [->|[s' [b' [p' [E H]]]]]; [left; reflexivity|discriminate].
    + intros [->|[]]. left. reflexivity.
  - rewrite in_app_iff. destruct ps, fs; cbn; intuition congruence.
  - tauto.
Qed.

Lemma owned_split objs i o : nth_error objs i = Some o ->
  exists rest, Permutation (flat_map owned objs) (owned o ++ rest) /\ forall o', Permutation (flat_map owned (upd objs i o')) (owned o' ++ rest).
Proof.
  revert i. induction objs as [|x t IH]; intros [|i] H; try discriminate.
  - injection H as ->. exists (flat_map owned t). split; [reflexivity|]. intros o'. reflexivity.
  - destruct (IH i H) as [rest [P1 P2]]. exists (owned x ++ rest). cbn [flat_map upd]. split; [|intros o'].
    + rewrite P1. rewrite !app_assoc. apply Permutation_app_tail, Permutation_app_comm.
    + rewrite P2. rewrite !app_assoc. apply Permutation_app_tail, Permutation_app_comm.
Qed.

Lemma new_str_perm h n R h' b p : new_str h n = (h', (b, p)) -> Permutation (live h) R -> Permutation (live h') (b :: p :: R).
Proof.
  unfold new_str. intros E P. set (m := match n with O => 1%nat | _ => n end) in E.
  destruct (alloc h m) as [h1 x] eqn:E1. destruct (alloc h1 m) as [h2 y] eqn:E2. injection E as <- <- <-.
  pose proof (alloc_perm _ _ _ _ _ E2 (alloc_perm _ _ _ _ _ E1 P)) as Q. rewrite Q. apply perm_swap.
Qed.
Lemma set_algo_perm h st algo R h' st' : set_algo h st algo = (h', st') -> Permutation (live h) R ->
  Permutation (live h') (match algo with Some _ => match st' with Some (s, b, p) => [b; p; s] | None => [] end | None => [] end ++ R) /\
  (algo = None -> st' = st) /\ (algo <> None -> st' <> None).
Proof.
  unfold set_algo. destruct algo as [n|]; intros E P.
  - destruct (alloc h 1) as [h1 s] eqn:E1. destruct (new_str h1 n) as [h2 [b p]] eqn:E2. injection E as <- <-.
    split; [|split; congruence]. pose proof (new_str_perm _ _ _ _ _ _ E2 (alloc_perm _ _ _ _ _ E1 P)) as Q. exact Q.
  - injection E as <- <-. split; [exact P|]. split; congruence.
Qed.

Ltac inlive := match goal with P : Permutation (live ?h) ?R |- In ?a (live ?h) => apply (Permutation_in _ (Permutation_sym P)); cbn [opt app In]; rewrite ?in_app_iff; cbn [In]; tauto end.

Lemma destroy_str_fine h b p R : Permutation (live h) (b :: p :: R) -> fine (destroy_str h b p) (fun h' => Permutation (live h') R).
Proof.
  intros P. destruct (free_perm _ _ _ P) as [h1 [E1 P1]]. destruct (free_perm _ _ _ P1) as [h2 [E2 P2]]. unfold destroy_str. rewrite E1. cbn [bind]. rewrite E2. exact P2.
Qed.
Lemma destroy_table_ok h t st ml R : Permutation (live h) (owned (OTable t st ml) ++ R) -> exists h', destroy_table h t st = Ok h' /\ Permutation (live h') R.
Proof.
  intros P. destruct st as [[[s b] p]|]; cbn [owned app] in P; destruct (free_perm _ _ _ P) as [h1 [E1 P1]]; unfold destroy_table; rewrite E1; cbn [bind]; [|exists h1; split; [reflexivity|exact P1]].
  assert (IS : In s (live h1)) by inlive. apply live_in in IS. destruct IS as [c IS]. unfold cells_at. rewrite IS. cbn [bind].
  destruct (free_perm _ _ _ P1) as [h2 [E2 P2]]. destruct (free_perm _ _ _ P2) as [h3 [E3 P3]]. destruct (free_perm _ _ _ P3) as [h4 [E4 P4]]. unfold destroy_str. rewrite E2. cbn [bind]. rewrite E3. cbn [bind].
  exists h4. split; assumption.
Qed.
Lemma destroy_table_fine h t st ml R : Permutation (live h) (owned (OTable t st ml) ++ R) -> fine (destroy_table h t st) (fun h' => Permutation (live h') R).
Proof. intros P. destruct (destroy_table_ok _ _ _ _ _ P) as [h' [E Q]]. rewrite E. exact Q. Qed.
Lemma destroy_poly_fine h ps fs n R : Permutation (live h) (owned (OPoly ps fs n) ++ R) -> fine (destroy_poly h ps fs) (fun h' => Permutation (live h') R).
Proof.
  intros P. cbn [owned] in P. rewrite <- app_assoc in P. destruct (free_opt_perm h ps _ P) as [h1 [E1 P1]]. destruct (free_opt_perm h1 fs _ P1) as [h2 [E2 P2]].
  unfold destroy_poly. rewrite E1. cbn [bind]. rewrite E2. exact P2.
Qed.
Lemma table_add_fine h t st ml e hv R : Permutation (live h) (owned (OTable t st ml) ++ R) ->
  fine (table_add h t st ml e hv) (fun h' => Permutation (live h') (owned (OTable t st ml) ++ R)).
Proof.
  intros P. unfold table_add. assert (IT : In t (live h)) by (apply (Permutation_in _ (Permutation_sym P)); left; reflexivity).
  apply live_in in IT. destruct IT as [c HT]. assert (EC : cells_at h t = Ok c) by (unfold cells_at; rewrite HT; reflexivity).
  apply fine_bind. eapply fine_weaken with (Q := fun _ => True).
  { destruct st as [[[s b] p]|]; [|exact I]. cbn [owned app] in P.
    apply fine_bind. eapply fine_weaken; [apply fine_use; inlive|]. intros _ _. apply fine_bind. eapply fine_weaken; [apply fine_use; inlive|]. intros _ _.
    apply fine_bind. eapply fine_weaken; [apply fine_use; inlive|]. intros _ _. rewrite EC. cbn [bind]. destruct (Nat.eqb (length c) 0); exact I. }
  intros index _. rewrite EC. cbn [bind]. apply fine_bind. unfold aget. destruct (nth_error c index) as [items|]; [|exact I]. cbn [fine].
  destruct (match st with None => false | Some _ => _ end); [exact I|]. cbn [fine]. rewrite <- P. apply live_ext. intros a. rewrite upd_nth.
  destruct (Nat.eqb_spec a t) as [->|NE]; [|reflexivity]. rewrite HT. split; eauto.
Qed.
Lemma interp_fine h ps fs n0 n R : Permutation (live h) (owned (OPoly ps fs n0) ++ R) ->
  fine (interp h ps fs n0 n) (fun r => Permutation (live (fst r)) (owned (snd r) ++ R) /\ exists ps' n', snd r = OPoly ps' fs n').
Proof.
  intros P. cbn [owned] in P. rewrite <- app_assoc in P. unfold interp. destruct (Nat.eqb n0 n) eqn:E.
  - cbn [bind]. apply fine_bind. eapply fine_weaken; [apply fine_use_opt; intros x ->; inlive|]. intros _ _. cbn [fine fst snd owned]. rewrite <- app_assoc. split; [exact P|eauto].
  - destruct (free_opt_perm h ps _ P) as [h1 [E1 P1]]. rewrite E1. cbn [bind]. destruct (alloc h1 n) as [h2 a] eqn:E2. pose proof (alloc_perm _ _ _ _ _ E2 P1) as P2.
    cbn [bind]. apply fine_bind. eapply fine_weaken; [apply fine_use_opt; intros x Hx; injection Hx as <-; inlive|]. intros _ _. cbn [fine fst snd owned opt app]. split; [exact P2|eauto].
Qed.
Lemma factorise_fine h ps fs n R : Permutation (live h) (owned (OPoly ps fs n) ++ R) ->
  fine (factorise h ps fs n) (fun r => Permutation (live (fst r)) (owned (snd r) ++ R) /\ exists fs', snd r = OPoly ps fs' n).
Proof.
  intros P. unfold factorise. destruct ps as [a|]; [|cbn [fine fst snd]; split; [exact P|eauto]].
  cbn [owned opt app] in P. assert (P' : Permutation (live h) (opt fs ++ a :: R)) by (rewrite P; apply Permutation_middle).
  destruct (free_opt_perm h fs _ P') as [h1 [E1 P1]]. rewrite E1. cbn [bind]. destruct (alloc h1 n) as [h2 c] eqn:E2. pose proof (alloc_perm _ _ _ _ _ E2 P1) as P2.
  apply fine_bind. eapply fine_weaken; [apply fine_use_opt; intros x Hx; injection Hx as <-; inlive|]. intros _ _. cbn [fine fst snd owned opt app]. split; [|eauto]. rewrite P2. apply perm_swap.
Qed.
Lemma find_all_fine h ps fs n0 n R : Permutation (live h) (owned (OPoly ps fs n0) ++ R) ->
  fine (find_all h ps fs n0 n) (fun r => Permutation (live (fst r)) (owned (snd r) ++ R) /\ exists ps' fs' n', snd r = OPoly ps' fs' n').
Proof.
  intros P. cbn [owned] in P. rewrite <- app_assoc in P. unfold find_all. destruct (Nat.eqb n0 n) eqn:E.
  - cbn [bind]. apply fine_bind. eapply fine_weaken; [apply fine_use_opt; intros x ->; inlive|]. intros _ _.
    apply fine_bind. eapply fine_weaken; [apply fine_use_opt; intros x ->; inlive|]. intros _ _. cbn [fine fst snd owned]. rewrite <- app_assoc. split; [exact P|eauto].
  - destruct (free_opt_perm h ps _ P) as [h1 [E1 P1]]. rewrite E1. cbn [bind]. destruct (free_opt_perm h1 fs _ P1) as [h2 [E2 P2]]. rewrite E2. cbn [bind].
    destruct (alloc h2 n) as [h3 a] eqn:E3. pose proof (alloc_perm _ _ _ _ _ E3 P2) as P3. destruct (alloc h3 n) as [h4 c] eqn:E4. pose proof (alloc_perm _ _ _ _ _ E4 P3) as P4.
    cbn [bind]. apply fine_bind. eapply fine_weaken; [apply fine_use_opt; intros x Hx; injection Hx as <-; inlive|]. intros _ _.
    apply fine_bind. eapply fine_weaken; [apply fine_use_opt; intros x Hx; injection Hx as <-; inlive|]. intros _ _. cbn [fine fst snd owned opt app]. split; [|eauto]. rewrite P4. apply perm_swap.
Qed.

Definition kind (o : obj) (c : option class) : Prop :=
  match o, c with
  | OStr _ _, Some KStr => True
  | OTable _ st _, Some (KTable a) => a = match st with Some _ => true | None => false end
  | OPoly _ _ _, Some KPoly => True
  | ODead, None => True
  | _, _ => False
  end.
Record inv (s : store) (k : known) (leaked : list nat) : Prop := mkInv {
  i_perm : Permutation (live (s_heap s)) (leaked ++ flat_map owned (s_objs s));
  i_kind : Forall2 kind (s_objs s) k
}.
Lemma Forall2_len {A B} (R : A -> B -> Prop) l l' : Forall2 R l l' -> length l = length l'.
Proof. induction 1; cbn; congruence. Qed.
Lemma Forall2_nth {A B} (R : A -> B -> Prop) l l' i : Forall2 R l l' -> forall b, nth_error l' i = Some b -> exists a, nth_error l i = Some a /\ R a b.
Proof.
  intros F. revert i. induction F as [|a b l l' HR F IH]; intros [|i] x H; try discriminate.
  - injection H as ->. exists a. split; [reflexivity|exact HR].
  - apply IH, H.
Qed.
Lemma Forall2_upd {A B} (R : A -> B -> Prop) l l' i a b : Forall2 R l l' -> R a b -> Forall2 R (upd l i a) (upd l' i b).
Proof. intros F HR. revert i. induction F as [|x y l l' H F IH]; intros [|i]; cbn [upd]; constructor; auto. Qed.
Lemma Forall2_upd_l {A B} (R : A -> B -> Prop) l l' i a b : Forall2 R l l' -> nth_error l' i = Some b -> R a b -> Forall2 R (upd l i a) l'.
Proof.
  intros F. revert i. induction F as [|x y l l' H F IH]; intros [|i] E HR; try discriminate; cbn [upd]; constructor; auto.
  injection E as ->. exact HR.
Qed.

Lemma class_inv s k leaked i test : inv s k leaked -> is_class k i test = true ->
  exists o c, the_obj s i = Ok o /\ nth_error (s_objs s) i = Some o /\ nth_error k i = Some (Some c) /\ kind o (Some c) /\ test c = true.
Proof.
  intros I H. unfold is_class in H. destruct (nth_error k i) as [[c|]|] eqn:E; try discriminate.
  destruct (Forall2_nth _ _ _ i (i_kind _ _ _ I) _ E) as [o [EO HK]]. exists o, c. unfold the_obj. rewrite EO.
  destruct o; try (repeat split; auto; fail). destruct HK.
Qed.

(** one object changes *)
Lemma inv_put s k leaked i o : inv s k leaked -> nth_error (s_objs s) i = Some o ->
  exists R, Permutation (live (s_heap s)) (owned o ++ R) /\
    forall h' o' extra k', Permutation (live h') (owned o' ++ extra ++ R) -> Forall2 kind (upd (s_objs s) i o') k' -> inv (put s h' i o') k' (extra ++ leaked).
Proof.
  intros [P F] EO. destruct (owned_split _ _ _ EO) as [rest [P1 P2]]. exists (leaked ++ rest). split.
  - rewrite P, P1. rewrite !app_assoc. apply Permutation_app_tail, Permutation_app_comm.
  - intros h' o' extra k' Q F'. constructor; [|exact F']. cbn [put s_heap s_objs]. rewrite Q, P2. rewrite !app_assoc. apply Permutation_app_tail.
    rewrite <- app_assoc. apply Permutation_app_comm.
Qed.

Lemma step_inv s k leaked c k1 : inv s k leaked -> after k c = Some k1 ->
  fine (exec s c) (fun s1 => exists more, inv s1 k1 (more ++ leaked) /\ length more = (3 * replaces k c)%nat).
Proof.
  intros V HA. destruct c as [bytes|len ml algo| |i|i algo|i e hv|i n|i|i|i n|i|i j|i]; cbn [after] in HA; cbn [exec replaces].
  - injection HA as <-. destruct (new_str (s_heap s) bytes) as [h1 [b p]] eqn:E. cbn [fine]. exists []. split; [|reflexivity].
    destruct V as [P F]. constructor; cbn [add_obj s_heap s_objs app].
    + rewrite (new_str_perm _ _ _ _ _ _ E P). rewrite flat_map_app. cbn [flat_map owned app]. rewrite app_assoc. symmetry. apply (Permutation_app_comm _ [b; p]).
    + apply Forall2_app; [exact F|]. constructor; [exact I|constructor].
  - injection HA as <-. destruct (set_algo (s_heap s) None algo) as [h1 st] eqn:E1. destruct (alloc h1 len) as [h2 a] eqn:E2. cbn [fine]. exists []. split; [|reflexivity].
    destruct V as [P F]. destruct (set_algo_perm _ _ _ _ _ _ E1 P) as [P1 [N1 N2]]. pose proof (alloc_perm _ _ _ _ _ E2 P1) as P2.
    constructor; cbn [add_obj s_heap s_objs app].
    + rewrite P2, flat_map_app. cbn [flat_map owned]. rewrite app_nil_r, (app_assoc leaked). etransitivity; [|apply Permutation_app_comm]. cbn [app]. apply perm_skip.
      apply Permutation_app_tail. destruct algo; [reflexivity|]. rewrite (N1 eq_refl). reflexivity.
    + apply Forall2_app; [exact F|]. constructor; [|constructor]. cbn [kind]. destruct algo; [destruct st; [reflexivity|exfalso; apply N2; congruence]|rewrite (N1 eq_refl); reflexivity].
  - injection HA as <-. cbn [fine]. exists []. split; [|reflexivity]. destruct V as [P F]. constructor; cbn [add_obj s_heap s_objs app].
    + rewrite flat_map_app. cbn [flat_map owned opt app]. rewrite app_nil_r. exact P.
    + apply Forall2_app; [exact F|]. constructor; [exact I|constructor].
  - destruct (is_class k i is_str) eqn:EC; [|discriminate]. injection HA as <-. destruct (class_inv _ _ _ _ _ V EC) as [o [c [EO [EN [EK [HK HT]]]]]]. rewrite EO. cbn [bind].
    destruct c; try discriminate. destruct o as [b p| | |]; cbn [kind] in HK; try contradiction. destruct (inv_put _ _ _ _ _ V EN) as [R [P _]]. cbn [owned app] in P.
    apply fine_bind. eapply fine_weaken; [apply fine_use; inlive|]. intros _ _. apply fine_bind. eapply fine_weaken; [apply fine_use; inlive|]. intros _ _. cbn [fine]. exists []. split; [exact V|reflexivity].
  - destruct (is_class k i is_table) eqn:EC; [|discriminate]. injection HA as <-. destruct (class_inv _ _ _ _ _ V EC) as [o [c [EO [EN [EK [HK HT]]]]]]. rewrite EO. cbn [bind].
    destruct c as [|al|]; try discriminate. destruct o as [|t st ml| |]; cbn [kind] in HK; try contradiction. destruct (inv_put _ _ _ _ _ V EN) as [R [P W]].
    destruct (set_algo (s_heap s) st algo) as [h1 st1] eqn:E1. cbn [fine]. destruct (set_algo_perm _ _ _ _ _ _ E1 P) as [P1 [N1 N2]]. destruct algo as [size|].
    + destruct st1 as [[[s1 b1] p1]|]; [|exfalso; apply N2; congruence]. exists (match st with Some (s0, b0, p0) => [b0; p0; s0] | None => [] end). split.
      * apply W; [|apply Forall2_upd; [apply (i_kind _ _ _ V)|reflexivity]]. rewrite P1. cbn [owned app].
        change (b1 :: p1 :: s1 :: t :: (match st with Some (s0, b0, p0) => [b0; p0; s0] | None => [] end) ++ R) with ([b1; p1; s1] ++ t :: (match st with Some (s0, b0, p0) => [b0; p0; s0] | None => [] end) ++ R).
        symmetry. apply (Permutation_middle [b1; p1; s1]).
      * unfold is_class. rewrite EK, HK. destruct st as [[[s0 b0] p0]|]; reflexivity.
    + exists []. split; [|reflexivity]. rewrite (N1 eq_refl) in *. cbn [app] in P1. apply W; [exact P1|]. apply (Forall2_upd_l _ _ _ _ _ _ (i_kind _ _ _ V) EK). exact HK.
  - destruct (is_class k i is_table) eqn:EC; [|discriminate]. injection HA as <-. destruct (class_inv _ _ _ _ _ V EC) as [o [c [EO [EN [EK [HK HT]]]]]]. rewrite EO. cbn [bind].
    destruct c as [|al|]; try discriminate. destruct o as [|t st ml| |]; cbn [kind] in HK; try contradiction. destruct (inv_put _ _ _ _ _ V EN) as [R [P W]].
    apply fine_bind. eapply fine_weaken; [apply (table_add_fine _ _ _ _ _ _ _ P)|]. intros h1 P1. cbn [fine]. exists []. split; [|reflexivity].
    constructor; cbn [s_heap s_objs app]; [|apply (i_kind _ _ _ V)]. rewrite P1, <- P. apply (i_perm _ _ _ V).
  - destruct (is_class k i is_poly) eqn:EC; [|discriminate]. injection HA as <-. destruct (class_inv _ _ _ _ _ V EC) as [o [c [EO [EN [EK [HK HT]]]]]]. rewrite EO. cbn [bind].
    destruct c as [|al|]; try discriminate. destruct o as [| |ps fs n0|]; cbn [kind] in HK; try contradiction. destruct (inv_put _ _ _ _ _ V EN) as [R [P W]].
    apply fine_bind. eapply fine_weaken; [apply (interp_fine _ _ _ _ n _ P)|]. intros [h1 o1] [P1 [ps' [n' E1]]]. cbn [fst snd] in *. subst o1. cbn [fine]. exists []. split; [|reflexivity].
    apply (W h1 _ [] k P1). apply (Forall2_upd_l _ _ _ _ _ _ (i_kind _ _ _ V) EK). exact I.
  - destruct (is_class k i is_poly) eqn:EC; [|discriminate]. injection HA as <-. destruct (class_inv _ _ _ _ _ V EC) as [o [c [EO [EN [EK [HK HT]]]]]]. rewrite EO. cbn [bind].
    destruct c as [|al|]; try discriminate. destruct o as [| |ps fs n0|]; cbn [kind] in HK; try contradiction. destruct (inv_put _ _ _ _ _ V EN) as [R [P W]].
    apply fine_bind. eapply fine_weaken; [apply (factorise_fine _ _ _ _ _ P)|]. intros [h1 o1] [P1 [fs' E1]]. cbn [fst snd] in *. subst o1. cbn [fine]. exists []. split; [|reflexivity].
    apply (W h1 _ [] k P1). apply (Forall2_upd_l _ _ _ _ _ _ (i_kind _ _ _ V) EK). exact I.
  - destruct (is_class k i is_poly) eqn:EC; [|discriminate]. injection HA as <-. destruct (class_inv _ _ _ _ _ V EC) as [o [c [EO [EN [EK [HK HT]]]]]]. rewrite EO. cbn [bind].
    destruct c as [|al|]; try discriminate. destruct o as [| |ps fs n0|]; cbn [kind] in HK; try contradiction. destruct (inv_put _ _ _ _ _ V EN) as [R [P W]].
    apply fine_bind. unfold find. cbn [owned] in P. rewrite <- app_assoc in P.
    destruct fs as [f|].
    + eapply fine_weaken; [apply fine_use_opt; intros x Hx; injection Hx as <-; inlive|]. intros _ _. cbn [fine]. exists []. split; [exact V|reflexivity].
    + cbn [fine]. exists []. split; [exact V|reflexivity].
  - destruct (is_class k i is_poly) eqn:EC; [|discriminate]. injection HA as <-. destruct (class_inv _ _ _ _ _ V EC) as [o [c [EO [EN [EK [HK HT]]]]]]. rewrite EO. cbn [bind].
    destruct c as [|al|]; try discriminate. destruct o as [| |ps fs n0|]; cbn [kind] in HK; try contradiction. destruct (inv_put _ _ _ _ _ V EN) as [R [P W]].
    apply fine_bind. eapply fine_weaken; [apply (find_all_fine _ _ _ _ n _ P)|]. intros [h1 o1] [P1 [ps' [fs' [n' E1]]]]. cbn [fst snd] in *. subst o1. cbn [fine]. exists []. split; [|reflexivity].
    apply (W h1 _ [] k P1). apply (Forall2_upd_l _ _ _ _ _ _ (i_kind _ _ _ V) EK). exact I.
  - discriminate.
  - discriminate.
  - destruct (is_class k i (fun _ => true)) eqn:EC; [|discriminate]. injection HA as <-. destruct (class_inv _ _ _ _ _ V EC) as [o [c [EO [EN [EK [HK HT]]]]]]. rewrite EO. cbn [bind].
    destruct (inv_put _ _ _ _ _ V EN) as [R [P W]]. apply fine_bind. eapply fine_weaken with (Q := fun h1 => Permutation (live h1) R).
    { destruct o as [b p|t st ml|ps fs n0|]; [apply destroy_str_fine, P|apply (destroy_table_fine _ _ _ ml), P|apply (destroy_poly_fine _ _ _ n0), P|destruct HK]. }
    intros h1 P1. cbn [fine]. exists []. split; [|reflexivity]. apply (W h1 ODead [] (upd k i None)); [exact P1|]. apply Forall2_upd; [apply (i_kind _ _ _ V)|exact I].
Qed.

Lemma run_inv l : forall s k leaked k1, inv s k leaked -> proper k l = Some k1 ->
  fine (exec_all s l) (fun s1 => exists more, inv s1 k1 (more ++ leaked) /\ length more = (3 * replacements k l)%nat).
Proof.
  induction l as [|c l IH]; intros s k leaked k1 V H; cbn [proper exec_all replacements] in *.
  - injection H as <-. cbn [fine]. exists []. split; [exact V|reflexivity].
  - destruct (after k c) as [k2|] eqn:E; [|discriminate]. apply fine_bind. eapply fine_weaken; [apply (step_inv _ _ _ _ _ V E)|].
    intros s1 [m1 [V1 L1]]. eapply fine_weaken; [apply (IH _ _ _ _ V1 H)|]. intros s2 [m2 [V2 L2]]. exists (m2 ++ m1). split; [rewrite <- app_assoc; exact V2|]. rewrite app_length, L1, L2. lia.
Qed.
Lemma start_inv : inv start [] [].
Proof. constructor; [reflexivity|constructor]. Qed.

(** *** two objects that refer to one array *)
Lemma the_obj_inv s i o : the_obj s i = Ok o -> nth_error (s_objs s) i = Some o /\ o <> ODead.
Proof. unfold the_obj. destruct (nth_error (s_objs s) i) as [[]|]; intros H; try discriminate; injection H as <-; split; congruence. Qed.

(** what a sequence of heap operations does to array [a]: [stay]: it keeps its
    status; [drop]: it was live and is gone *)
Definition stat (h : list block) (a : nat) : option bool := option_map is_live (nth_error h a).
Lemma free_stat h x h' a : free h x = Ok h' -> (a = x -> stat h a = Some true /\ stat h' a = Some false) /\ (a <> x -> stat h' a = stat h a).
Proof.
  unfold free, stat. destruct (nth_error h x) as [[c|]|] eqn:E; intros H; try discriminate. injection H as <-. split.
  - intros ->. rewrite E. split; [reflexivity|]. rewrite upd_nth_same; [reflexivity|]. apply nth_error_Some. congruence.
  - intros NE. rewrite upd_nth_other by exact NE. reflexivity.
Qed.
Lemma free_opt_stat h x h' a : free_opt h x = Ok h' -> (x = Some a -> stat h a = Some true /\ stat h' a = Some false) /\ (x <> Some a -> stat h' a = stat h a).
Proof.
  destruct x as [x|]; cbn [free_opt]; intros H.
  - destruct (free_stat _ _ _ a H) as [A B]. split; intros E; [apply A; congruence|apply B; congruence].
  - injection H as <-. split; [discriminate|reflexivity].
Qed.
Lemma alloc_stat h n h' x a : alloc h n = (h', x) -> stat h a <> None -> stat h' a = stat h a /\ x <> a.
Proof.
  unfold alloc, stat. intros E H. injection E as <- <-. assert (LT : (a < length h)%nat). { apply nth_error_Some. intros E. rewrite E in H. apply H. reflexivity. }
  rewrite nth_error_app1 by exact LT. split; [reflexivity|lia].
Qed.
Lemma new_str_stat h n h' b p a : new_str h n = (h', (b, p)) -> stat h a <> None -> stat h' a = stat h a.
Proof.
  unfold new_str. set (m := match n with O => 1%nat | _ => n end). destruct (alloc h m) as [h1 x] eqn:E1. destruct (alloc h1 m) as [h2 y] eqn:E2. intros E H. injection E as <- <- <-.
  destruct (alloc_stat _ _ _ _ a E1 H) as [S1 _]. rewrite <- S1 in H. destruct (alloc_stat _ _ _ _ a E2 H) as [S2 _]. congruence.
Qed.
Lemma set_algo_stat h st algo h' st' a : set_algo h st algo = (h', st') -> stat h a <> None -> stat h' a = stat h a.
Proof.
  unfold set_algo. destruct algo as [n|]; intros E H; [|injection E as <- <-; reflexivity].
  destruct (alloc h 1) as [h1 s] eqn:E1. destruct (new_str h1 n) as [h2 [b p]] eqn:E2. injection E as <- <-.
  destruct (alloc_stat _ _ _ _ a E1 H) as [S1 _]. rewrite <- S1 in H. rewrite (new_str_stat _ _ _ _ _ a E2 H). exact S1.
Qed.

(** arrays an object refers to for as long as it exists, or until it releases them *)
Definition keeps (o : obj) (a : nat) : Prop :=
  match o with OStr b p => a = b \/ a = p | OTable t _ _ => a = t | OPoly ps fs _ => ps = Some a \/ fs = Some a | ODead => False end.
Lemma keeps_holds o a : keeps o a -> holds o a.
Proof. destruct o; cbn; tauto. Qed.


(** the effect of an operation that turns [o] into [o'] on array [a] *)
Definition unfreed (h h' : list block) (a : nat) : Prop := stat h' a = stat h a.
Definition freed (h h' : list block) (a : nat) : Prop := stat h a = Some true /\ stat h' a = Some false.
Definition effect (h h' : list block) (o o' : obj) (a : nat) : Prop :=
  unfreed h h' a /\ (keeps o a -> keeps o' a) \/ freed h h' a.
Lemma free_cases h x h' a : free h x = Ok h' -> (unfreed h h' a /\ a <> x) \/ freed h h' a.
Proof. intros H. destruct (free_stat _ _ _ a H) as [A B]. destruct (Nat.eq_dec a x) as [E|NE]; [right; exact (A E)|left; split; [exact (B NE)|exact NE]]. Qed.
Lemma free_opt_cases h x h' a : free_opt h x = Ok h' -> (unfreed h h' a /\ x <> Some a) \/ freed h h' a.
Proof.
  intros H. destruct (free_opt_stat _ _ _ a H) as [A B]. assert (D : x = Some a \/ x <> Some a). { destruct x as [x|]; [destruct (Nat.eq_dec x a); [left|right]; congruence|right; discriminate]. }
  destruct D as [E|NE]; [right; exact (A E)|left; split; [exact (B NE)|exact NE]].
Qed.
(** composing *)
Lemma freed_then h h1 h2 a : freed h h1 a -> unfreed h1 h2 a \/ freed h1 h2 a -> freed h h2 a.
Proof. unfold freed, unfreed. intros [A B] [C|[C D]]; [split; congruence|congruence]. Qed.
Lemma unfreed_freed h h1 h2 a : unfreed h h1 a -> freed h1 h2 a -> freed h h2 a.
Proof. unfold freed, unfreed. intros A [B C]. split; congruence. Qed.
Lemma unfreed_trans h h1 h2 a : unfreed h h1 a -> unfreed h1 h2 a -> unfreed h h2 a.
Proof. unfold unfreed. congruence. Qed.

Lemma destroy_str_cases h b p h' a : destroy_str h b p = Ok h' -> (unfreed h h' a /\ a <> b /\ a <> p) \/ freed h h' a.
Proof.
  unfold destroy_str. intros H. apply bind_ok in H. destruct H as [h1 [E1 E2]]. destruct (free_cases _ _ _ a E1) as [[A1 N1]|A1]; destruct (free_cases _ _ _ a E2) as [[A2 N2]|A2].
  - left. split; [exact (unfreed_trans _ _ _ _ A1 A2)|]. tauto.
  - right. exact (unfreed_freed _ _ _ _ A1 A2).
  - right. exact (freed_then _ _ _ _ A1 (or_introl A2)).
  - right. exact (freed_then _ _ _ _ A1 (or_intror A2)).
Qed.
Lemma destroy_table_cases h t st h' a : destroy_table h t st = Ok h' -> (unfreed h h' a /\ a <> t) \/ freed h h' a.
Proof.
  unfold destroy_table. intros H. apply bind_ok in H. destruct H as [h1 [E1 E2]].
  assert (C : unfreed h1 h' a \/ freed h1 h' a).
  { destruct st as [[[s b] p]|]; [|injection E2 as ->; left; reflexivity]. apply bind_ok in E2. destruct E2 as [u [_ E2]]. apply bind_ok in E2. destruct E2 as [h2 [E2 E3]].
    destruct (destroy_str_cases _ _ _ _ a E2) as [[A2 _]|A2]; destruct (free_cases _ _ _ a E3) as [[A3 _]|A3].
    - left. exact (unfreed_trans _ _ _ _ A2 A3).
    - right. exact (unfreed_freed _ _ _ _ A2 A3).
    - right. exact (freed_then _ _ _ _ A2 (or_introl A3)).
    - right. exact (freed_then _ _ _ _ A2 (or_intror A3)). }
  destruct (free_cases _ _ _ a E1) as [[A1 N1]|A1].
  - destruct C as [C|C]; [left; split; [exact (unfreed_trans _ _ _ _ A1 C)|exact N1]|right; exact (unfreed_freed _ _ _ _ A1 C)].
  - right. exact (freed_then _ _ _ _ A1 C).
Qed.
Lemma destroy_poly_cases h ps fs h' a : destroy_poly h ps fs = Ok h' -> (unfreed h h' a /\ ps <> Some a /\ fs <> Some a) \/ freed h h' a.
Proof.
  unfold destroy_poly. intros H. apply bind_ok in H. destruct H as [h1 [E1 E2]]. destruct (free_opt_cases _ _ _ a E1) as [[A1 N1]|A1]; destruct (free_opt_cases _ _ _ a E2) as [[A2 N2]|A2].
  - left. split; [exact (unfreed_trans _ _ _ _ A1 A2)|]. tauto.
  - right. exact (unfreed_freed _ _ _ _ A1 A2).
  - right. exact (freed_then _ _ _ _ A1 (or_introl A2)).
  - right. exact (freed_then _ _ _ _ A1 (or_intror A2)).
Qed.
Lemma table_add_stat h t st ml e hv h' a : table_add h t st ml e hv = Ok h' -> unfreed h h' a.
Proof.
  unfold table_add. intros H. apply bind_ok in H. destruct H as [ix [_ H]]. apply bind_ok in H. destruct H as [c [EC H]]. apply bind_ok in H. destruct H as [items [_ H]].
  destruct (match st with None => false | Some _ => _ end); [discriminate|]. injection H as <-. unfold cells_at in EC. destruct (nth_error h t) as [[c'|]|] eqn:E; try discriminate.
  unfold unfreed, stat. rewrite upd_nth. destruct (Nat.eqb_spec a t) as [->|NE]; [rewrite E|]; reflexivity.
Qed.
Lemma alloc_unfreed h n h' x a : alloc h n = (h', x) -> stat h a <> None -> unfreed h h' a.
Proof. intros E H. exact (proj1 (alloc_stat _ _ _ _ a E H)). Qed.
Lemma unfreed_some h h' a : unfreed h h' a -> stat h a <> None -> stat h' a <> None.
Proof. unfold unfreed. congruence. Qed.
Lemma freed_some h h' a : freed h h' a -> stat h' a <> None.
Proof. unfold freed. intros [_ ->]. discriminate. Qed.

Lemma interp_effect h ps fs n0 n h' o' a : interp h ps fs n0 n = Ok (h', o') -> stat h a <> None -> effect h h' (OPoly ps fs n0) o' a.
Proof.
  unfold interp. intros H NN. apply bind_ok in H. destruct H as [[h1 ps1] [E1 H]]. apply bind_ok in H. destruct H as [u [_ H]]. injection H as <- <-.
  destruct (Nat.eqb n0 n); [injection E1 as <- <-; left; split; [reflexivity|exact (fun K => K)]|]. apply bind_ok in E1. destruct E1 as [h2 [E1 E2]].
  destruct (alloc h2 n) as [h3 x] eqn:E3. injection E2 as <- <-. destruct (free_opt_cases _ _ _ a E1) as [[A1 N1]|A1].
  - left. split; [exact (unfreed_trans _ _ _ _ A1 (alloc_unfreed _ _ _ _ a E3 (unfreed_some _ _ _ A1 NN)))|]. cbn [keeps]. intros [K|K]; [contradiction|right; exact K].
  - right. exact (freed_then _ _ _ _ A1 (or_introl (alloc_unfreed _ _ _ _ a E3 (freed_some _ _ _ A1)))).
Qed.
Lemma factorise_effect h ps fs n h' o' a : factorise h ps fs n = Ok (h', o') -> stat h a <> None -> effect h h' (OPoly ps fs n) o' a.
Proof.
  unfold factorise. intros H NN. destruct ps as [x|]; [|injection H as <- <-; left; split; [reflexivity|exact (fun K => K)]].
  apply bind_ok in H. destruct H as [h1 [E1 H]]. destruct (alloc h1 n) as [h2 y] eqn:E2. apply bind_ok in H. destruct H as [u [_ H]]. injection H as <- <-.
  destruct (free_opt_cases _ _ _ a E1) as [[A1 N1]|A1].
  - left. split; [exact (unfreed_trans _ _ _ _ A1 (alloc_unfreed _ _ _ _ a E2 (unfreed_some _ _ _ A1 NN)))|]. cbn [keeps]. intros [K|K]; [left; exact K|contradiction].
  - right. exact (freed_then _ _ _ _ A1 (or_introl (alloc_unfreed _ _ _ _ a E2 (freed_some _ _ _ A1)))).
Qed.
Lemma find_all_effect h ps fs n0 n h' o' a : find_all h ps fs n0 n = Ok (h', o') -> stat h a <> None -> effect h h' (OPoly ps fs n0) o' a.
Proof.
  unfold find_all. intros H NN. apply bind_ok in H. destruct H as [[[h1 ps1] fs1] [E1 H]]. apply bind_ok in H. destruct H as [u [_ H]]. apply bind_ok in H. destruct H as [v [_ H]]. injection H as <- <-.
  destruct (Nat.eqb n0 n); [injection E1 as <- <- <-; left; split; [reflexivity|exact (fun K => K)]|]. apply bind_ok in E1. destruct E1 as [h2 [E1 E2]]. apply bind_ok in E2. destruct E2 as [h3 [E2 E3]].
  destruct (alloc h3 n) as [h4 x] eqn:E4. destruct (alloc h4 n) as [h5 y] eqn:E5. injection E3 as <- <- <-.
  assert (D : destroy_poly h ps fs = Ok h3) by (unfold destroy_poly; rewrite E1; exact E2).
  destruct (destroy_poly_cases _ _ _ _ a D) as [[A1 [N1 N2]]|A1].
  - pose proof (alloc_unfreed _ _ _ _ a E4 (unfreed_some _ _ _ A1 NN)) as A2. pose proof (unfreed_trans _ _ _ _ A1 A2) as A3.
    left. split; [exact (unfreed_trans _ _ _ _ A3 (alloc_unfreed _ _ _ _ a E5 (unfreed_some _ _ _ A3 NN)))|]. cbn [keeps]. tauto.
  - pose proof (alloc_unfreed _ _ _ _ a E4 (freed_some _ _ _ A1)) as A2. pose proof (freed_then _ _ _ _ A1 (or_introl A2)) as A3.
    right. exact (freed_then _ _ _ _ A3 (or_introl (alloc_unfreed _ _ _ _ a E5 (freed_some _ _ _ A3)))).
Qed.

Definition keeper (s : store) (i a : nat) : Prop := exists o, nth_error (s_objs s) i = Some o /\ keeps o a.
(** either the array is live and both refer to it, or it is gone and one still does *)
Definition shared (s : store) (i j a : nat) : Prop :=
  stat (s_heap s) a = Some true /\ keeper s i a /\ keeper s j a \/
  stat (s_heap s) a = Some false /\ (keeper s i a \/ keeper s j a).

(** every call works on one object, or makes a new one *)
Lemma step_effect s c s1 a : no_copy c -> exec s c = Ok s1 -> stat (s_heap s) a <> None ->
  (exists objs, s_objs s1 = s_objs s ++ objs /\ unfreed (s_heap s) (s_heap s1) a) \/
  (exists i o o', nth_error (s_objs s) i = Some o /\ s_objs s1 = upd (s_objs s) i o' /\ effect (s_heap s) (s_heap s1) o o' a).
Proof.
  intros NC H NN. destruct c as [bytes|len ml algo| |i|i algo|i e hv|i n|i|i|i n|i|i j|i]; cbn [exec] in H; try destruct NC.
  - left. destruct (new_str (s_heap s) bytes) as [h1 [b p]] eqn:E. injection H as <-. eexists. split; [reflexivity|]. exact (new_str_stat _ _ _ _ _ a E NN).
  - left. destruct (set_algo (s_heap s) None algo) as [h1 st] eqn:E1. destruct (alloc h1 len) as [h2 x] eqn:E2. injection H as <-. eexists. split; [reflexivity|].
    pose proof (set_algo_stat _ _ _ _ _ a E1 NN) as A1. exact (unfreed_trans _ _ _ _ A1 (alloc_unfreed _ _ _ _ a E2 (unfreed_some _ _ _ A1 NN))).
  - left. injection H as <-. eexists. split; [reflexivity|]. reflexivity.
  - left. apply bind_ok in H. destruct H as [o [_ H]]. destruct o; try discriminate. apply bind_ok in H. destruct H as [u [_ H]]. apply bind_ok in H. destruct H as [v [_ H]]. injection H as <-.
    exists []. rewrite app_nil_r. split; reflexivity.
  - right. apply bind_ok in H. destruct H as [o [EO H]]. apply the_obj_inv in EO. destruct EO as [EO _]. destruct o as [|t st ml| |]; try discriminate.
    destruct (set_algo (s_heap s) st algo) as [h1 st1] eqn:E1. injection H as <-. exists i, (OTable t st ml), (OTable t st1 ml). split; [exact EO|]. split; [reflexivity|].
    left. split; [exact (set_algo_stat _ _ _ _ _ a E1 NN)|exact (fun K => K)].
  - left. apply bind_ok in H. destruct H as [o [_ H]]. destruct o; try discriminate. apply bind_ok in H. destruct H as [h1 [E1 H]]. injection H as <-.
    exists []. rewrite app_nil_r. split; [reflexivity|]. exact (table_add_stat _ _ _ _ _ _ _ a E1).
  - right. apply bind_ok in H. destruct H as [o [EO H]]. apply the_obj_inv in EO. destruct EO as [EO _]. destruct o as [| |ps fs n0|]; try discriminate. apply bind_ok in H. destruct H as [[h1 o1] [E1 H]]. injection H as <-.
    exists i, (OPoly ps fs n0), o1. split; [exact EO|]. split; [reflexivity|]. exact (interp_effect _ _ _ _ _ _ _ a E1 NN).
  - right. apply bind_ok in H. destruct H as [o [EO H]]. apply the_obj_inv in EO. destruct EO as [EO _]. destruct o as [| |ps fs n0|]; try discriminate. apply bind_ok in H. destruct H as [[h1 o1] [E1 H]]. injection H as <-.
    exists i, (OPoly ps fs n0), o1. split; [exact EO|]. split; [reflexivity|]. exact (factorise_effect _ _ _ _ _ _ a E1 NN).
  - left. apply bind_ok in H. destruct H as [o [_ H]]. destruct o; try discriminate. apply bind_ok in H. destruct H as [u [_ H]]. injection H as <-. exists []. rewrite app_nil_r. split; reflexivity.
  - right. apply bind_ok in H. destruct H as [o [EO H]]. apply the_obj_inv in EO. destruct EO as [EO _]. destruct o as [| |ps fs n0|]; try discriminate. apply bind_ok in H. destruct H as [[h1 o1] [E1 H]]. injection H as <-.
    exists i, (OPoly ps fs n0), o1. split; [exact EO|]. split; [reflexivity|]. exact (find_all_effect _ _ _ _ _ _ _ a E1 NN).
  - right. apply bind_ok in H. destruct H as [o [EO H]]. apply the_obj_inv in EO. destruct EO as [EO ND]. apply bind_ok in H. destruct H as [h1 [E1 H]]. injection H as <-.
    exists i, o, ODead. split; [exact EO|]. split; [reflexivity|]. unfold effect. cbn [put s_heap]. destruct o as [b p|t st ml|ps fs n0|].
    + destruct (destroy_str_cases _ _ _ _ a E1) as [[A [N1 N2]]|A]; [left; split; [exact A|]; cbn [keeps]; tauto|right; exact A].
    + destruct (destroy_table_cases _ _ _ _ a E1) as [[A N]|A]; [left; split; [exact A|]; cbn [keeps]; tauto|right; exact A].
    + destruct (destroy_poly_cases _ _ _ _ a E1) as [[A [N1 N2]]|A]; [left; split; [exact A|]; cbn [keeps]; tauto|right; exact A].
    + congruence.
Qed.
Lemma keeper_app s s1 objs i a : s_objs s1 = s_objs s ++ objs -> keeper s i a -> keeper s1 i a.
Proof. intros E [o [EO K]]. exists o. rewrite E, nth_error_app1; [split; assumption|]. apply nth_error_Some. congruence. Qed.
Lemma keeper_upd s s1 x o o' i a : nth_error (s_objs s) x = Some o -> s_objs s1 = upd (s_objs s) x o' -> (i = x -> keeps o a -> keeps o' a) -> keeper s i a -> keeper s1 i a.
Proof.
  intros EX E HK [q [EO K]]. unfold keeper. rewrite E, upd_nth. destruct (Nat.eqb_spec i x) as [->|NE].
  - rewrite EO. exists o'. split; [reflexivity|]. apply HK; [reflexivity|]. congruence.
  - exists q. split; assumption.
Qed.
Lemma shared_step s c s1 i j a : i <> j -> no_copy c -> exec s c = Ok s1 -> shared s i j a -> shared s1 i j a.
Proof.
  intros NE NC H SH. assert (NN : stat (s_heap s) a <> None) by (destruct SH as [[E _]|[E _]]; rewrite E; discriminate).
  destruct (step_effect _ _ _ a NC H NN) as [[objs [EO U]]|[x [o [o' [EX [EO [[U KP]|[F1 F2]]]]]]]].
  - destruct SH as [[E [K1 K2]]|[E K]]; [left|right]; (split; [rewrite U; exact E|]).
    + split; apply (keeper_app _ _ _ _ _ EO); assumption.
    + destruct K as [K|K]; [left|right]; apply (keeper_app _ _ _ _ _ EO K).
  - destruct SH as [[E [K1 K2]]|[E K]]; [left|right]; (split; [rewrite U; exact E|]).
    + split; apply (keeper_upd _ _ _ _ _ _ _ EX EO (fun _ => KP)); assumption.
    + destruct K as [K|K]; [left|right]; apply (keeper_upd _ _ _ _ _ _ _ EX EO (fun _ => KP) K).
  - destruct SH as [[E [K1 K2]]|[E K]]; [|congruence]. right. split; [exact F2|]. destruct (Nat.eq_dec i x) as [->|NX].
    + right. apply (keeper_upd _ _ _ _ _ _ _ EX EO); [intros ->; contradiction|exact K2].
    + left. apply (keeper_upd _ _ _ _ _ _ _ EX EO); [intros ->; contradiction|exact K1].
Qed.
Lemma shared_run l : forall s s1 i j a, i <> j -> Forall no_copy l -> exec_all s l = Ok s1 -> shared s i j a -> shared s1 i j a.
Proof.
  induction l as [|c l IH]; intros s s1 i j a NE NC H SH; cbn [exec_all] in H; [injection H as <-; exact SH|].
  apply bind_ok in H. destruct H as [s2 [E H]]. inversion NC; subst. apply (IH s2 s1); try assumption. apply (shared_step s c); assumption.
Qed.
(** a destroyed object stays destroyed *)
Lemma dead_step s c s1 i : no_copy c -> exec s c = Ok s1 -> nth_error (s_objs s) i = Some ODead -> nth_error (s_objs s1) i = Some ODead.
Proof.
  intros NC H D. assert (LT : (i < length (s_objs s))%nat) by (apply nth_error_Some; congruence).
  assert (PUT : forall h x o o', nth_error (s_objs s) x = Some o -> o <> ODead -> nth_error (s_objs (put s h x o')) i = Some ODead).
  { intros h x o o' EX ND. cbn [put s_objs]. rewrite upd_nth_other by congruence. exact D. }
  assert (NEW : forall h o, nth_error (s_objs (add_obj s h o)) i = Some ODead) by (intros h o; cbn [add_obj s_objs]; rewrite nth_error_app1 by exact LT; exact D).
  destruct c as [bytes|len ml algo| |x|x algo|x e hv|x n|x|x|x n|x|x y|x]; cbn [exec] in H; try destruct NC.
  - destruct (new_str (s_heap s) bytes) as [h1 [b p]]. injection H as <-. apply NEW.
  - destruct (set_algo (s_heap s) None algo) as [h1 st]. destruct (alloc h1 len) as [h2 y]. injection H as <-. apply NEW.
  - injection H as <-. apply NEW.
  - apply bind_ok in H. destruct H as [o [_ H]]. destruct o; try discriminate. apply bind_ok in H. destruct H as [u [_ H]]. apply bind_ok in H. destruct H as [v [_ H]]. injection H as <-. exact D.
  - apply bind_ok in H. destruct H as [o [EO H]]. apply the_obj_inv in EO. destruct EO as [EO ND]. destruct o as [|t st ml| |]; try discriminate. destruct (set_algo (s_heap s) st algo) as [h1 st1]. injection H as <-. apply (PUT _ _ _ _ EO ND).
  - apply bind_ok in H. destruct H as [o [_ H]]. destruct o; try discriminate. apply bind_ok in H. destruct H as [h1 [_ H]]. injection H as <-. exact D.
  - apply bind_ok in H. destruct H as [o [EO H]]. apply the_obj_inv in EO. destruct EO as [EO ND]. destruct o; try discriminate. apply bind_ok in H. destruct H as [[h1 o1] [_ H]]. injection H as <-. apply (PUT _ _ _ _ EO ND).
  - apply bind_ok in H. destruct H as [o [EO H]]. apply the_obj_inv in EO. destruct EO as [EO ND]. destruct o; try discriminate. apply bind_ok in H. destruct H as [[h1 o1] [_ H]]. injection H as <-. apply (PUT _ _ _ _ EO ND).
  - apply bind_ok in H. destruct H as [o [_ H]]. destruct o; try discriminate. apply bind_ok in H. destruct H as [u [_ H]]. injection H as <-. exact D.
  - apply bind_ok in H. destruct H as [o [EO H]]. apply the_obj_inv in EO. destruct EO as [EO ND]. destruct o; try discriminate. apply bind_ok in H. destruct H as [[h1 o1] [_ H]]. injection H as <-. apply (PUT _ _ _ _ EO ND).
  - apply bind_ok in H. destruct H as [o [EO H]]. apply the_obj_inv in EO. destruct EO as [EO ND]. apply bind_ok in H. destruct H as [h1 [_ H]]. injection H as <-. apply (PUT _ _ _ _ EO ND).
Qed.
Lemma dead_run l : forall s s1 i, Forall no_copy l -> exec_all s l = Ok s1 -> nth_error (s_objs s) i = Some ODead \/ In (CDestroy i) l -> nth_error (s_objs s1) i = Some ODead.
Proof.
  induction l as [|c l IH]; intros s s1 i NC H D; cbn [exec_all] in H.
  - injection H as <-. destruct D as [D|[]]. exact D.
  - apply bind_ok in H. destruct H as [s2 [E H]]. inversion NC as [|? ? N1 N2]; subst. apply (IH s2 s1 i N2 H). destruct D as [D|[E0|D]]; [|subst c|].
    + left. exact (dead_step _ _ _ _ N1 E D).
    + left. cbn [exec] in E. apply bind_ok in E. destruct E as [o [EO E]]. apply the_obj_inv in EO. destruct EO as [EO _]. apply bind_ok in E. destruct E as [h1 [_ E]]. injection E as <-.
      cbn [put s_objs]. apply upd_nth_same. apply nth_error_Some. congruence.
    + right. exact D.
Qed.
Lemma shared_not_both_dead l s s1 i j a : i <> j -> Forall no_copy l -> exec_all s l = Ok s1 -> shared s i j a -> In (CDestroy i) l -> In (CDestroy j) l -> False.
Proof.
  intros NE NC H SH DI DJ. pose proof (shared_run _ _ _ _ _ _ NE NC H SH) as SH1.
  pose proof (dead_run _ _ _ _ NC H (or_intror DI)) as D1. pose proof (dead_run _ _ _ _ NC H (or_intror DJ)) as D2.
  assert (NK : forall x, nth_error (s_objs s1) x = Some ODead -> ~ keeper s1 x a) by (intros x D [o [EO K]]; rewrite D in EO; injection EO as <-; exact K).
  destruct SH1 as [[_ [K _]]|[_ [K|K]]]; [exact (NK _ D1 K)|exact (NK _ D1 K)|exact (NK _ D2 K)].
Qed.

(** *** tables keep their buckets *)
Lemma table_step s c s1 i t st ml : no_copy c -> c <> CDestroy i -> exec s c = Ok s1 -> nth_error (s_objs s) i = Some (OTable t st ml) ->
  exists st', nth_error (s_objs s1) i = Some (OTable t st' ml).
Proof.
  intros NC ND H D. assert (LT : (i < length (s_objs s))%nat) by (apply nth_error_Some; congruence).
  assert (PUT : forall h x o o', nth_error (s_objs s) x = Some o -> (forall t st ml, o <> OTable t st ml) -> exists st', nth_error (s_objs (put s h x o')) i = Some (OTable t st' ml)).
  { intros h x o o' EX NT. exists st. cbn [put s_objs]. rewrite upd_nth_other; [exact D|]. intros ->. rewrite D in EX. injection EX as <-. apply (NT t st ml). reflexivity. }
  assert (NEW : forall h o, exists st', nth_error (s_objs (add_obj s h o)) i = Some (OTable t st' ml)) by (intros h o; exists st; cbn [add_obj s_objs]; rewrite nth_error_app1 by exact LT; exact D).
  destruct c as [bytes|len ml0 algo| |x|x algo|x e hv|x n|x|x|x n|x|x y|x]; cbn [exec] in H; try destruct NC.
  - destruct (new_str (s_heap s) bytes) as [h1 [b p]]. injection H as <-. apply NEW.
  - destruct (set_algo (s_heap s) None algo) as [h1 st0]. destruct (alloc h1 len) as [h2 y]. injection H as <-. apply NEW.
  - injection H as <-. apply NEW.
  - apply bind_ok in H. destruct H as [o [_ H]]. destruct o; try discriminate. apply bind_ok in H. destruct H as [u [_ H]]. apply bind_ok in H. destruct H as [v [_ H]]. injection H as <-. eauto.
  - apply bind_ok in H. destruct H as [o [EO H]]. apply the_obj_inv in EO. destruct EO as [EO _]. destruct o as [|t0 st0 ml0| |]; try discriminate. destruct (set_algo (s_heap s) st0 algo) as [h1 st1]. injection H as <-.
    cbn [put s_objs]. rewrite upd_nth. destruct (Nat.eqb_spec i x) as [->|NE]; [|eauto]. rewrite EO. rewrite EO in D. injection D as <- <- <-. eauto.
  - apply bind_ok in H. destruct H as [o [_ H]]. destruct o; try discriminate. apply bind_ok in H. destruct H as [h1 [_ H]]. injection H as <-. eauto.
  - apply bind_ok in H. destruct H as [o [EO H]]. apply the_obj_inv in EO. destruct EO as [EO _]. destruct o; try discriminate. apply bind_ok in H. destruct H as [[h1 o1] [_ H]]. injection H as <-. apply (PUT _ _ _ _ EO). discriminate.
  - apply bind_ok in H. destruct H as [o [EO H]]. apply the_obj_inv in EO. destruct EO as [EO _]. destruct o; try discriminate. apply bind_ok in H. destruct H as [[h1 o1] [_ H]]. injection H as <-. apply (PUT _ _ _ _ EO). discriminate.
  - apply bind_ok in H. destruct H as [o [_ H]]. destruct o; try discriminate. apply bind_ok in H. destruct H as [u [_ H]]. injection H as <-. eauto.
  - apply bind_ok in H. destruct H as [o [EO H]]. apply the_obj_inv in EO. destruct EO as [EO _]. destruct o; try discriminate. apply bind_ok in H. destruct H as [[h1 o1] [_ H]]. injection H as <-. apply (PUT _ _ _ _ EO). discriminate.
  - apply bind_ok in H. destruct H as [o [EO H]]. apply bind_ok in H. destruct H as [h1 [_ H]]. injection H as <-. exists st. cbn [put s_objs]. rewrite upd_nth_other; [exact D|]. congruence.
Qed.
Lemma table_run l : forall s s1 i t st ml, Forall no_copy l -> ~ In (CDestroy i) l -> exec_all s l = Ok s1 -> nth_error (s_objs s) i = Some (OTable t st ml) ->
  exists st', nth_error (s_objs s1) i = Some (OTable t st' ml).
Proof.
  induction l as [|c l IH]; intros s s1 i t st ml NC ND H D; cbn [exec_all] in H; [injection H as <-; eauto|].
  apply bind_ok in H. destruct H as [s2 [E H]]. inversion NC as [|? ? N1 N2]; subst.
  destruct (table_step _ _ _ _ _ _ _ N1 ltac:(intros X; apply ND; left; exact X) E D) as [st1 D1]. apply (IH _ _ _ _ _ _ N2 ltac:(intros X; apply ND; right; exact X) H D1).
Qed.

Lemma exec_app l1 : forall s l2, exec_all s (l1 ++ l2) = do s1 <- exec_all s l1; exec_all s1 l2.
Proof. induction l1 as [|c l1 IH]; intros s l2; cbn [app exec_all bind]; [reflexivity|]. destruct (exec s c); cbn [bind]; [apply IH|reflexivity..]. Qed.
Lemma inv_holds s k leaked i o a : inv s k leaked -> nth_error (s_objs s) i = Some o -> holds o a -> stat (s_heap s) a = Some true.
Proof.
  intros V EO HO. destruct (inv_put _ _ _ _ _ V EO) as [R [P _]]. apply holds_owned in HO.
  assert (IA : In a (live (s_heap s))) by (apply (Permutation_in _ (Permutation_sym P)), in_or_app; left; exact HO).
  apply live_in in IA. destruct IA as [c IA]. unfold stat. rewrite IA. reflexivity.
Qed.
Lemma holds_keeps o a : holds o a -> exists b, keeps o b.
Proof. destruct o as [b p|t st ml|ps fs n|]; cbn [holds keeps]; [eauto|intros _; eauto|intros [H|H]; eauto|tauto]. Qed.
Lemma reach pre k s : proper [] pre = Some k -> exec_all start pre = Ok s -> exists leaked, inv s k leaked /\ length leaked = (3 * replacements [] pre)%nat.
Proof. intros HP HE. pose proof (run_inv pre start [] [] k start_inv HP) as F. rewrite HE in F. destruct F as [more [V L]]. rewrite app_nil_r in V. eauto. Qed.

(** *** arrays nobody refers to *)
Definition loose (s : store) (a : nat) : Prop := stat (s_heap s) a = Some true /\ forall i o, nth_error (s_objs s) i = Some o -> ~ holds o a.
Lemma free_other h x h' a : free h x = Ok h' -> a <> x -> unfreed h h' a.
Proof. intros H. apply (free_stat _ _ _ a H). Qed.
Lemma free_opt_other h x h' a : free_opt h x = Ok h' -> x <> Some a -> unfreed h h' a.
Proof. intros H. apply (free_opt_stat _ _ _ a H). Qed.
Lemma destroy_poly_other h ps fs n h' a : destroy_poly h ps fs = Ok h' -> ~ holds (OPoly ps fs n) a -> unfreed h h' a.
Proof.
  unfold destroy_poly. intros H NH. apply bind_ok in H. destruct H as [h1 [E1 E2]]. cbn [holds] in NH.
  exact (unfreed_trans _ _ _ _ (free_opt_other _ _ _ a E1 ltac:(tauto)) (free_opt_other _ _ _ a E2 ltac:(tauto))).
Qed.
Lemma destroy_str_other h b p h' a : destroy_str h b p = Ok h' -> a <> b -> a <> p -> unfreed h h' a.
Proof.
  unfold destroy_str. intros H N1 N2. apply bind_ok in H. destruct H as [h1 [E1 E2]]. exact (unfreed_trans _ _ _ _ (free_other _ _ _ a E1 N1) (free_other _ _ _ a E2 N2)).
Qed.
Lemma destroy_table_other h t st ml h' a : destroy_table h t st = Ok h' -> ~ holds (OTable t st ml) a -> unfreed h h' a.
Proof.
  unfold destroy_table. intros H NH. apply bind_ok in H. destruct H as [h1 [E1 H]]. cbn [holds] in NH. pose proof (free_other _ _ _ a E1 ltac:(tauto)) as A1.
  destruct st as [[[s b] p]|]; [|injection H as <-; exact A1]. apply bind_ok in H. destruct H as [c [_ H]]. apply bind_ok in H. destruct H as [h2 [E2 E3]].
  assert (N : a <> s /\ a <> b /\ a <> p). { repeat split; intros ->; apply NH; right; do 3 eexists; (split; [reflexivity|tauto]). } destruct N as [N1 [N2 N3]].
  exact (unfreed_trans _ _ _ _ (unfreed_trans _ _ _ _ A1 (destroy_str_other _ _ _ _ a E2 N2 N3)) (free_other _ _ _ a E3 N1)).
Qed.
Lemma alloc_other h n h' x a : alloc h n = (h', x) -> stat h a = Some true -> stat h' a = Some true /\ x <> a.
Proof. intros E H. destruct (alloc_stat _ _ _ _ a E) as [A B]; [rewrite H; discriminate|]. rewrite A. split; assumption. Qed.
Lemma set_algo_other h st algo h' st' t ml a : set_algo h st algo = (h', st') -> stat h a = Some true -> ~ holds (OTable t st ml) a ->
  stat h' a = Some true /\ ~ holds (OTable t st' ml) a.
Proof.
  unfold set_algo. destruct algo as [n|]; intros E H NH; [|injection E as <- <-; split; assumption].
  destruct (alloc h 1) as [h1 s] eqn:E1. unfold new_str in E. set (m := match n with O => 1%nat | _ => n end) in E.
  destruct (alloc h1 m) as [h2 b] eqn:E2. destruct (alloc h2 m) as [h3 p] eqn:E3. injection E as <- <-.
  destruct (alloc_other _ _ _ _ a E1 H) as [H1 N1]. destruct (alloc_other _ _ _ _ a E2 H1) as [H2 N2]. destruct (alloc_other _ _ _ _ a E3 H2) as [H3 N3].
  split; [exact H3|]. cbn [holds] in *. intros [->|[s' [b' [p' [E HX]]]]]; [apply NH; left; reflexivity|]. injection E as <- <- <-. intuition congruence.
Qed.
Lemma loose_put s h i o o' a : nth_error (s_objs s) i = Some o -> loose s a -> stat h a = Some true -> ~ holds o' a -> loose (put s h i o') a.
Proof.
  intros EO [_ L] H NH. split; [exact H|]. intros x q EX. cbn [put s_objs] in EX. rewrite upd_nth in EX. destruct (Nat.eqb_spec x i) as [->|NE]; [rewrite EO in EX; injection EX as <-; exact NH|exact (L _ _ EX)].
Qed.
Lemma loose_add s h o a : loose s a -> stat h a = Some true -> ~ holds o a -> loose (add_obj s h o) a.
Proof.
  intros [_ L] H NH. split; [exact H|]. intros x q EX. cbn [add_obj s_objs] in EX. destruct (Nat.ltb_spec x (length (s_objs s))) as [LT|GE].
  - rewrite nth_error_app1 in EX by exact LT. exact (L _ _ EX).
  - rewrite nth_error_app2 in EX by exact GE. destruct (x - length (s_objs s))%nat as [|y]; [injection EX as <-; exact NH|destruct y; discriminate].
Qed.
Lemma loose_step s c s1 a : no_copy c -> exec s c = Ok s1 -> loose s a -> loose s1 a.
Proof.
  intros NC H L. pose proof (proj1 L) as ST. destruct c as [bytes|len ml algo| |x|x algo|x e hv|x n|x|x|x n|x|x y|x]; cbn [exec] in H; try destruct NC.
  - unfold new_str in H. set (m := match bytes with O => 1%nat | _ => bytes end) in H. destruct (alloc (s_heap s) m) as [h1 b] eqn:E1. destruct (alloc h1 m) as [h2 p] eqn:E2. injection H as <-.
    destruct (alloc_other _ _ _ _ a E1 ST) as [H1 N1]. destruct (alloc_other _ _ _ _ a E2 H1) as [H2 N2]. apply loose_add; [exact L|exact H2|]. cbn [holds]. intuition congruence.
  - destruct (set_algo (s_heap s) None algo) as [h1 st] eqn:E1. destruct (alloc h1 len) as [h2 t] eqn:E2. injection H as <-.
    assert (N0 : ~ holds (OTable (S a) None ml) a). { cbn [holds]. intros [E|[? [? [? [E _]]]]]; [lia|discriminate]. }
    destruct (set_algo_other _ _ _ _ _ (S a) ml a E1 ST N0) as [H1 N1]. destruct (alloc_other _ _ _ _ a E2 H1) as [H2 N2]. apply loose_add; [exact L|exact H2|]. cbn [holds] in *. intros [E|E]; [congruence|tauto].
  - injection H as <-. apply loose_add; [exact L|exact ST|]. cbn [holds]. intros [E|E]; discriminate.
  - apply bind_ok in H. destruct H as [o [_ H]]. destruct o; try discriminate. apply bind_ok in H. destruct H as [u [_ H]]. apply bind_ok in H. destruct H as [v [_ H]]. injection H as <-. exact L.
  - apply bind_ok in H. destruct H as [o [EO H]]. apply the_obj_inv in EO. destruct EO as [EO _]. destruct o as [|t st ml| |]; try discriminate. destruct (set_algo (s_heap s) st algo) as [h1 st1] eqn:E1. injection H as <-.
    destruct (set_algo_other _ _ _ _ _ t ml a E1 ST (proj2 L _ _ EO)) as [H1 N1]. apply (loose_put _ _ _ _ _ _ EO L H1 N1).
  - apply bind_ok in H. destruct H as [o [EO H]]. destruct o; try discriminate. apply bind_ok in H. destruct H as [h1 [E1 H]]. injection H as <-. split; [|exact (proj2 L)]. cbn [s_heap]. rewrite (table_add_stat _ _ _ _ _ _ _ a E1). exact ST.
  - apply bind_ok in H. destruct H as [o [EO H]]. apply the_obj_inv in EO. destruct EO as [EO _]. destruct o as [| |ps fs n0|]; try discriminate. apply bind_ok in H. destruct H as [[h1 o1] [E1 H]]. injection H as <-. pose proof (proj2 L _ _ EO) as NH.
    unfold interp in E1. apply bind_ok in E1. destruct E1 as [[h2 ps2] [E1 E2]]. apply bind_ok in E2. destruct E2 as [u [_ E2]]. injection E2 as <- <-. destruct (Nat.eqb n0 n).
    + injection E1 as <- <-. apply (loose_put _ _ _ _ _ _ EO L ST). exact NH.
    + apply bind_ok in E1. destruct E1 as [h3 [E1 E2]]. destruct (alloc h3 n) as [h4 y] eqn:E4. injection E2 as <- <-. cbn [holds] in NH.
      assert (S3 : stat h3 a = Some true) by (rewrite (free_opt_other _ _ _ a E1 ltac:(tauto)); exact ST). destruct (alloc_other _ _ _ _ a E4 S3) as [S4 N4].
      apply (loose_put _ _ _ _ _ _ EO L S4). cbn [holds]. intros [E|E]; [congruence|tauto].
  - apply bind_ok in H. destruct H as [o [EO H]]. apply the_obj_inv in EO. destruct EO as [EO _]. destruct o as [| |ps fs n0|]; try discriminate. apply bind_ok in H. destruct H as [[h1 o1] [E1 H]]. injection H as <-. pose proof (proj2 L _ _ EO) as NH.
    unfold factorise in E1. destruct ps as [y|]; [|injection E1 as <- <-; apply (loose_put _ _ _ _ _ _ EO L ST); exact NH].
    apply bind_ok in E1. destruct E1 as [h3 [E1 E2]]. destruct (alloc h3 n0) as [h4 z] eqn:E4. apply bind_ok in E2. destruct E2 as [u [_ E2]]. injection E2 as <- <-. cbn [holds] in NH.
    assert (S3 : stat h3 a = Some true) by (rewrite (free_opt_other _ _ _ a E1 ltac:(tauto)); exact ST). destruct (alloc_other _ _ _ _ a E4 S3) as [S4 N4].
    apply (loose_put _ _ _ _ _ _ EO L S4). cbn [holds]. intros [E|E]; [tauto|congruence].
  - apply bind_ok in H. destruct H as [o [_ H]]. destruct o; try discriminate. apply bind_ok in H. destruct H as [u [_ H]]. injection H as <-. exact L.
  - apply bind_ok in H. destruct H as [o [EO H]]. apply the_obj_inv in EO. destruct EO as [EO _]. destruct o as [| |ps fs n0|]; try discriminate. apply bind_ok in H. destruct H as [[h1 o1] [E1 H]]. injection H as <-. pose proof (proj2 L _ _ EO) as NH.
    unfold find_all in E1. apply bind_ok in E1. destruct E1 as [[[h2 ps2] fs2] [E1 E2]]. apply bind_ok in E2. destruct E2 as [u [_ E2]]. apply bind_ok in E2. destruct E2 as [v [_ E2]]. injection E2 as <- <-. destruct (Nat.eqb n0 n).
    + injection E1 as <- <- <-. apply (loose_put _ _ _ _ _ _ EO L ST). exact NH.
    + apply bind_ok in E1. destruct E1 as [h3 [E1 E2]]. apply bind_ok in E2. destruct E2 as [h4 [E2 E3]]. destruct (alloc h4 n) as [h5 y] eqn:E5. destruct (alloc h5 n) as [h6 z] eqn:E6. injection E3 as <- <- <-.
      assert (D : destroy_poly (s_heap s) ps fs = Ok h4) by (unfold destroy_poly; rewrite E1; exact E2).
      assert (S4 : stat h4 a = Some true) by (rewrite (destroy_poly_other _ _ _ n0 _ a D NH); exact ST). destruct (alloc_other _ _ _ _ a E5 S4) as [S5 N5]. destruct (alloc_other _ _ _ _ a E6 S5) as [S6 N6].
      apply (loose_put _ _ _ _ _ _ EO L S6). cbn [holds]. intros [E|E]; congruence.
  - apply bind_ok in H. destruct H as [o [EO H]]. apply the_obj_inv in EO. destruct EO as [EO ND]. apply bind_ok in H. destruct H as [h1 [E1 H]]. injection H as <-. pose proof (proj2 L _ _ EO) as NH.
    apply (loose_put _ _ _ _ _ _ EO L); [|intros []]. destruct o as [b p|t st ml|ps fs n0|].
    + cbn [holds] in NH. rewrite (destroy_str_other _ _ _ _ a E1 ltac:(tauto) ltac:(tauto)). exact ST.
    + rewrite (destroy_table_other _ _ _ ml _ a E1 NH). exact ST.
    + rewrite (destroy_poly_other _ _ _ n0 _ a E1 NH). exact ST.
    + congruence.
Qed.
Lemma loose_run l : forall s s1 a, Forall no_copy l -> exec_all s l = Ok s1 -> loose s a -> loose s1 a.
Proof.
  induction l as [|c l IH]; intros s s1 a NC H L; cbn [exec_all] in H; [injection H as <-; exact L|].
  apply bind_ok in H. destruct H as [s2 [E H]]. inversion NC; subst. apply (IH s2 s1); try assumption. apply (loose_step s c); assumption.
Qed.
(** distinct objects refer to distinct arrays *)
Lemma owners_distinct s k leaked i j o o' a : inv s k leaked -> i <> j -> nth_error (s_objs s) i = Some o -> nth_error (s_objs s) j = Some o' -> holds o a -> ~ holds o' a.
Proof.
  intros V NE EO EO' HO HO'. apply holds_owned in HO. apply holds_owned in HO'.
  assert (ND : NoDup (leaked ++ flat_map owned (s_objs s))) by (eapply Permutation_NoDup; [exact (i_perm _ _ _ V)|apply live_nodup]).
  destruct (owned_split _ _ _ EO) as [rest [P1 P2]]. assert (IR : In a rest).
  { assert (IF : In a (flat_map owned (upd (s_objs s) i ODead))). { apply in_flat_map. exists o'. split; [|exact HO']. apply (nth_error_In _ j). rewrite upd_nth_other by congruence. exact EO'. }
    apply (Permutation_in _ (P2 ODead)) in IF. exact IF. }
  assert (ND2 : NoDup (owned o ++ rest)). { eapply Permutation_NoDup; [exact P1|]. clear -ND. induction leaked as [|x t IH]; [exact ND|]. inversion ND; subst. auto. }
  clear -ND2 HO IR. induction (owned o) as [|x t IH]; [destruct HO|]. inversion ND2; subst. destruct HO as [->|HO]; [apply H1, in_or_app; right; exact IR|exact (IH HO H2)].
Qed.
