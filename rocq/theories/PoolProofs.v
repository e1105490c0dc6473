(** Proofs for C127. *)
From Verif Require Import Base Spec Lib NtlMiss NtlMissProofs HashBucketsModel HashBucketsSpec HashBucketsProofs PRFModel EopsiModel WorldModel PoolModel PoolSpec.

Lemma upd_id {A} (l : list A) : forall i v, nth_error l i = Some v -> upd l i v = l.
Proof. induction l as [|a l IH]; intros [|i] v H; cbn in *; try discriminate; [congruence|f_equal; apply IH; exact H]. Qed.
Lemma upd_upd {A} (l : list A) : forall i v w, upd (upd l i v) i w = upd l i w.
Proof. induction l as [|a l IH]; intros [|i] v w; cbn; try reflexivity. rewrite IH. reflexivity. Qed.
(** a table whose buckets are within the load, and a full one *)
Definition good (h : hb Z) : Prop :=
  hwf h /\ (exists al, hb_algo h = Some al) /\ Forall (fun b => length (mv_items b) <= hb_maxload h)%nat (hb_buckets h).
Definition full (h : hb Z) : Prop :=
  hwf h /\ (exists al, hb_algo h = Some al) /\ (0 < hb_k h)%nat /\ Forall (fun b => length (mv_items b) = hb_maxload h) (hb_buckets h).

Lemma new_good k ml al h : algo_valid al -> new_hb k ml (Some al) = Ok h -> good h.
Proof.
  intros V E. destruct (new_hb_ok k ml (Some al) V) as [h0 [E0 [W [K [M [A B]]]]]]. rewrite E in E0. apply Ok_inj in E0. subst h0.
  split; [exact W|]. split; [eauto|]. rewrite B. apply Forall_forall. intros b Hb. apply repeat_spec in Hb. subst b. cbn. lia.
Qed.
Lemma add_pos h e h1 : good h -> hb_add h e = Ok h1 -> (0 < hb_k h)%nat.
Proof.
  intros [W [[al A] F]] E. destruct (Nat.eq_dec (hb_k h) 0) as [K|K]; [|lia]. exfalso.
  pose proof W as [_ [_ WA]]. rewrite A in WA. unfold hb_add in E. rewrite A in E. destruct (hb_strint h) as [s|]; [|contradiction].
  inv_bind E. inv_bind E. unfold StrIntModel.rem in Hb0. rewrite K in Hb0. discriminate.
Qed.
Lemma add_good h e h1 : good h -> hb_add h e = Ok h1 -> good h1.
Proof.
  intros G E. pose proof (add_pos h e h1 G E) as K. destruct G as [W [[al A] F]].
  destruct (hb_add_wf h e h1 W E) as [W1 [K1 [M1 A1]]]. split; [exact W1|]. split; [exists al; congruence|].
  destruct (hb_add_spec h al e W A K) as [b [s1 [Eb [_ [_ EA]]]]]. cbv zeta in *. rewrite EA in E.
  rewrite M1. destruct (Nat.eqb_spec (length (mv_items b)) (hb_maxload h)) as [|NE]; [discriminate|].
  apply Ok_inj in E. subst h1. cbn [hb_buckets]. rewrite Forall_forall in F |- *. intros x Hx.
  apply In_nth_error in Hx. destruct Hx as [j Hj].
  assert (Hlt : (index_of al (hb_k h) e < length (hb_buckets h))%nat) by (apply nth_error_Some; congruence).
  destruct (Nat.eq_dec j (index_of al (hb_k h) e)) as [->|NJ].
  - rewrite upd_nth_same in Hj by exact Hlt. injection Hj as <-. cbn [mv_items]. rewrite app_length. cbn [length].
    pose proof (F b (nth_error_In _ _ Eb)). lia.
  - rewrite upd_nth_other in Hj by congruence. apply F. eapply nth_error_In. exact Hj.
Qed.
Lemma full_add h e : full h -> hb_add h e = Exit 1.
Proof.
  intros [W [[al A] [K F]]]. destruct (hb_add_spec h al e W A K) as [b [s1 [Eb [_ [_ EA]]]]]. cbv zeta in *. rewrite EA.
  rewrite Forall_forall in F. rewrite (F b (nth_error_In _ _ Eb)), Nat.eqb_refl. reflexivity.
Qed.

Section P.
Variable sha : list Z -> list Z.
Variable rand : nat -> Z.
Variable fuel : nat.
Variable p : Z.
Variable hw : nat.
#[local] Notation step := (pstep sha rand fuel p hw).
#[local] Notation run := (prun sha rand fuel p hw).
#[local] Notation bl := (blind sha rand fuel p hw).

(** the elements blind() adds *)
Definition filling (c : core) (raw : list Z) (n : nat) (bits : Z) (h : hb Z) : res (hb Z) :=
  for_up n 0 (fun i h => do z <- aget raw i; do pad <- padSize (co_fbits c) (Some bits); hb_add h (zeroPad z pad mod p)) h.
Lemma filling_good c raw bits : forall n i0 h h1, good h ->
  for_up n i0 (fun i h => do z <- aget raw i; do pad <- padSize (co_fbits c) (Some bits); hb_add h (zeroPad z pad mod p)) h = Ok h1 ->
  good h1 /\ ((0 < n)%nat -> (0 < hb_k h1)%nat).
Proof.
  induction n as [|n IH]; intros i0 h h1 G E; cbn [for_up] in E.
  - apply Ok_inj in E. subst h1. split; [exact G|lia].
  - inv_bind E. inv_bind Hb. cbn [padSize bind] in Hb. pose proof (add_pos _ _ _ G Hb) as K. pose proof (add_good _ _ _ G Hb) as G1.
    destruct (hb_add_wf _ _ _ (proj1 G) Hb) as [_ [K1 _]].
    destruct (IH _ _ _ G1 E) as [G2 P]. split; [exact G2|]. intros _. destruct n as [|n]; [cbn [for_up] in E; apply Ok_inj in E; subst; lia|apply P; lia].
Qed.
Lemma blind_full c secret raw n bits h zp nt c1 h1 zp1 m : good h -> (0 < n)%nat ->
  bl c secret raw n (Some bits) h zp nt = Ok (c1, h1, zp1, m) -> full h1.
Proof.
  intros G N E. unfold blind in E. inv_bind E. apply filling_good in Hb; [|exact G]. destruct Hb as [[W [[al A] F]] K].
  inv_bind E. destruct a0 as [h2 g]. destruct (conceal_spec (conceal_gen sha rand fuel p) a (Ok zp) W F) as [h' [fl [EC [_ [[K2 [M2 [A2 [_ [_ L2]]]]] B]]]]].
  cbv zeta in *. rewrite EC in Hb. apply Ok_inj in Hb. injection Hb as -> <-.
  assert (FH : full h2).
  { split; [eapply conceal_wf; [exact W|exact EC]|]. split; [exists al; congruence|]. split; [specialize (K N); lia|].
    apply Forall_forall. intros b Hb. apply In_nth_error in Hb. destruct Hb as [j Hj].
    assert (Hlt : (j < length (hb_buckets a))%nat) by (destruct W as [WL _]; rewrite WL, <- L2; apply nth_error_Some; congruence).
    destruct (nth_error (hb_buckets a) j) as [b0|] eqn:E0; [|apply nth_error_None in E0; lia].
    destruct (B j b0 E0) as [b' [f [Eb [_ [_ [Ln _]]]]]]. rewrite Hj in Eb. injection Eb as <-. congruence. }
  inv_bind E. inv_bind E. inv_bind E. destruct a2 as [c1' us]. inv_bind E. inv_bind E. destruct a3 as [[? ?] ?].
  apply Ok_inj in E. injection E as <- <- <- <-. exact FH.
Qed.
Lemma blind_on_full c secret v raw n bits h zp nt : full h -> (0 < n)%nat ->
  bl c secret (v :: raw) n (Some bits) h zp nt = Exit 1.
Proof.
  intros F N. unfold blind. destruct n as [|n]; [lia|]. cbn [for_up aget nth_error bind padSize]. rewrite full_add by exact F. reflexivity.
Qed.
Lemma blind_on_full_not_ok c secret raw n bits h zp nt x : full h -> (0 < n)%nat -> bl c secret raw n (Some bits) h zp nt <> Ok x.
Proof.
  intros F N E. destruct raw as [|v raw]; [|rewrite blind_on_full in E by assumption; discriminate].
  unfold blind in E. destruct n as [|n]; [lia|]. cbn [for_up aget nth_error bind] in E. discriminate.
Qed.

(** *** steps of a program *)
Definition within (t : nat) (s : pool) : Prop := forall h, nth_error (po_tables s) t = Some h -> good h.
Ltac upd_cases H t t' :=
  destruct (Nat.eq_dec t' t) as [?|?];
  [subst; rewrite upd_nth_same in H by (apply nth_error_Some; congruence); injection H as <-
  |rewrite upd_nth_other in H by congruence].
Lemma the_table_inv s t h : the_table s t = Ok h -> nth_error (po_tables s) t = Some h.
Proof. unfold the_table. destruct (nth_error (po_tables s) t); [|discriminate]. intros E. apply Ok_inj in E. congruence. Qed.
Lemma the_member_inv s t h : the_member s t = Ok h -> nth_error (po_members s) t = Some h.
Proof. unfold the_member. destruct (nth_error (po_members s) t); [|discriminate]. intros E. apply Ok_inj in E. congruence. Qed.

Lemma step_within t s c s1 : usable c -> spares t c -> within t s -> step s c = Ok s1 -> within t s1.
Proof.
  intros U Sp I E h H. destruct c as [k ml al|t' e|t' e j|t' f L hh D sec|i x|i d|i f|i raw n b nt|i c z]; cbn [pstep] in E.
  - inv_bind E. apply Ok_inj in E. subst s1. cbn [po_tables] in H.
    destruct (Nat.lt_ge_cases t (length (po_tables s))) as [Hlt|Hge].
    + rewrite nth_error_app1 in H by exact Hlt. apply I. exact H.
    + rewrite nth_error_app2 in H by exact Hge. destruct (t - length (po_tables s))%nat as [|q]; [|destruct q; discriminate].
      cbn in H. injection H as <-. eapply new_good; [exact U|exact Hb].
  - inv_bind E. inv_bind E. apply Ok_inj in E. subst s1. cbn [put_table po_tables] in H. apply the_table_inv in Hb.
    upd_cases H t t'; [|apply I; exact H]. eapply add_good; [|exact Hb0]. apply I. exact Hb.
  - inv_bind E. inv_bind E. apply Ok_inj in E. subst s1. cbn [put_table po_tables] in H. cbn in Sp.
    rewrite upd_nth_other in H by congruence. apply I. exact H.
  - inv_bind E. apply Ok_inj in E. subst s1. apply I. exact H.
  - inv_bind E. apply Ok_inj in E. subst s1. apply I. exact H.
  - inv_bind E. apply Ok_inj in E. subst s1. apply I. exact H.
  - inv_bind E. apply Ok_inj in E. subst s1. apply I. exact H.
  - inv_bind E. destruct raw as [raw|]; [|apply Ok_inj in E; subst; apply I; exact H].
    destruct n as [|n]; [apply Ok_inj in E; subst; apply I; exact H|].
    inv_bind E. inv_bind E. destruct a1 as [[[c1 h1] zp1] m1]. apply Ok_inj in E. subst s1. cbn [po_tables] in H. apply the_table_inv in Hb0.
    upd_cases H t (me_table a); [|apply I; exact H].
    assert (FU : full h1) by (eapply blind_full; [|apply Nat.lt_0_succ|exact Hb1]; apply I; exact Hb0).
    destruct FU as [W [A [_ F]]]. split; [exact W|]. split; [exact A|]. eapply Forall_impl; [|exact F]. cbn. intros; lia.
  - inv_bind E. apply Ok_inj in E. subst s1. apply I. exact H.
Qed.
Lemma run_within t l : forall s s1, Forall usable l -> Forall (spares t) l -> within t s -> run s l = Ok s1 -> within t s1.
Proof.
  induction l as [|c l IH]; intros s s1 U Sp I E; cbn [prun] in E; [apply Ok_inj in E; subst; exact I|].
  apply Forall_cons_iff in U, Sp. destruct U as [U1 U2], Sp as [S1 S2].
  inv_bind E. eapply IH; [exact U2|exact S2| |exact E]. eapply step_within; [exact U1|exact S1|exact I|exact Hb].
Qed.

Lemma step_full t s c s1 h : spares t c -> nth_error (po_tables s) t = Some h -> full h -> step s c = Ok s1 ->
  nth_error (po_tables s1) t = Some h.
Proof.
  intros Sp N F E. destruct c as [k ml al|t' e|t' e j|t' f L hh D sec|i x|i d|i f|i raw n b nt|i c z]; cbn [pstep] in E.
  - inv_bind E. apply Ok_inj in E. subst s1. cbn [po_tables]. rewrite nth_error_app1; [exact N|]. apply nth_error_Some. congruence.
  - inv_bind E. inv_bind E. apply Ok_inj in E. subst s1. cbn [put_table po_tables]. apply the_table_inv in Hb.
    destruct (Nat.eq_dec t' t) as [->|NE]; [|rewrite upd_nth_other by congruence; exact N].
    rewrite N in Hb. injection Hb as <-. rewrite full_add in Hb0 by exact F. discriminate.
  - inv_bind E. inv_bind E. apply Ok_inj in E. subst s1. cbn [put_table po_tables]. cbn in Sp. rewrite upd_nth_other by congruence. exact N.
  - inv_bind E. apply Ok_inj in E. subst s1. exact N.
  - inv_bind E. apply Ok_inj in E. subst s1. exact N.
  - inv_bind E. apply Ok_inj in E. subst s1. exact N.
  - inv_bind E. apply Ok_inj in E. subst s1. exact N.
  - inv_bind E. destruct raw as [raw|]; [|apply Ok_inj in E; subst; exact N].
    destruct n as [|n]; [apply Ok_inj in E; subst; exact N|].
    inv_bind E. inv_bind E. destruct a1 as [[[c1 h1] zp1] m1]. apply Ok_inj in E. subst s1. cbn [po_tables]. apply the_table_inv in Hb0.
    destruct (Nat.eq_dec (me_table a) t) as [ET|NE]; [|rewrite upd_nth_other by congruence; exact N].
    rewrite ET, N in Hb0. injection Hb0 as <-. exfalso. eapply blind_on_full_not_ok; [exact F|apply Nat.lt_0_succ|exact Hb1].
  - inv_bind E. apply Ok_inj in E. subst s1. exact N.
Qed.
Lemma run_full t h l : forall s s1, Forall (spares t) l -> nth_error (po_tables s) t = Some h -> full h -> run s l = Ok s1 ->
  nth_error (po_tables s1) t = Some h.
Proof.
  induction l as [|c l IH]; intros s s1 Sp N F E; cbn [prun] in E; [apply Ok_inj in E; subst; exact N|].
  apply Forall_cons_iff in Sp. destruct Sp as [S1 S2]. inv_bind E. eapply IH; [exact S2| |exact F|exact E].
  eapply step_full; [exact S1|exact N|exact F|exact Hb].
Qed.

Lemma one_data_set_l pos t l1 s1 i raw n b nt s2 l2 s3 :
  Forall usable (l1 ++ l2) -> Forall (spares t) (l1 ++ l2) ->
  run (no_objects pos) l1 = Ok s1 -> refers s1 i t -> (0 < n)%nat ->
  step s1 (Load i (Some raw) n b nt) = Ok s2 ->
  run s2 l2 = Ok s3 ->
  nth_error (po_tables s3) t = nth_error (po_tables s2) t /\
  (forall e, step s3 (TableAdd t e) = Exit 1) /\
  (forall i' v raw' n' b' nt', refers s3 i' t -> (0 < n')%nat -> step s3 (Load i' (Some (v :: raw')) n' b' nt') = Exit 1).
Proof.
  intros U Sp E1 [m [Hm Ht]] N E2 E3. apply Forall_app in U, Sp. destruct U as [U1 U2], Sp as [S1 S2].
  assert (I : within t s1).
  { eapply run_within; [exact U1|exact S1| |exact E1]. intros h H. destruct t; discriminate. }
  cbn [pstep] in E2. unfold the_member in E2. rewrite Hm in E2. cbn [bind] in E2. destruct n as [|n]; [lia|].
  inv_bind E2. inv_bind E2. destruct a0 as [[[c1 h1] zp1] m1]. apply Ok_inj in E2. apply the_table_inv in Hb. rewrite Ht in Hb.
  assert (F : full h1) by (eapply blind_full; [apply I; exact Hb|apply Nat.lt_0_succ|exact Hb0]).
  assert (N2 : nth_error (po_tables s2) t = Some h1).
  { subst s2. cbn [po_tables]. rewrite Ht. apply upd_nth_same. apply nth_error_Some. congruence. }
  pose proof (run_full t h1 l2 s2 s3 S2 N2 F E3) as N3. split; [congruence|]. split.
  - intros e. cbn [pstep]. unfold the_table. rewrite N3. cbn [bind]. rewrite full_add by exact F. reflexivity.
  - intros i' v raw' n' b' nt' [m' [Hm' Ht']] N'. cbn [pstep]. unfold the_member. rewrite Hm'. cbn [bind]. destruct n' as [|n']; [lia|].
    unfold the_table. rewrite Ht', N3. cbn [bind]. rewrite blind_on_full by (exact F || lia). reflexivity.
Qed.

(** *** which table a client refers to *)
Lemma map_upd {A B} (f : A -> B) (l : list A) : forall i v x, nth_error l i = Some x -> f v = f x -> map f (upd l i v) = map f l.
Proof. induction l as [|a l IH]; intros [|i] v x H E; cbn in *; try discriminate; [congruence|f_equal; eapply IH; eassumption]. Qed.
Lemma step_tables s c s1 : step s c = Ok s1 ->
  map me_table (po_members s1) = map me_table (po_members s) ++ constructed_with [c].
Proof.
  intros E. destruct c as [k ml al|t' e|t' e j|t' f L hh D sec|i x|i d|i f|i raw n b nt|i c z]; cbn [pstep] in E; unfold constructed_with; cbn [flat_map app]; rewrite ?app_nil_r.
  - inv_bind E. apply Ok_inj in E. subst s1. reflexivity.
  - inv_bind E. inv_bind E. apply Ok_inj in E. subst s1. reflexivity.
  - inv_bind E. inv_bind E. apply Ok_inj in E. subst s1. reflexivity.
  - inv_bind E. apply Ok_inj in E. subst s1. cbn [po_members]. rewrite map_app. reflexivity.
  - inv_bind E. apply Ok_inj in E. subst s1. eapply map_upd; [apply the_member_inv; exact Hb|reflexivity].
  - inv_bind E. apply Ok_inj in E. subst s1. eapply map_upd; [apply the_member_inv; exact Hb|reflexivity].
  - inv_bind E. apply Ok_inj in E. subst s1. eapply map_upd; [apply the_member_inv; exact Hb|reflexivity].
  - inv_bind E. destruct raw as [raw|]; [|apply Ok_inj in E; subst; reflexivity].
    destruct n as [|n]; [apply Ok_inj in E; subst; reflexivity|].
    inv_bind E. inv_bind E. destruct a1 as [[[c1 h1] zp1] m1]. apply Ok_inj in E. subst s1. cbn [po_members].
    eapply map_upd; [apply the_member_inv; exact Hb|reflexivity].
  - inv_bind E. apply Ok_inj in E. subst s1. eapply map_upd; [apply the_member_inv; exact Hb|reflexivity].
Qed.
Lemma run_tables l : forall s s1, run s l = Ok s1 -> map me_table (po_members s1) = map me_table (po_members s) ++ constructed_with l.
Proof.
  induction l as [|c l IH]; intros s s1 E; cbn [prun] in E; [apply Ok_inj in E; subst; cbn; rewrite app_nil_r; reflexivity|].
  inv_bind E. rewrite (IH _ _ E), (step_tables _ _ _ Hb), <- app_assoc. unfold constructed_with. cbn [flat_map]. rewrite app_nil_r. reflexivity.
Qed.
Lemma refers_l pos l s i t : run (no_objects pos) l = Ok s -> (refers s i t <-> nth_error (constructed_with l) i = Some t).
Proof.
  intros E. apply run_tables in E. cbn [no_objects po_members map app] in E. rewrite <- E, nth_error_map. unfold refers.
  destruct (nth_error (po_members s) i) as [m|]; cbn [option_map]; split.
  - intros [m' [H1 H2]]. congruence.
  - intros H. exists m. split; congruence.
  - intros [m' [H1 H2]]. congruence.
  - discriminate.
Qed.

(** *** elements put into the table before *)
Lemma for_up_app {S} (f : nat -> S -> res S) : forall a b i s, for_up (a + b) i f s = do s1 <- for_up a i f s; for_up b (i + a) f s1.
Proof.
  induction a as [|a IH]; intros b i s; cbn [Nat.add for_up].
  - cbn [bind]. rewrite Nat.add_0_r. reflexivity.
  - destruct (f i s); cbn [bind]; try reflexivity. rewrite IH, Nat.add_succ_r. reflexivity.
Qed.
Definition add_all (h : hb Z) (l : list Z) : res (hb Z) := fold_left (fun r e => do h <- r; hb_add h e) l (Ok h).
Lemma fold_stuck l (r : res (hb Z)) : (forall h, r <> Ok h) -> fold_left (fun r e => do h <- r; hb_add h e) l r = r.
Proof.
  revert r. induction l as [|e l IH]; intros r H; cbn [fold_left]; [reflexivity|].
  assert (X : (do h <- r; hb_add h e) = r) by (destruct r; cbn; [exfalso; eapply H; reflexivity|reflexivity..]). rewrite X. apply IH. exact H.
Qed.
Lemma filling_add_all c bits : forall pre suf i0 whole skip h, whole = skip ++ pre ++ suf -> length skip = i0 ->
  for_up (length pre) i0 (fun i h => do z <- aget whole i; do pad <- padSize (co_fbits c) (Some bits); hb_add h (zeroPad z pad mod p)) h =
  add_all h (map (fun v => zeroPad v (w64 (co_fbits c - bits - 1)) mod p) pre).
Proof.
  induction pre as [|v pre IH]; intros suf i0 whole skip h EW LS; [reflexivity|].
  cbn [length for_up]. assert (A : aget whole i0 = Ok v).
  { unfold aget. rewrite EW, nth_error_app2 by lia. rewrite LS, Nat.sub_diag. reflexivity. }
  rewrite A. cbn [bind padSize]. unfold add_all. cbn [map fold_left bind].
  destruct (hb_add h (zeroPad v (w64 (co_fbits c - bits - 1)) mod p)) as [h1| | | |] eqn:EH; cbn [bind].
  2-5: symmetry; apply fold_stuck; intros ?; discriminate.
  apply (IH suf (S i0) whole (skip ++ [v]) h1); [rewrite EW, <- app_assoc; reflexivity|rewrite app_length; cbn [length]; lia].
Qed.
Lemma run_adds t : forall l s h, nth_error (po_tables s) t = Some h ->
  run s (map (TableAdd t) l) = do h1 <- add_all h l; Ok (put_table s t h1).
Proof.
  induction l as [|e l IH]; intros s h N.
  - cbn. unfold put_table. rewrite upd_id by exact N. destruct s; reflexivity.
  - cbn [map prun pstep]. unfold the_table. rewrite N. cbn [bind]. unfold add_all. cbn [fold_left bind].
    destruct (hb_add h e) as [h1| | | |] eqn:EH; cbn [bind].
    2-5: rewrite fold_stuck by (intros ?; discriminate); reflexivity.
    assert (L : (t < length (po_tables s))%nat) by (apply nth_error_Some; congruence).
    rewrite (IH (put_table s t h1) h1) by (cbn [put_table po_tables]; apply upd_nth_same; exact L).
    change (fold_left (fun r e0 => do h0 <- r; hb_add h0 e0) l (Ok h1)) with (add_all h1 l).
    destruct (add_all h1 l); cbn [bind]; try reflexivity. unfold put_table. cbn [po_tables po_members po_rand]. rewrite upd_upd. reflexivity.
Qed.
Lemma run_app l : forall s l', run s (l ++ l') = do s1 <- run s l; run s1 l'.
Proof.
  induction l as [|c l IH]; intros s l'; cbn [app prun bind]; [reflexivity|]. destruct (step s c); cbn [bind]; [apply IH|reflexivity..].
Qed.
Lemma blind_split c secret pre raw bits h zp nt :
  bl c secret (pre ++ raw) (length (pre ++ raw)) (Some bits) h zp nt =
  do h1 <- add_all h (map (fun v => zeroPad v (w64 (co_fbits c - bits - 1)) mod p) pre);
  bl c secret raw (length raw) (Some bits) h1 zp nt.
Proof.
  unfold blind. rewrite app_length, for_up_app.
  rewrite (filling_add_all c bits pre raw 0 (pre ++ raw) [] h eq_refl eq_refl).
  destruct (add_all h _) as [h1| | | |]; cbn [bind]; try reflexivity.
  replace (for_up (length raw) (0 + length pre)
      (fun i h0 => do z <- aget (pre ++ raw) i; do pad <- padSize (co_fbits c) (Some bits); hb_add h0 (zeroPad z pad mod p)) h1)
    with (add_all h1 (map (fun v => zeroPad v (w64 (co_fbits c - bits - 1)) mod p) raw)).
  2: { symmetry. apply (filling_add_all c bits raw [] (0 + length pre) (pre ++ raw) pre h1); [rewrite app_nil_r; reflexivity|reflexivity]. }
  rewrite <- (filling_add_all c bits raw [] 0 raw [] h1) by (cbn [app length]; rewrite ?app_nil_r; reflexivity). reflexivity.
Qed.
Lemma prefilled_l s i m pre raw bits nt : nth_error (po_members s) i = Some m -> (exists h, nth_error (po_tables s) (me_table m) = Some h) -> raw <> [] ->
  0 <= co_fbits (me_core m) - bits - 1 < 2 ^ 63 ->
  run s (map (fun v => TableAdd (me_table m) ((v * 2 ^ (co_fbits (me_core m) - bits - 1)) mod p)) pre ++ [Load i (Some raw) (length raw) bits nt]) =
  run s [Load i (Some (pre ++ raw)) (length (pre ++ raw)) bits nt].
Proof.
  intros Hm [h Hh] NR PB. set (t := me_table m) in *.
  assert (EM : map (fun v => TableAdd t ((v * 2 ^ (co_fbits (me_core m) - bits - 1)) mod p)) pre =
    map (TableAdd t) (map (fun v => zeroPad v (w64 (co_fbits (me_core m) - bits - 1)) mod p) pre)).
  { rewrite map_map. apply map_ext. intros v. rewrite (w64_small (co_fbits (me_core m) - bits - 1)) by (unfold M64; lia). rewrite zeroPad_mul_l by lia. reflexivity. }
  rewrite EM, run_app, (run_adds t _ s h Hh). cbn [prun pstep]. unfold the_member at 2. rewrite Hm. cbn [bind].
  assert (LL : exists q, length (pre ++ raw) = S q) by (rewrite app_length; destruct raw; [congruence|cbn [length]; exists (length pre + length raw)%nat; lia]).
  assert (LR : exists q, length raw = S q) by (destruct raw; [congruence|cbn [length]; eauto]).
  destruct LL as [ql EL], LR as [qr ER].
  assert (MT : match length (pre ++ raw) with O => Ok s | S _ =>
      do h0 <- the_table s t;
      do (core1, h1, zp1, bl0) <- bl (me_core m) (me_secret m) (pre ++ raw) (length (pre ++ raw)) (Some bits) h0 (at_rand (me_zp m) (po_rand s)) nt;
      Ok (mkPool (upd (po_tables s) t h1) (upd (po_members s) i (mkMember t core1 (me_secret m) zp1 (Some bl0))) (p_pos (zp_prf zp1))) end =
      do h0 <- the_table s t;
      do (core1, h1, zp1, bl0) <- bl (me_core m) (me_secret m) (pre ++ raw) (length (pre ++ raw)) (Some bits) h0 (at_rand (me_zp m) (po_rand s)) nt;
      Ok (mkPool (upd (po_tables s) t h1) (upd (po_members s) i (mkMember t core1 (me_secret m) zp1 (Some bl0))) (p_pos (zp_prf zp1)))).
  { rewrite EL. reflexivity. }
  fold t. rewrite MT. unfold the_table. rewrite Hh. cbn [bind]. rewrite blind_split.
  destruct (add_all h _) as [h1| | | |]; cbn [bind]; try reflexivity.
  unfold the_member. cbn [put_table po_members po_tables po_rand]. rewrite Hm. cbn [bind]. fold t.
  rewrite upd_nth_same by (apply nth_error_Some; congruence). cbn [bind].
  rewrite ER at 1. destruct (bl _ _ raw _ _ h1 _ _) as [[[[c1 h2] zp1] mm]| | | |]; cbn [bind]; try reflexivity. rewrite upd_upd. reflexivity.
Qed.
End P.
