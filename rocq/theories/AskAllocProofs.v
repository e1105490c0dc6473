(** Proofs about one intersection when memory runs out. *)
From Verif Require Import Base Lib HashBucketsModel PRFModel PolyModel EopsiModel AllocModel AllocSpec AskAllocModel AskAllocSpec.
From Coq Require Import Lia.

Section G.
Variable ok : nat -> bool.

(** [o] does what [r] does with [n] requests, after which [d] more arrays are there *)
Definition G {A} (m : mem) (o : out A unit) (n : nat) (d : Z) (r : res A) : Prop :=
  (exists e, o = Stop e /\ ((e = Exit 2 /\ failed ok (m_tries m) (m_tries m + n)) \/ ends r e)) \/
  (exists a, r = Ok a /\ ~ failed ok (m_tries m) (m_tries m + n) /\ o = Done (mkMem (m_tries m + n) (m_live m + d)) a).

Lemma G_done {A} m k (a : A) : G m (Done (freed m k) a) 0 (- k) (Ok a).
Proof.
  right. exists a. split; [reflexivity|]. split; [intros [j [H _]]; lia|]. unfold freed. f_equal. f_equal; lia.
Qed.
Lemma G_done0 {A} m (a : A) : G m (Done m a) 0 0 (Ok a).
Proof. right. exists a. split; [reflexivity|]. split; [intros [j [H _]]; lia|]. destruct m as [x y]. cbn. f_equal. f_equal; lia. Qed.
Lemma G_done2 {A} m j k d (a : A) : d = - j - k -> G m (Done (freed (freed m j) k) a) 0 d (Ok a).
Proof.
  intros ->. right. exists a. split; [reflexivity|]. split; [intros [i [H _]]; lia|]. unfold freed. cbn [m_tries m_live]. f_equal. f_equal; lia.
Qed.
Lemma failed_wide a b n n' : (a <= b)%nat -> (b + n' <= a + n)%nat -> failed ok b (b + n') -> failed ok a (a + n).
Proof. intros H1 H2 [j [J K]]. exists j. split; [lia|exact K]. Qed.
Lemma G_guard {A} m f n d (r : res A) : G (tried m 1) (f (tried m 1)) n d r -> G m (guarded ok m f) (S n) (1 + d) r.
Proof.
  intros H. unfold guarded. destruct (ok (m_tries m)) eqn:E.
  - destruct H as [[e [E1 [[E2 F]|E2]]]|[a [E1 [F E2]]]].
    + left. exists e. split; [exact E1|]. left. split; [exact E2|]. cbn [tried m_tries] in F. eapply failed_wide; [| |exact F]; lia.
    + left. exists e. split; [exact E1|]. right. exact E2.
    + right. exists a. split; [exact E1|]. split.
      * intros [j [J K]]. destruct (Nat.eq_dec j (m_tries m)) as [->|N]; [congruence|]. apply F. exists j. cbn [tried m_tries]. split; [lia|exact K].
      * rewrite E2. cbn [tried m_tries m_live]. f_equal. f_equal; lia.
  - left. exists (Exit 2). split; [reflexivity|]. left. split; [reflexivity|]. exists (m_tries m). split; [lia|exact E].
Qed.
Lemma G_res {A B} m (r : res A) (f : A -> out B unit) g n d : (forall a, r = Ok a -> G m (f a) n d (g a)) -> G m (run_res r f) n d (bind r g).
Proof.
  intros H. destruct r as [a|c|w| |]; cbn [run_res bind]; [apply H; reflexivity|..]; left; eexists; (split; [reflexivity|]); right; cbn; auto.
Qed.
Lemma ends_bind {A B} (r : res A) (g : A -> res B) e : ends r e -> ends (bind r g) e.
Proof. destruct r; cbn; tauto. Qed.
Lemma G_bind {A B} m (o : out A unit) n d (r : res A) (f : mem -> A -> out B unit) g n' d' :
  G m o n d r ->
  (forall a, r = Ok a -> G (mkMem (m_tries m + n) (m_live m + d)) (f (mkMem (m_tries m + n) (m_live m + d)) a) n' d' (g a)) ->
  G m (match o with Done m1 a => f m1 a | Thrown m1 x e => Thrown m1 x e | Stop s => Stop s end) (n + n') (d + d') (bind r g).
Proof.
  intros [[e [-> H]]|[a [-> [F ->]]]] K.
  - left. exists e. split; [reflexivity|]. destruct H as [[E F]|H]; [left|right; apply ends_bind; exact H].
    split; [exact E|]. eapply failed_wide; [| |exact F]; lia.
  - cbn [bind]. specialize (K a eq_refl). destruct K as [[e [E H]]|[b [E [F2 E2]]]].
    + left. exists e. split; [exact E|]. destruct H as [[E3 F3]|H]; [left|right; exact H]. split; [exact E3|].
      cbn [m_tries] in F3. eapply failed_wide; [| |exact F3]; lia.
    + right. exists b. split; [exact E|]. cbn [m_tries m_live] in *. split.
      * intros [j [J K]]. destruct (Nat.lt_ge_cases j (m_tries m + n)); [apply F; exists j; split; [lia|exact K]|apply F2; exists j; split; [lia|exact K]].
      * rewrite E2. f_equal. f_equal; lia.
Qed.
Lemma G_free {A} m k (o : out A unit) n d r : G (freed m k) o n d r -> G m o n (d - k) r.
Proof.
  intros [[e [-> H]]|[a [-> [F ->]]]]; [left; exists e; split; [reflexivity|exact H]|right]. exists a. split; [reflexivity|].
  split; [exact F|]. cbn [freed m_tries m_live]. f_equal. f_equal; lia.
Qed.
Lemma G_eq {A} m (o : out A unit) n d r n' d' r' : G m o n d r -> n = n' -> d = d' -> r = r' -> G m o n' d' r'.
Proof. intros H -> -> ->. exact H. Qed.

Section E.
Variable sha : list Z -> list Z.
Variable rand : nat -> Z.
Variable fuel : nat.
Variable p : Z.
Variables canzass berlekamp : nat -> list Z -> list (list Z * Z).

Lemma bind_ret {A} (r : res A) : bind r (fun a => Ok a) = r.
Proof. destruct r; reflexivity. Qed.

Lemma G_compute m c key A B : G m (a_computeTOrQ sha rand fuel p ok m c key A B) 1 1 (computeTOrQ sha rand fuel p c key A B).
Proof.
  unfold a_computeTOrQ. eapply G_eq; [apply G_guard; apply G_res; intros a _; apply G_done0|lia|lia|apply bind_ret].
Qed.

Lemma delegation_eq c zp s o key : delegationOutput sha rand fuel p c zp s o key =
  do (zp1, dA, dB) <- delegation_masks sha rand fuel p c s o zp;
  do (c1, q) <- computeTOrQ sha rand fuel p c key (entry dA) (entry dB); Ok (c1, zp1, q).
Proof.
  unfold delegationOutput, delegation_masks. match goal with |- bind ?x _ = _ => destruct x as [[[[zp1 i] dA] dB]| | | |] end; reflexivity.
Qed.

Lemma G_delegation m c zp s o key : G m (a_delegationOutput sha rand fuel p ok m c zp s o key) 3 1 (delegationOutput sha rand fuel p c zp s o key).
Proof.
  rewrite delegation_eq. unfold a_delegationOutput.
  eapply G_eq; [apply G_guard; apply G_guard; apply G_res with (n := 1%nat) (d := -1)|lia|lia|reflexivity].
  intros [[zp1 dA] dB] _. eapply G_eq; [eapply G_bind with (d' := -2) (n' := 0%nat); [apply G_compute|]|lia|lia|reflexivity].
  intros [c1 q] _. apply (G_done _ 2).
Qed.

Lemma G_find m k0 pad us diff n : G m (a_findIntersection p canzass berlekamp ok m k0 pad us diff n) (if Nat.eqb n 0 then 0 else 2) (if Nat.eqb n 0 then 0 else 2)
  (do (_, vs) <- findIntersection p canzass berlekamp k0 (new_polys pad) us diff n PFA_CANZASS; Ok vs).
Proof.
  unfold a_findIntersection. destruct (Nat.eqb n 0).
  - apply G_res. intros [o vs] _. apply G_done0.
  - eapply G_eq; [apply G_guard; apply G_guard; apply G_res with (n := 0%nat) (d := 0)|lia|lia|reflexivity]. intros [o vs] _. apply G_done0.
Qed.

Definition asks (c : core) : nat := if Nat.eqb (co_length c) 0 then 1 else 3.
Lemma G_intersect m c bits t q k0 : G m (a_intersect sha rand fuel p canzass berlekamp ok m c bits (Some t) (Some q) k0) (asks c) 0
  (intersect sha rand fuel p canzass berlekamp c bits (Some t) (Some q) k0).
Proof.
  unfold a_intersect, intersect. apply G_res. intros pad _.
  eapply G_eq; [apply G_guard with (n := (asks c - 1)%nat) (d := -1); apply G_res|unfold asks; destruct (Nat.eqb _ 0); reflexivity|lia|reflexivity].
  intros diff _. apply G_res. intros [c1 us] _.
  pose proof (fun m => G_find m k0 pad us diff (co_length c)) as F.
  match goal with |- G ?m0 _ _ _ _ => set (mm := m0) end.
  eapply G_eq; [eapply G_bind with (g := fun vs => Ok (Some (c1, vs))) (n' := 0%nat) (d' := (-1 - (if Nat.eqb (co_length c) 0 then 0 else 2))); [apply F|]| | |].
  - intros vs _. apply G_done2; lia.
  - unfold asks. destruct (Nat.eqb _ 0); reflexivity.
  - destruct (Nat.eqb _ 0); lia.
  - destruct (findIntersection _ _ _ _ _ _ _ _ _) as [[o vs]| | | |]; reflexivity.
Qed.

Lemma wait_eq m c b t k0 : a_intersect sha rand fuel p canzass berlekamp ok m c (Some b) (Some t) None k0 = Done m None.
Proof. reflexivity. Qed.
Lemma intersect_some c b t q k0 y : intersect sha rand fuel p canzass berlekamp c b (Some t) (Some q) k0 = Ok y -> exists z, y = Some z.
Proof.
  unfold intersect. intros H. apply bind_ok in H. destruct H as [pad [_ H]]. apply bind_ok in H. destruct H as [d [_ H]].
  apply bind_ok in H. destruct H as [[c1 us] [_ H]]. apply bind_ok in H. destruct H as [[x vs] [_ H]]. apply Ok_inj in H. eauto.
Qed.

Lemma arrays_asks r : arrays r = (6 + asks (rq_requester r))%nat.
Proof. unfold arrays, asks. destruct (Nat.eqb _ 0); reflexivity. Qed.
Lemma G_request m cS r : G m (a_request sha rand fuel p canzass berlekamp ok m cS r) (arrays r) 0 (answer sha rand fuel p canzass berlekamp cS r).
Proof.
  rewrite arrays_asks. unfold a_request, answer.
  eapply G_eq; [apply G_guard with (n := S (4 + asks (rq_requester r))) (d := -1); apply G_guard with (n := (4 + asks (rq_requester r))%nat) (d := -2)|lia|lia|reflexivity].
  set (m2 := tried (tried m 1) 1).
  match goal with |- G m2 (match ?o with _ => _ end) _ _ _ => assert (X : G m2 o 1 0 (computeTOrQ sha rand fuel p cS (rq_key r) (entry (rq_dataA r)) (entry (rq_dataB r)))) end.
  { eapply G_eq; [apply G_free; apply G_compute|lia|lia|reflexivity]. }
  eapply G_eq; [eapply G_bind with (n' := (3 + asks (rq_requester r))%nat) (d' := -2); [exact X|]|lia|lia|reflexivity].
  intros [cS1 t] _. rewrite wait_eq. set (m4 := mkMem _ _).
  match goal with |- G m4 (match ?o with _ => _ end) _ _ _ => assert (Y : G m4 o 3 0 (delegationOutput sha rand fuel p (rq_helper r) (rq_zp r) (rq_secretA r) (rq_secretB r) (rq_key r))) end.
  { eapply G_eq; [apply G_free; apply G_delegation|lia|lia|reflexivity]. }
  eapply G_eq; [eapply G_bind with (n' := asks (rq_requester r)) (d' := -2); [exact Y|]|lia|lia|reflexivity].
  intros [[cA1 zA1] q] _. set (m5 := mkMem _ _).
  eapply G_eq; [eapply G_bind with (n' := 0%nat) (d' := -2); [apply G_intersect|]|lia|lia|reflexivity].
  intros y Hy. destruct (intersect_some _ _ _ _ _ _ Hy) as [z ->]. apply (G_done _ 2).
Qed.

Lemma G_requests l : forall m cS, G m (a_requests sha rand fuel p canzass berlekamp ok m cS l) (arrays_all l) 0 (answers sha rand fuel p canzass berlekamp cS l).
Proof.
  induction l as [|r l IH]; intros m cS; [apply G_done0|]. cbn [a_requests answers].
  change (arrays_all (r :: l)) with (arrays r + arrays_all l)%nat.
  eapply G_eq; [eapply G_bind with (n' := arrays_all l) (d' := 0); [apply G_request|]|lia|lia|reflexivity].
  intros [[[cS1 cA1] zA1] y] _. set (m1 := mkMem _ _).
  eapply G_eq; [eapply G_bind with (n' := 0%nat) (d' := 0); [apply IH|]|lia|lia|reflexivity].
  intros [cS2 ys] _. apply G_done0.
Qed.

End E.

(** what [G] says about the outcome *)
Lemma G_out {A} m (o : out A unit) n r : G m o n 0 r ->
  (forall a, r = Ok a -> o = if forallb ok (seq (m_tries m) n) then Done (mkMem (m_tries m + n) (m_live m)) a else Stop (Exit 2)) /\
  (forall m1 a, o = Done m1 a -> r = Ok a /\ m1 = mkMem (m_tries m + n) (m_live m)) /\
  (forall m1 x e, o <> Thrown m1 x e) /\
  (forall e, o = Stop e -> (e = Exit 2 /\ failed ok (m_tries m) (m_tries m + n)) \/ ends r e).
Proof.
  assert (FB : forallb ok (seq (m_tries m) n) = true <-> ~ failed ok (m_tries m) (m_tries m + n)).
  { rewrite forallb_forall. split.
    - intros H [j [J K]]. rewrite H in K by (apply in_seq; lia). discriminate.
    - intros H j J. apply in_seq in J. destruct (ok j) eqn:E; [reflexivity|]. exfalso. apply H. exists j. split; [lia|exact E]. }
  intros [[e [-> H]]|[a [-> [F ->]]]].
  - split; [|split; [|split]]; try discriminate.
    + intros a ->. destruct H as [[-> F]|H]; [|destruct e; contradiction].
      destruct (forallb ok (seq (m_tries m) n)); [|reflexivity]. exfalso. exact (proj1 FB eq_refl F).
    + intros e' H'. injection H' as <-. exact H.
  - apply FB in F. split; [|split; [|split]]; try discriminate.
    + intros a' H. apply Ok_inj in H. subst a'. rewrite F. f_equal. f_equal; lia.
    + intros m1 a' H. injection H as <- <-. split; [reflexivity|f_equal; lia].
Qed.
End G.
