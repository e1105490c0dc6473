(** The functions of ConsoleModel compute what those of WorldModel compute, and
    what they write (for C129). *)
From Verif Require Import Base Lib NtlMiss StrIntModel HashBucketsModel PRFModel PolyModel EopsiModel WorldModel WorldSpec WorldProofs WorldFrame WorldRun WorldMore WorldSim ConsoleModel.
From Coq Require Import Lia.

(** *** the writer *)
Lemma snd_lbind {A B} (x : logged A) (f : A -> logged B) : snd (lbind x f) = (do a <- snd x; snd (f a)).
Proof. unfold lbind. destruct (snd x); reflexivity. Qed.
Lemma fst_lbind {A B} (x : logged A) (f : A -> logged B) : fst (lbind x f) = fst x ++ match snd x with Ok a => fst (f a) | _ => [] end.
Proof. unfold lbind. destruct (snd x); cbn [fst]; rewrite ?app_nil_r; reflexivity. Qed.
Lemma lb_ok {A B} (a : A) (f : A -> logged B) : lbind (quietly (Ok a)) f = f a.
Proof. unfold lbind, quietly. cbn [fst snd app]. symmetry. apply surjective_pairing. Qed.
Lemma lb_assoc {A B C} (x : logged A) (f : A -> logged B) (g : B -> logged C) : lbind (lbind x f) g = lbind x (fun a => lbind (f a) g).
Proof. unfold lbind. destruct (snd x) as [a| | | |]; cbn [fst snd]; try reflexivity. destruct (snd (f a)); cbn [fst snd]; rewrite ?app_assoc; reflexivity. Qed.
Lemma lb_ext {A B} (x : logged A) (f g : A -> logged B) : (forall a, snd x = Ok a -> f a = g a) -> lbind x f = lbind x g.
Proof. unfold lbind. intros H. destruct (snd x) eqn:E; try reflexivity. rewrite (H _ eq_refl). reflexivity. Qed.
Lemma lb_inv {A B} (x : logged A) (f : A -> logged B) l b : lbind x f = (l, Ok b) ->
  exists a l2, snd x = Ok a /\ f a = (l2, Ok b) /\ l = fst x ++ l2.
Proof.
  unfold lbind. destruct (snd x) as [a| | | |] eqn:E; intros H; injection H as H1 H2; try discriminate.
  exists a, (fst (f a)). split; [reflexivity|]. split; [rewrite <- H2; apply surjective_pairing|symmetry; exact H1].
Qed.
Lemma bind_ext {A B} (x : res A) (f g : A -> res B) : (forall a, x = Ok a -> f a = g a) -> bind x f = bind x g.
Proof. intros H. destruct x; cbn [bind]; auto. Qed.

Section R.
Variable sha : list Z -> list Z.
Variable rand : nat -> Z.
Variable fuel : nat.
Variable p : Z.
Variables canzass berlekamp : nat -> list Z -> list (list Z * Z).
Variable hw : nat.
Variable rbits : nat -> Z.
#[local] Notation receive := (receive sha rand fuel p canzass berlekamp rbits).
#[local] Notation receive_log := (receive_log sha rand fuel p canzass berlekamp rbits).
#[local] Notation try_intersect := (try_intersect sha rand fuel p canzass berlekamp).
#[local] Notation try_intersect_log := (try_intersect_log sha rand fuel p canzass berlekamp).
#[local] Notation client_receive_log := (client_receive_log sha rand fuel p canzass berlekamp rbits).
#[local] Notation server_receive_log := (server_receive_log sha rand fuel p).
#[local] Notation client_request_log := (client_request_log sha rand fuel p rbits).
#[local] Notation server_request_log := (server_request_log sha rand fuel p).
#[local] Notation client_reply_log := (client_reply_log sha rand fuel p).
#[local] Notation client_output_log := (client_output_log sha rand fuel p canzass berlekamp).
#[local] Notation client_polynomial_log := (client_polynomial_log sha rand fuel p canzass berlekamp).
#[local] Notation simulate := (simulate sha rand fuel p canzass berlekamp hw rbits).
#[local] Notation simulate_log := (simulate_log sha rand fuel p canzass berlekamp hw rbits).
#[local] Notation intersect := (intersect sha rand fuel p canzass berlekamp).
#[local] Notation computeTOrQ := (computeTOrQ sha rand fuel p).
#[local] Notation delegationOutput := (delegationOutput sha rand fuel p).

(** *** the same computation *)
Ltac peel := repeat (rewrite ?snd_lbind; cbn [snd quietly say bind]; try (apply bind_ext; intros ? ?)).
Definition same (rl : world -> nat -> nat -> delivery_log) (r : world -> nat -> nat -> delivery) : Prop := forall w a b, snd (rl w a b) = r w a b.
Lemma same_send rl r w to m : same rl r -> snd (send_with_log rl w to m) = send_with r w to m.
Proof. intros H. destruct m; cbn [send_with_log send_with]; [apply H|reflexivity]. Qed.
Lemma same_intersect w i : snd (try_intersect_log w i) = try_intersect w i.
Proof.
  unfold ConsoleModel.try_intersect_log, WorldModel.try_intersect. peel.
  match goal with r : option _ |- _ => destruct r as [[c1 vs]|] end; [|reflexivity]. peel. reflexivity.
Qed.
Lemma same_output w me P c Q M : snd (client_output_log w me P c Q M) = client_output sha rand fuel p canzass berlekamp w me P c M.
Proof. unfold ConsoleModel.client_output_log, client_output. peel. rewrite same_intersect. apply bind_ext. intros. peel. reflexivity. Qed.
Lemma same_polynomial w me P c Q M : snd (client_polynomial_log w me P c Q M) = client_polynomial sha rand fuel p canzass berlekamp w me P c M.
Proof. unfold ConsoleModel.client_polynomial_log, client_polynomial. peel. rewrite same_intersect. apply bind_ext. intros. peel. reflexivity. Qed.
Lemma same_reply rl r w me sender o k : same rl r -> snd (client_reply_log rl w me sender o k) = client_reply sha rand fuel p r w me sender o k.
Proof.
  intros H. unfold ConsoleModel.client_reply_log, client_reply. peel. destruct a1 as [[c1 z1] q]. unfold alloc. peel. rewrite (same_send _ r) by exact H. reflexivity.
Qed.
Lemma find_cloud_party w l cl : find_cloud w l = Ok (Some cl) -> exists C, nth_error (w_parties w) cl = Some C /\ pa_type C = TServer.
Proof.
  induction l as [|[i j] l IH]; cbn [find_cloud]; [discriminate|]. intros H. apply bind_ok in H. destruct H as [Q [HQ H]].
  destruct (pa_type Q) eqn:E; cbn [ptype_eqb] in H; [apply IH; exact H|]. apply Ok_inj in H. injection H as <-.
  apply the_party_ok in HQ. eauto.
Qed.
Lemma same_request rl r w me P c s m M : same rl r ->
  snd (client_request_log rl w me P c s m M) = client_request sha rand fuel p rbits r w me P c s m M.
Proof.
  intros H. unfold ConsoleModel.client_request_log, client_request. peel.
  destruct (negb _); [reflexivity|]. peel. destruct a2 as [key k]. peel. unfold alloc. peel.
  match goal with E : find_cloud ?w' _ = Ok ?x |- _ => set (w2 := w') in *; destruct x as [cl|]; [|reflexivity]; rename E into EF end.
  assert (EF' : find_cloud w (pa_parties P) = Ok (Some cl)).
  { rewrite <- EF. clear. induction (pa_parties P) as [|[i j] l IH]; [reflexivity|]. cbn [find_cloud]. change (the_party w2 j) with (the_party w j).
    destruct (the_party w j); cbn [bind]; try reflexivity. rewrite IH. reflexivity. }
  destruct (find_cloud_party _ _ _ EF') as [C [HCl _]].
  peel. rewrite (proj2 (the_party_ok w2 cl C) HCl). cbn [bind]. peel. rewrite (same_send _ r) by exact H. apply bind_ext. intros [[w3 o] tr] _.
  destruct o; try reflexivity. peel. rewrite (same_reply _ r) by exact H. apply bind_ext. intros [[w4 o2] tr2] _. reflexivity.
Qed.
Lemma same_server_request rl r w me P sv s m M : same rl r ->
  snd (server_request_log rl w me P sv s m M) = server_request sha rand fuel p r w me P sv s m M.
Proof.
  intros H. unfold ConsoleModel.server_request_log, server_request. peel.
  destruct (ptype_eqb _ _); [reflexivity|]. peel. destruct (negb _); [reflexivity|]. peel. destruct a4 as [w1 t]. unfold alloc. peel.
  destruct (getPartyById P a2); [|reflexivity]. peel. rewrite (same_send _ r) by exact H. apply bind_ext. intros [[w4 o] tr] _.
  destruct o; try reflexivity. peel. reflexivity.
Qed.
Lemma same_client rl r w me P c m M : same rl r ->
  snd (client_receive_log rl w me P c m M) = client_receive sha rand fuel p canzass berlekamp rbits r w me P c m M.
Proof.
  intros H. unfold ConsoleModel.client_receive_log, client_receive. destruct (str_eqb _ _); [reflexivity|]. peel. destruct a; [|reflexivity]. cbn [negb].
  destruct (getPartyById P (m_party M)) as [s|] eqn:E; [|reflexivity].
  assert (X : exists Q, nth_error (w_parties w) s = Some Q).
  { match goal with HH : client_authorised _ _ _ = _ |- _ => unfold client_authorised in HH; rewrite E in HH; apply bind_ok in HH; destruct HH as [x [HA _]] end.
    unfold hasAuthenticated in HA. apply bind_ok in HA. destruct HA as [Q [HQ _]]. apply the_party_ok in HQ. eauto. }
  destruct X as [Q HQ]. peel. rewrite (proj2 (the_party_ok w s Q) HQ). cbn [bind].
  destruct (m_type M); try reflexivity; [apply same_request; exact H|apply same_output|apply same_polynomial].
Qed.
Lemma same_server rl r w me P sv m M : same rl r ->
  snd (server_receive_log rl w me P sv m M) = server_receive sha rand fuel p r w me P sv m M.
Proof.
  intros H. unfold ConsoleModel.server_receive_log, server_receive. destruct (str_eqb _ _); [reflexivity|]. peel. destruct (negb _); [reflexivity|].
  destruct (getPartyById P (m_party M)) as [s|] eqn:E; [|reflexivity].
  destruct (m_type M); try reflexivity; [|apply same_server_request; exact H].
  peel. destruct (ptype_eqb _ _); reflexivity.
Qed.
Lemma same_receive d : same (receive_log d) (receive d).
Proof.
  induction d as [|d IH]; intros w me m; [reflexivity|]. cbn [ConsoleModel.receive_log WorldModel.receive]. peel.
  destruct (pa_role a) as [c|sv].
  - rewrite (same_client _ (receive d)) by exact IH. apply bind_ext. intros [[w1 o] tr] _. reflexivity.
  - rewrite (same_server _ (receive d)) by exact IH. apply bind_ext. intros [[w1 o] tr] _. reflexivity.
Qed.
Lemma same_exit xl x : snd xl = x -> snd (or_exit_log xl) = or_exit x.
Proof. intros <-. unfold or_exit_log, or_exit. peel. destruct a as [[w o] tr]. destruct o; reflexivity. Qed.
Lemma same_send_log d w to m : snd (send_log sha rand fuel p canzass berlekamp rbits d w to m) = send sha rand fuel p canzass berlekamp rbits d w to m.
Proof. apply same_send. apply same_receive. Qed.
Lemma same_simulate L h D al bits idA idB idS sA sB rawA rawB nt pos draws facts :
  snd (simulate_log L h D al bits idA idB idS sA sB rawA rawB nt pos draws facts) = simulate L h D al bits idA idB idS sA sB rawA rawB nt pos draws facts.
Proof.
  unfold ConsoleModel.simulate_log, WorldModel.simulate. unfold new_client, new_server, new_msg, alloc.
  repeat first [ rewrite snd_lbind; cbn [snd quietly bind] | apply bind_ext; intros ? _ | rewrite (same_exit _ _ (same_send_log _ _ _ _)) ].
  reflexivity.
Qed.
End R.
