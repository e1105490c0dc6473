(** C132: one intersection, and any number of them, when memory runs out. *)
From Verif Require Import Base Spec Lib NtlMiss HashBucketsModel HashBucketsSpec PRFModel PRFSpec PolyModel PolySpec EopsiModel EopsiSpec EopsiRun EopsiFacts.
From Verif Require Import AllocModel AllocSpec AskAllocModel AskAllocSpec AskAllocProofs PropEopsi.
From Coq Require Import Lia Znumtheory.

(** Whatever parties, data and key: if the computation comes to an end when
    every array is granted, it makes 9 requests (7 without buckets); if all of
    them are granted, the outcome is the same and no array is left behind, and
    if any of them is refused the process ends with code 2.  No exception
    leaves the handlers; a process that ends otherwise than with code 2 would
    end so without a shortage. *)
Theorem C132_request : forall sha rand fuel p canzass berlekamp ok m cS r,
  let run := a_request sha rand fuel p canzass berlekamp ok m cS r in
  let result := answer sha rand fuel p canzass berlekamp cS r in
  let refused := failed ok (m_tries m) (m_tries m + arrays r) in
  (forall x, result = Ok x -> ~ refused -> run = Done (mkMem (m_tries m + arrays r) (m_live m)) x) /\
  (forall x, result = Ok x -> refused -> run = Stop (Exit 2)) /\
  (forall m1 x, run = Done m1 x -> result = Ok x /\ ~ refused /\ m_tries m1 = (m_tries m + arrays r)%nat /\ m_live m1 = m_live m) /\
  (forall m1 x e, run <> Thrown m1 x e) /\
  (forall e, run = Stop e -> (e = Exit 2 /\ refused) \/ ends result e).
Proof.
  intros sha rand fuel p canzass berlekamp ok m cS r run result refused.
  pose proof (G_request ok sha rand fuel p canzass berlekamp m cS r) as H. fold run result in H.
  destruct (G_out ok m run (arrays r) result H) as [_ [_ [O3 O4]]]. fold refused in O4.
  destruct H as [[e [E H]]|[x [E [F E2]]]]; fold refused in H || fold refused in F.
  - split; [intros x HR NR|split; [intros x HR HF|split; [intros m1 x HR|split; [exact O3|exact O4]]]].
    + exfalso. destruct H as [[_ F]|H]; [exact (NR F)|]. rewrite HR in H. destruct e; contradiction.
    + destruct H as [[-> _]|H]; [exact E|]. rewrite HR in H. destruct e; contradiction.
    + congruence.
  - split; [intros x' HR NR|split; [intros x' HR HF|split; [intros m1 x' HR|split; [exact O3|exact O4]]]].
    + rewrite HR in E. apply Ok_inj in E. subst x'. rewrite E2. f_equal. f_equal. lia.
    + contradiction.
    + rewrite E2 in HR. injection HR as <- <-. split; [exact E|]. split; [exact F|]. cbn [m_tries m_live]. split; [reflexivity|lia].
Qed.
Print Assumptions C132_request.

(** any number of requests to one cloud: the arrays in use do not add up *)
Theorem C132_requests : forall sha rand fuel p canzass berlekamp ok m cS l,
  let run := a_requests sha rand fuel p canzass berlekamp ok m cS l in
  let result := answers sha rand fuel p canzass berlekamp cS l in
  let refused := failed ok (m_tries m) (m_tries m + arrays_all l) in
  (forall x, result = Ok x -> ~ refused -> run = Done (mkMem (m_tries m + arrays_all l) (m_live m)) x) /\
  (forall x, result = Ok x -> refused -> run = Stop (Exit 2)) /\
  (forall m1 x, run = Done m1 x -> result = Ok x /\ ~ refused /\ m_live m1 = m_live m) /\
  (forall m1 x e, run <> Thrown m1 x e) /\
  (forall e, run = Stop e -> (e = Exit 2 /\ refused) \/ ends result e).
Proof.
  intros sha rand fuel p canzass berlekamp ok m cS l run result refused.
  pose proof (G_requests ok sha rand fuel p canzass berlekamp l m cS) as H. fold run result in H.
  destruct (G_out ok m run (arrays_all l) result H) as [_ [_ [O3 O4]]]. fold refused in O4.
  destruct H as [[e [E H]]|[x [E [F E2]]]]; fold refused in H || fold refused in F.
  - split; [intros x HR NR|split; [intros x HR HF|split; [intros m1 x HR|split; [exact O3|exact O4]]]].
    + exfalso. destruct H as [[_ F]|H]; [exact (NR F)|]. rewrite HR in H. destruct e; contradiction.
    + destruct H as [[-> _]|H]; [exact E|]. rewrite HR in H. destruct e; contradiction.
    + congruence.
  - split; [intros x' HR NR|split; [intros x' HR HF|split; [intros m1 x' HR|split; [exact O3|exact O4]]]].
    + rewrite HR in E. apply Ok_inj in E. subst x'. rewrite E2. f_equal. f_equal. lia.
    + contradiction.
    + rewrite E2 in HR. injection HR as <- <-. split; [exact E|]. split; [exact F|]. cbn [m_live]. lia.
Qed.
Print Assumptions C132_requests.

(** Parties that have stored data that fit, with different evaluation points:
    if the nine arrays are granted the requester finds what it finds in a run
    with unlimited memory (EopsiModel.session), which has every common element
    (but 0, if it is padded), and otherwise the process ends with code 2. *)
Theorem C132_protocol : forall sha p L h D al b rawA rawB rand fuel hw canzass berlekamp sA sB key nt posA posB k0 ok m
    h0 cA hA zA mA cB hB zB mB,
  setting sha p L h D al b rawA rawB -> distinct_points sha p D ->
  factors_correctly p canzass -> factors_correctly p berlekamp ->
  new_hb L h (Some al) = Ok h0 ->
  blind sha rand fuel p hw (new_core p L h D 0) sA rawA (length rawA) (Some b) h0 (new_zpprf p posA) nt = Ok (cA, hA, zA, mA) ->
  blind sha rand fuel p hw (new_core p L h D 0) sB rawB (length rawB) (Some b) h0 (new_zpprf p posB) nt = Ok (cB, hB, zB, mB) ->
  let run := a_request sha rand fuel p canzass berlekamp ok m (new_core p L h D 0) (mkRequest cA zA sA cB sB b key mA mB k0) in
  exists cS1 cA1 zA1 cB1 vs,
    run = (if forallb ok (seq (m_tries m) 9) then Done (mkMem (m_tries m + 9) (m_live m)) (cS1, cA1, zA1, Some (cB1, vs)) else Stop (Exit 2)) /\
    (exists r, session sha rand fuel p canzass berlekamp hw L h D al b rawA rawB sA sB key nt posA posB k0 = Ok (r, Some vs)) /\
    forall v, In v rawA -> In v rawB -> v <> 0 \/ num_bits p - b - 1 = 0 -> In v vs.
Proof.
  intros sha p L h D al b rawA rawB rand fuel hw canzass berlekamp sA sB key nt posA posB k0 ok m h0 cA hA zA mA cB hB zB mB ST ND HC HB E0 EA EB run.
  destruct (C45_complete sha p L h D al b rawA rawB rand fuel hw sA sB key nt posA posB canzass berlekamp k0 ST ND HC HB) as [r [vs [E C]]].
  pose proof E as SE. unfold session in E. apply bind_ok in E. destruct E as [r' [EX E]]. apply bind_ok in E. destruct E as [y [EI E]]. apply Ok_inj in E. injection E as -> Ey.
  destruct y as [[cB1 ws]|]; [|discriminate]. injection Ey as ->.
  pose proof (exchange_ok p (st_odd _ _ _ _ _ _ _ _ _ ST) (st_long _ _ _ _ _ _ _ _ _ ST) sha (st_sha _ _ _ _ _ _ _ _ _ ST) rand fuel hw L h D al b rawA rawB sA sB key nt posA posB
    (st_algo _ _ _ _ _ _ _ _ _ ST) (st_buckets _ _ _ _ _ _ _ _ _ ST)) as X.
  cbv zeta in X. rewrite (data_eq ST rawA), (data_eq ST rawB) in X by (first [exact (st_dataA _ _ _ _ _ _ _ _ _ ST)|exact (st_dataB _ _ _ _ _ _ _ _ _ ST)]).
  destruct (X (st_fitA _ _ _ _ _ _ _ _ _ ST) (st_fitB _ _ _ _ _ _ _ _ _ ST)) as [r2 [RA [RB [EX2 [_ [_ [_ [_ [_ [_ SC]]]]]]]]]]. clear X. assert (r2 = r) by congruence. subst r2. clear EX2.
  unfold exchange in EX. rewrite E0 in EX. cbn [bind] in EX. rewrite EA in EX. cbn [bind] in EX. rewrite EB in EX. cbn [bind] in EX.
  apply bind_ok in EX. destruct EX as [[cS1 t] [ET EX]]. apply bind_ok in EX. destruct EX as [[[cA1 zA1] q] [EQ EX]]. apply Ok_inj in EX. subst r.
  cbn [rr_requester rr_t rr_q] in EI, SC. exists cS1, cA1, zA1, cB1, vs. split; [|split; [eexists; exact SE|exact C]].
  assert (AN : answer sha rand fuel p canzass berlekamp (new_core p L h D 0) (mkRequest cA zA sA cB sB b key mA mB k0) = Ok (cS1, cA1, zA1, Some (cB1, vs))).
  { unfold answer. cbn [rq_key rq_dataA rq_dataB rq_helper rq_zp rq_secretA rq_secretB rq_requester rq_bits rq_facts]. rewrite ET. cbn [bind]. rewrite EQ. cbn [bind]. rewrite EI. reflexivity. }
  assert (AR : arrays (mkRequest cA zA sA cB sB b key mA mB k0) = 9%nat).
  { unfold arrays. cbn [rq_requester]. destruct SC as [_ [_ [_ [S4 _]]]]. cbn [new_core co_length] in S4. pose proof (st_buckets _ _ _ _ _ _ _ _ _ ST).
    destruct (Nat.eqb_spec (co_length cB) 0); [lia|reflexivity]. }
  pose proof (G_request ok sha rand fuel p canzass berlekamp m (new_core p L h D 0) (mkRequest cA zA sA cB sB b key mA mB k0)) as H. rewrite AR in H.
  destruct (G_out ok m _ 9 _ H) as [O1 _]. exact (O1 _ AN).
Qed.
Print Assumptions C132_protocol.

(** the protocol over the field of 61 elements, with the linear factors only; the
    attempts in [l] are refused *)
Definition ask_roots (_ : nat) (f : list Z) : list (list Z * Z) :=
  map (fun r => ([(61 - r) mod 61; 1], 1)) (filter (fun r => peval 61 f r =? 0) (map Z.of_nat (seq 0 61))).
Definition ask_bad (l : list nat) (j : nat) : bool := negb (existsb (Nat.eqb j) l).
Definition ask_example (bad : list nat) (times : nat) : option (out (core * list (option (list Z))) unit) :=
  match new_hb 3 2 (Some ex_algo) with
  | Ok h0 =>
      match blind ex_sha ex_rand 10 61 4 (new_core 61 3 2 5 0) 77 [0; 1; 4] 3 (Some 3) h0 (new_zpprf 61 0) 1,
            blind ex_sha ex_rand 10 61 4 (new_core 61 3 2 5 0) 88 [1; 3; 0] 3 (Some 3) h0 (new_zpprf 61 5) 1 with
      | Ok (cA, _, zA, mA), Ok (cB, _, _, mB) =>
          Some (a_requests ex_sha ex_rand 10 61 ask_roots ask_roots (ask_bad bad) (mkMem 4 20) (new_core 61 3 2 5 0)
                  (repeat (mkRequest cA zA 77 cB 88 3 99 mA mB 0) times))
      | _, _ => None
      end
  | _ => None
  end.

(** all granted: the requester finds 1 each time, and 20 arrays are in use
    before and after; the third or the last one refused, or the first of the third of
    three requests: code 2 *)
Example C132_request_nonvacuous :
  match ask_example [3%nat; 13%nat] 1 with Some (Done m (_, [Some [1]])) => Nat.eqb (m_tries m) 13 && (m_live m =? 20) | _ => false end = true /\
  match ask_example [6%nat] 1 with Some (Stop (Exit 2)) => true | _ => false end = true /\
  match ask_example [12%nat] 1 with Some (Stop (Exit 2)) => true | _ => false end = true.
Proof. repeat split; vm_compute; reflexivity. Qed.
Example C132_requests_nonvacuous :
  match ask_example [] 3 with Some (Done m (_, [Some [1]; Some [1]; Some [1]])) => Nat.eqb (m_tries m) 31 && (m_live m =? 20) | _ => false end = true /\
  match ask_example [22%nat] 2 with Some (Stop (Exit 2)) => false | Some (Done m _) => m_live m =? 20 | _ => false end = true /\
  match ask_example [22%nat] 3 with Some (Stop (Exit 2)) => true | _ => false end = true.
Proof. repeat split; vm_compute; reflexivity. Qed.
Example C132_protocol_nonvacuous : setting ex_sha 61 3 2 5 ex_algo 3 [0; 1; 4] [1; 3; 0] /\ distinct_points ex_sha 61 5 /\
  factors_correctly 61 ex_factor /\
  exists h0 cA hA zA mA cB hB zB mB, new_hb 3 2 (Some ex_algo) = Ok h0 /\
    blind ex_sha ex_rand 10 61 4 (new_core 61 3 2 5 0) 77 [0; 1; 4] 3 (Some 3) h0 (new_zpprf 61 0) 1 = Ok (cA, hA, zA, mA) /\
    blind ex_sha ex_rand 10 61 4 (new_core 61 3 2 5 0) 88 [1; 3; 0] 3 (Some 3) h0 (new_zpprf 61 5) 1 = Ok (cB, hB, zB, mB).
Proof.
  split; [exact ex_setting|]. split; [exact ex_distinct|]. split; [exact ex_factor_ok|].
  eexists _, _, _, _, _, _, _, _, _. split; [vm_compute; reflexivity|]. split; vm_compute; reflexivity.
Qed.
