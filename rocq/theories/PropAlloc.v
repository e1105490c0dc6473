(** C124: allocations that fail *)
From Verif Require Import Base Spec Lib StrIntSpec StrIntModel StrIntProofs HashBucketsModel HashBucketsSpec HashBucketsProofs AllocModel AllocSpec AllocProofs PropHash.

(** The constructor: exit code 2 if one of its own allocations fails, an
    exception if one of the reservations fails or is larger than a vector can
    be (everything allocated so far is lost then), else the table. *)
Theorem C124_constructor : forall (T : Type) ok pol m len ml (a : option (halgo T)),
  policy_ok pol -> match a with Some al => algo_valid al | None => True end ->
  let own := (m_tries m + size_algo a + 1)%nat in
  let room := 1 + (3 * Z.of_nat ml) mod 2 ^ 64 / 4 in
  (failed ok (m_tries m) own -> a_new ok pol m len ml a = Stop (Exit 2)) /\
  (~ failed ok (m_tries m) own ->
    ((0 < len)%nat -> p_max pol < room ->
       a_new ok pol m len ml a = Thrown (mkMem own (m_live m + made a + 1)) LengthError tt) /\
    (room <= p_max pol -> forall j, (j < len)%nat -> ~ failed ok own (own + j) -> ok (own + j)%nat = false ->
       a_new ok pol m len ml a = Thrown (mkMem (own + j + 1) (m_live m + made a + 1 + Z.of_nat j)) BadAlloc tt) /\
    (room <= p_max pol \/ len = 0%nat -> ~ failed ok own (own + len) ->
       exists t, a_new ok pol m len ml a = Done (mkMem (own + len) (m_live m + made a + 1 + Z.of_nat len)) t /\
         new_hb len ml a = Ok (at_hb t))).
Proof.
  intros T ok pol m len ml a POL V own room.
  destruct (a_new_cases ok pol m len ml a V) as [A B]. fold own in A, B.
  assert (E : reserved ml = room) by (apply reserved_eq). rewrite E in B.
  split; [exact A|]. intros N. destruct (B N) as [B1 [B2 B3]]. split; [exact B1|]. split; [exact B2|].
  intros R F. destruct (B3 R F) as [t [X [Y _]]]. eauto.
Qed.
Print Assumptions C124_constructor.

(** A program that catches what its calls throw: the table it has in the end
    is the one the calls that returned would have made without any failures
    (add(list, n) may stop part way); the process ends only where it would
    have ended anyway, or with code 2 from setHashAlgorithm after a failure.
    [conceal] is in the next theorems. *)
Theorem C124_failed_calls_do_nothing : forall (T G : Type) ok pol (gen : G -> T * G) m t g ops,
  policy_ok pol -> a_reachable ok pol m t -> Forall op_algo_valid ops ->
  let '(r, log) := a_run ok pol gen m t g ops in
  (forall i o x, nth_error ops i = Some o -> nth_error log i = Some (Some x) -> ~ is_conceal o) ->
  match r with
  | inl (m1, (t1, g1)) =>
      length log = length ops /\
      exists c h1, amounts_all ops log c /\ run_table gen (at_hb t, g) c = Ok (h1, g1) /\ same_table (at_hb t1) h1
  | inr r =>
      exists o c, nth_error ops (length log) = Some o /\ amounts_all (firstn (length log) ops) log c /\
        (run_table gen (at_hb t, g) (c ++ [o]) = match r with Ok _ => NoFuel | Exit z => Exit z | UB w => UB w | Abort => Abort | NoFuel => NoFuel end \/
         r = Exit 2 /\ (exists al, o = TSetAlgo (Some al)) /\ exists j, (m_tries m <= j)%nat /\ ok j = false)
  end.
Proof.
  intros T G ok pol gen m t g ops POL R V. apply a_reachable_wf in R; [|exact POL].
  pose proof (a_run_cases ok pol POL gen ops m t g (at_hb t) R V (good_refl pol t R)) as H.
  destruct (a_run ok pol gen m t g ops) as [[[m1 [t1 g1]]|r] log]; intros NC.
  - destruct H as [_ [_ [L [_ H]]]]. split; [exact L|]. destruct (H NC) as [c [h1 [A [B [C _]]]]]. eauto.
  - exact (H NC).
Qed.
Print Assumptions C124_failed_calls_do_nothing.

(** No call loses an element or a mark, interrupted conceal() included. *)
Theorem C124_nothing_lost : forall (T G : Type) ok pol (gen : G -> T * G) m t g ops m1 t1 g1 log,
  policy_ok pol -> a_reachable ok pol m t -> Forall op_algo_valid ops ->
  a_run ok pol gen m t g ops = (inl (m1, (t1, g1)), log) -> extends (at_hb t) (at_hb t1).
Proof.
  intros T G ok pol gen m t g ops m1 t1 g1 log POL R V E. apply a_reachable_wf in R; [|exact POL].
  eapply (a_run_extends ok pol POL); eauto.
Qed.
Print Assumptions C124_nothing_lost.

(** Why a call throws: a failed allocation during the call, or a bucket with
    as many elements as a vector can have.  Without these nothing is thrown. *)
Theorem C124_reasons : forall (T G : Type) ok pol (gen : G -> T * G) m t g o m1 x t1 g1,
  policy_ok pol -> a_reachable ok pol m t -> op_algo_valid o ->
  a_call ok pol gen m t g o = Thrown m1 x (t1, g1) ->
  match x with
  | BadAlloc => failed ok (m_tries m) (m_tries m1)
  | LengthError => exists b, In b (hb_buckets (at_hb t1)) /\ p_max pol <= Z.of_nat (length (mv_items b))
  end.
Proof.
  intros T G ok pol gen m t g o m1 x t1 g1 POL R V E. apply a_reachable_wf in R; [|exact POL].
  destruct (a_call_cases ok pol POL gen m t g o R V) as
    [[m2 [t2 [g2 [E1 _]]]]|[[m2 [x2 [t2 [g2 [E1 [_ [_ [Y _]]]]]]]]|[r [E1 _]]]]; rewrite E1 in E; try discriminate.
  injection E as <- <- <- <-. exact Y.
Qed.
Print Assumptions C124_reasons.

(** The reservation pays off: adding to a bucket with fewer than
    1 + 3 * maxLoad / 4 elements allocates nothing and cannot fail. *)
Theorem C124_room : forall (T : Type) ok pol m (t : @atable T) e,
  policy_ok pol -> a_reachable ok pol m t -> 3 * Z.of_nat (hb_maxload (at_hb t)) < 2 ^ 64 ->
  let room := 1 + 3 * Z.of_nat (hb_maxload (at_hb t)) / 4 in
  (forall al b, hb_algo (at_hb t) = Some al -> (0 < hb_k (at_hb t))%nat ->
     nth_error (hb_buckets (at_hb t)) (index_of al (hb_k (at_hb t)) e) = Some b ->
     length (mv_items b) <> hb_maxload (at_hb t) -> Z.of_nat (length (mv_items b)) < room ->
     exists t1, a_add ok pol m t e = Done m t1 /\ hb_add (at_hb t) e = Ok (at_hb t1)) /\
  (forall i b, nth_error (hb_buckets (at_hb t)) i = Some b -> Z.of_nat (length (mv_items b)) < room ->
     exists t1, a_addTo ok pol m t e i = Done m t1 /\ addToBucket (at_hb t) e i = Ok (at_hb t1)).
Proof.
  intros T ok pol m t e POL R Hm room. apply a_reachable_wf in R; [|exact POL]. pose proof R as [Wh C]. pose proof Wh as [WL [WN WA]].
  assert (Er : reserved (hb_maxload (at_hb t)) = room).
  { rewrite reserved_eq, w64_small; [reflexivity|]. unfold M64. lia. }
  split.
  - intros al b Ha Hk Hb Hn Hl.
    pose proof (a_add_cases ok pol POL m t e R) as Cs.
    destruct (hb_add_spec (at_hb t) al e Wh Ha Hk) as [b' [s1 [Hb' [W1 [L1 E1]]]]].
    rewrite Hb in Hb'. injection Hb' as <-. destruct (Nat.eqb_spec (length (mv_items b)) (hb_maxload (at_hb t))); [lia|].
    (* the push itself *)
    unfold a_add in *. rewrite Ha in WA. destruct (hb_strint (at_hb t)) as [s|] eqn:Es; [|contradiction]. rewrite Ha in *.
    destruct WA as [[V1 V2] [Ws Ls]].
    destruct (set_bytes_ok s (ha_hash al e) (ha_size al) Ws V1) as [s2 [E2 [W2 [L2 [Z2 _]]]]]. { rewrite Ls, Nat.min_id. apply V2. }
    rewrite E2 in *. cbn [run_res] in *. unfold rem in *. destruct (Z.eqb_spec (Z.of_nat (hb_k (at_hb t))) 0); [lia|]. cbn [run_res] in *.
    rewrite Ls, Nat.min_id in Z2. rewrite Z2 in *.
    change (Z.to_nat (LE (firstn (ha_size al) (ha_hash al e)) mod Z.of_nat (hb_k (at_hb t)))) with (index_of al (hb_k (at_hb t)) e) in *.
    unfold aget in *. rewrite Hb in *. cbn [run_res] in *. destruct (Nat.eqb_spec (length (mv_items b)) (hb_maxload (at_hb t))); [lia|].
    match goal with |- context [a_push ok pol m ?tt _ _] => set (t' := tt) in * end.
    assert (Hi : (index_of al (hb_k (at_hb t)) e < hb_k (at_hb t))%nat) by (apply index_lt; exact Hk).
    destruct (a_push_cases ok pol POL m t' (index_of al (hb_k (at_hb t)) e) e WL C Hi) as
      [[m1 [c1 [E [C1 [F Hq]]]]]|[m1 [x [E [F [Y Hq]]]]]]; specialize (Hq b Hb); cbn [t' at_hb hb_maxload] in Hq; rewrite Er in Hq; [|lia].
    rewrite (Hq Hl) in E. rewrite E in *.
    destruct Cs as [[m2 [t2 [X [Y _]]]]|[[m2 [x [t2 [X _]]]]|[r [X _]]]]; try discriminate. injection X as <- <-. eauto.
  - intros i b Hb Hl. assert (Hi : (i < hb_k (at_hb t))%nat) by (rewrite <- WL; apply nth_error_Some; congruence).
    unfold a_addTo, addToBucket. destruct (Nat.ltb_spec i (hb_k (at_hb t))); [|lia].
    destruct (a_push_cases ok pol POL m t i e WL C Hi) as
      [[m1 [c1 [E [C1 [F Hq]]]]]|[m1 [x [E [F [Y Hq]]]]]]; specialize (Hq b Hb); rewrite Er in Hq; [|lia].
    rewrite (Hq Hl) in E. rewrite E. eexists. split; [reflexivity|]. rewrite push_at_pushed by lia. reflexivity.
Qed.
Print Assumptions C124_room.

(** An interrupted conceal(): some bucket [p] has got fewer random elements
    than it needs, the ones before it are as conceal() leaves them, the ones
    after it are untouched. *)
Theorem C124_conceal_interrupted : forall (T G : Type) ok pol (gen : G -> T * G) m t g m1 x t1 g1,
  policy_ok pol -> a_reachable ok pol m t ->
  a_conceal ok pol gen m t g = Thrown m1 x (t1, g1) ->
  let ml := hb_maxload (at_hb t) in
  exists p, (p < hb_k (at_hb t))%nat /\ at_hb t1 = with_buckets (at_hb t) (hb_buckets (at_hb t1)) /\ m_live m1 = m_live m /\
    forall i b, nth_error (hb_buckets (at_hb t)) i = Some b ->
      exists b', nth_error (hb_buckets (at_hb t1)) i = Some b' /\
        ((p < i)%nat -> b' = b) /\
        ((i <= p)%nat -> exists f, mv_items b' = mv_items b ++ f /\
           (mv_marked b' = true <-> mv_items b = [] \/ mv_marked b = true) /\
           ((i < p)%nat -> length f = (ml - length (mv_items b))%nat) /\
           (i = p -> (length f < ml - length (mv_items b))%nat)).
Proof.
  intros T G ok pol gen m t g m1 x t1 g1 POL R E ml. apply a_reachable_wf in R; [|exact POL]. pose proof R as [[WL _] _].
  unfold a_conceal in E. rewrite <- WL in E.
  destruct (a_concealFrom_cases ok pol POL gen (hb_buckets (at_hb t)) [] m t g R eq_refl) as
    [[m2 [t2 [E1 _]]]|[m2 [x2 [t2 [p1 [b0 [p2 [j [E1 [Ep [Hj [A [W1 [[F _] _]]]]]]]]]]]]]]; cbn [length] in E1; rewrite E1 in E; [discriminate|].
  injection E as <- <- <- <-. exists (length p1). split; [rewrite <- WL, Ep, app_length; cbn; lia|].
  split; [rewrite A; reflexivity|]. split; [exact F|]. fold ml in A, Hj. set (g' := snd (conceal_list gen ml p1 g)) in *.
  rewrite A. cbn [with_buckets hb_buckets app]. rewrite Ep.
  destruct (appended_conceal gen ml p1 g) as [fl [[P1 [P2 P3]] _]].
  intros i b Hb. apply app_nth_cases in Hb. destruct Hb as [[Hb Hi]|[k [-> Hb]]].
  - destruct (P3 i b Hb) as [f [F1 [F2 F3]]]. eexists. split; [rewrite nth_error_app1 by lia; exact F3|]. split; [lia|].
    intros _. exists f. cbn [mv_items mv_marked]. split; [reflexivity|]. split; [apply mark_iff|]. split; [auto|lia].
  - rewrite nth_error_app2 by lia. rewrite P2. replace (length p1 + k - length p1)%nat with k by lia. destruct k as [|k]; cbn [nth_error] in Hb |- *.
    + injection Hb as <-. eexists. split; [reflexivity|]. split; [lia|]. intros _. eexists. cbn [mv_items mv_marked]. split; [reflexivity|].
      split; [apply mark_iff|]. split; [lia|]. intros _. rewrite draws_length. exact Hj.
    + eexists. split; [exact Hb|]. split; [reflexivity|lia].
Qed.
Print Assumptions C124_conceal_interrupted.

(** conceal() called again until it returns leaves the table as one conceal()
    does; every failed call has cost one random number, and the ones used are
    used in order and once. *)
Theorem C124_conceal_again : forall (T G : Type) ok pol (gen : G -> T * G) m t g xs m' t' g',
  policy_ok pol -> a_reachable ok pol m t ->
  a_run ok pol gen m t g (repeat TConceal (S (length xs))) = (inl (m', (t', g')), map Some xs ++ [None]) ->
  let ml := hb_maxload (at_hb t) in
  exists fillers, let N := (length (concat fillers) + length xs)%nat in
    at_hb t' = with_buckets (at_hb t) (hb_buckets (at_hb t')) /\ length (hb_buckets (at_hb t')) = hb_k (at_hb t) /\
    m_live m' = m_live m /\
    subseq (concat fillers) (fst (draws gen N g)) /\ g' = snd (draws gen N g) /\ length fillers = hb_k (at_hb t) /\
    forall i b, nth_error (hb_buckets (at_hb t)) i = Some b ->
      exists b' f, nth_error (hb_buckets (at_hb t')) i = Some b' /\ nth_error fillers i = Some f /\
        mv_items b' = mv_items b ++ f /\ length f = (ml - length (mv_items b))%nat /\
        (mv_marked b' = true <-> mv_items b = [] \/ mv_marked b = true).
Proof.
  intros T G ok pol gen m t g xs m' t' g' POL R E ml. apply a_reachable_wf in R; [|exact POL]. pose proof R as [[WL _] _].
  destruct (retry_l ok pol POL gen xs m t g m' t' g' R E) as [fl [A [[B1 [B2 B3]] [S [D L]]]]]. fold ml in B3, S, D.
  assert (LC : length (concat fl) = missing ml (hb_buckets (at_hb t))) by (exact (appended_concat ok ml _ fl _ (conj B1 (conj B2 B3)))).
  exists fl; cbv zeta; rewrite LC; split; [exact A|]; split; [lia|]; split; [exact L|]; split; [exact S|]; split; [exact D|]; split; [lia|].
  intros i b Hb; destruct (B3 i b Hb) as [f [F1 [F2 F3]]]; do 2 eexists; split; [exact F3|]; split; [exact F1|]; cbn [mv_items mv_marked];
    split; [reflexivity|]; split; [exact F2|apply mark_iff].
Qed.
Print Assumptions C124_conceal_again.

(** Storage: whatever fails, calls on a table leave nothing behind except the
    number object of every replaced algorithm. *)
Theorem C124_storage : forall (T G : Type) ok pol (gen : G -> T * G) m0 len ml a m1 t1 g ops m2 t2 g2 log,
  policy_ok pol -> match a with Some al => algo_valid al | None => True end -> Forall op_algo_valid ops ->
  a_new ok pol m0 len ml a = Done m1 t1 -> a_run ok pol gen m1 t1 g ops = (inl (m2, (t2, g2)), log) ->
  m_live m2 = m_live m0 + 1 + Z.of_nat len + 3 * algos_set a ops /\
  m_live (a_destroy m2 t2) = m_live m0 + 3 * Z.max 0 (algos_set a ops - 1).
Proof.
  intros T G ok pol gen m0 len ml a m1 t1 g ops m2 t2 g2 log POL V Vo E1 E2.
  destruct (a_new_done ok pol m0 len ml a m1 t1 V E1) as [W1 [N1 [L1 _]]].
  pose proof (a_run_cases ok pol POL gen ops m1 t1 g (at_hb t1) W1 Vo (good_refl pol t1 W1)) as H. rewrite E2 in H.
  destruct H as [W2 [_ [_ [L2 _]]]].
  assert (S : fold_right Z.add 0 (map (@adds T) ops) + made a = 3 * algos_set a ops).
  { unfold algos_set. cbn [filter]. clear. assert (K : fold_right Z.add 0 (map (@adds T) ops) =
       3 * Z.of_nat (length (filter (fun o => match o with TSetAlgo (Some _) => true | _ => false end) ops))).
    { induction ops as [|o ops IH]; [reflexivity|]. cbn [map fold_right filter]. rewrite IH.
      destruct o as [e|e i|la dim| |[al|]]; cbn [adds length]; lia. }
    rewrite K. destruct a as [al|]; cbn [made length]; lia. }
  split; [lia|]. unfold a_destroy; cbn [m_live].
  destruct (new_hb_ok len ml a V) as [h0 [N0 [_ [K0 [_ [A0 _]]]]]]. rewrite N1 in N0. injection N0 as <-.
  pose proof (a_run_extends ok pol POL gen ops m1 t1 g m2 t2 g2 log W1 Vo E2) as [K2 _].
  assert (LC : length (at_caps t2) = len).
  { destruct W2 as [[WL _] C]. assert (L : length (hb_buckets (at_hb t2)) = length (at_caps t2)) by (clear - C; induction C; cbn; congruence). congruence. }
  rewrite LC.
  pose proof (a_run_algo ok pol POL gen ops m1 t1 g m2 t2 g2 log W1 Vo E2) as HA. rewrite A0 in HA.
  assert (AS : algos_set a ops = 0 <-> a = None /\ existsb sets ops = false).
  { unfold algos_set. clear. assert (K : length (filter (fun o => match o with TSetAlgo (Some _) => true | _ => false end) ops) = 0%nat <-> existsb (@sets T) ops = false).
    { induction ops as [|o ops IH]; [cbn; tauto|]. cbn [filter existsb]. destruct o as [e|e i|la dim| |[al|]]; cbn [sets orb length]; try exact IH. split; [lia|discriminate]. }
    cbn [filter]. destruct a as [al|]; cbn [length].
    - split; [lia|intros [? _]; discriminate].
    - rewrite <- K. split; [intros; split; [reflexivity|lia]|intros [_ ?]; lia]. }
  assert (0 <= algos_set a ops) by (unfold algos_set; lia).
  destruct W2 as [[_ [_ WA]] _].
  destruct (hb_algo (at_hb t2)) as [al|] eqn:Ea; destruct (hb_strint (at_hb t2)) as [s|] eqn:Es; try contradiction.
  - assert (algos_set a ops <> 0). { intros Z. apply AS in Z. apply HA in Z. discriminate. } lia.
  - assert (algos_set a ops = 0). { apply AS. apply HA. reflexivity. } lia.
Qed.
Print Assumptions C124_storage.

(** *** non-vacuity: libstdc++'s growth; 2 buckets for 8 elements, 7 reserved;
    the attempts 0-6 are those of the constructor *)
Definition gnu : policy := mkPolicy (2 ^ 60 - 1) (fun c => Z.min (2 * c) (2 ^ 60 - 1)).
Lemma gnu_ok : policy_ok gnu.
Proof. split; [cbn; lia|]. intros c H. cbn [p_max p_grow gnu] in *. lia. Qed.
Definition bad (l : list nat) (n : nat) : bool := negb (existsb (Nat.eqb n) l).
Definition start : mem := mkMem 0 0.

Example C124_constructor_nonvacuous :
  (exists t, a_new (bad [7%nat]) gnu start 2 8 (Some demo_algo) = Done (mkMem 7 6) t /\ at_caps t = [7; 7]) /\
  a_new (bad [3%nat]) gnu start 2 8 (Some demo_algo) = Stop (Exit 2) /\
  a_new (bad [4%nat]) gnu start 2 8 (Some demo_algo) = Stop (Exit 2) /\
  a_new (bad [6%nat]) gnu start 2 8 (Some demo_algo) = Thrown (mkMem 7 5) BadAlloc tt /\
  (forall ml, Z.of_nat ml = 2 ^ 61 -> a_new (bad []) gnu start 2 ml (@None (halgo Z)) = Thrown (mkMem 1 1) LengthError tt).
Proof.
  split; [eexists; split; vm_compute; reflexivity|]. repeat (split; [vm_compute; reflexivity|]).
  intros ml E. destruct (C124_constructor Z (bad []) gnu start 2%nat ml None gnu_ok I) as [_ H].
  destruct H as [H _]. { intros [j [_ J]]. discriminate. }
  apply H; [lia|]. rewrite E. reflexivity.
Qed.

(** the 8th element of the list is not added; the second call of conceal()
    finishes what the first began; nothing is left after the destructor *)
Definition ex_ok := bad [7%nat; 8%nat].
Definition ex_ops : list (@top Z) := [TAddList [0; 2; 4; 6; 8; 10; 12; 14] 8; TAdd 1].
Definition ex_first (f : mem -> @atable Z -> bool) : bool :=
  match a_new ex_ok gnu start 2 8 (Some demo_algo) with Done m t => f m t | _ => false end.
Definition same_lists (a b : list (list Z)) : bool := if list_eq_dec (list_eq_dec Z.eq_dec) a b then true else false.
Lemma ex_first_true f : ex_first f = true -> exists m t, a_new ex_ok gnu start 2 8 (Some demo_algo) = Done m t /\ f m t = true.
Proof. unfold ex_first. destruct (a_new _ _ _ _ _ _) as [m t| |]; try discriminate. eauto. Qed.

Example C124_nonvacuous : exists m t, a_new ex_ok gnu start 2 8 (Some demo_algo) = Done m t /\
  match a_run ex_ok gnu demo_gen m t 100 (ex_ops ++ [TConceal; TConceal]) with
  | (inl (m1, (t1, g1)), [Some BadAlloc; None; Some BadAlloc; None]) =>
      (g1 =? 109) && same_lists (map mv_items (hb_buckets (at_hb t1))) [[0; 2; 4; 6; 8; 10; 12; 101]; [1; 102; 103; 104; 105; 106; 107; 108]]
      && (m_live m1 =? 6) && (m_live (a_destroy m1 t1) =? 0)
  | _ => false
  end = true.
Proof. apply ex_first_true. vm_compute. reflexivity. Qed.

Lemma ex_run_reachable m t f : a_new ex_ok gnu start 2 8 (Some demo_algo) = Done m t ->
  match a_run ex_ok gnu demo_gen m t 100 ex_ops with (inl (m1, (t1, g1)), _) => f m1 t1 | _ => false end = true ->
  exists m1 t1, a_reachable ex_ok gnu m1 t1 /\ f m1 t1 = true.
Proof.
  intros E R. destruct (a_run ex_ok gnu demo_gen m t 100 ex_ops) as [[[m1 [t1 g1]]|r] log] eqn:Er; [|discriminate].
  exists m1, t1. split; [|exact R]. exists Z, demo_gen, start, 2%nat, 8%nat, (Some demo_algo), m, t, 100, ex_ops, g1, log.
  split; [exact demo_algo_valid|]. split; [exact E|]. split; [|exact Er]. unfold ex_ops. repeat constructor.
Qed.
Example C124_reachable_nonvacuous : exists m t, a_reachable ex_ok gnu m t /\
  match a_conceal ex_ok gnu demo_gen m t 100 with Thrown _ BadAlloc (t1, 101) => same_lists (map mv_items (hb_buckets (at_hb t1))) [[0; 2; 4; 6; 8; 10; 12]; [1]] | _ => false end = true.
Proof.
  destruct (ex_first_true (fun m t => match a_run ex_ok gnu demo_gen m t 100 ex_ops with (inl (m1, (t1, g1)), _) =>
     match a_conceal ex_ok gnu demo_gen m1 t1 100 with Thrown _ BadAlloc (t1, 101) => same_lists (map mv_items (hb_buckets (at_hb t1))) [[0; 2; 4; 6; 8; 10; 12]; [1]] | _ => false end | _ => false end)) as [m [t [E R]]].
  - vm_compute. reflexivity.
  - exact (ex_run_reachable m t _ E R).
Qed.
