(** Properties C116-C117: the storage of StrInt, HashBuckets and ZZpPolynomials. *)
From Verif Require Import Base Lib StorageModel StorageSpec StorageProofs.
From Coq Require Import Lia Permutation.

(** *** C116 *)
(** A program that calls the objects it has constructed (any number, in any
    order), destroys each at most once and copies none never releases an array
    twice and never touches a released one. *)
Theorem C116_no_double_release : forall l k, proper [] l = Some k ->
  exec_all start l <> UB Dangling /\ exec_all start l <> UB BadCast.
Proof.
  intros l k H. pose proof (run_inv l start [] [] k start_inv H) as F. unfold fine in F. destruct (exec_all start l) as [s|c|[]| |]; split; try discriminate; destruct F.
Qed.
Print Assumptions C116_no_double_release.

(** ... and when it has destroyed them all, what is left is exactly the number
    objects of the tables that were given another hash algorithm: three arrays
    for each replacement, nothing else. *)
Theorem C116_what_is_left : forall l k s, proper [] l = Some k -> (forall i x, nth_error k i = Some x -> x = None) ->
  exec_all start l = Ok s -> live_blocks s = (3 * replacements [] l)%nat.
Proof.
  intros l k s H D E. destruct (reach _ _ _ H E) as [leaked [[P F] L]].
  assert (N : flat_map owned (s_objs s) = []).
  { assert (G : forall o, In o (s_objs s) -> owned o = []).
    { intros o HO. apply In_nth_error in HO. destruct HO as [i HI]. assert (LI : (i < length k)%nat). { rewrite <- (Forall2_len _ _ _ F). apply nth_error_Some. congruence. }
      destruct (nth_error k i) as [x|] eqn:EK; [|apply nth_error_None in EK; lia]. destruct (Forall2_nth _ _ _ i F _ EK) as [o' [E' K]]. rewrite HI in E'. injection E' as <-.
      rewrite (D _ _ EK) in K. destruct o; try destruct K. reflexivity. }
    induction (s_objs s) as [|o t IH]; [reflexivity|]. cbn [flat_map]. rewrite (G o (or_introl eq_refl)). cbn [app]. inversion F; subst. 
    clear IH. enough (X : forall u, (forall o, In o u -> owned o = []) -> flat_map owned u = []) by (apply X; intros o' HO'; apply G; right; exact HO').
    induction u as [|a u IHu]; intros GU; [reflexivity|]. cbn [flat_map]. rewrite (GU a (or_introl eq_refl)). apply IHu. intros o' HO'. apply GU. right. exact HO'. }
  rewrite N, app_nil_r in P. rewrite <- L, <- (Permutation_length P), live_count. reflexivity.
Qed.
Print Assumptions C116_what_is_left.

(** a program with all three classes, two of the tables' algorithms replaced *)
Definition ex_program : list call :=
  [CNewStr 16; CNewTable 4 2 (Some 20%nat); CNewPoly; CUseStr 0; CAdd 1 7 9; CAdd 1 8 9; CSetAlgo 1 (Some 32%nat); CSetAlgo 1 None;
   CInterpolate 2 3; CFactorise 2; CFind 2; CFindAll 2 5; CNewTable 3 3 None; CSetAlgo 3 (Some 16%nat); CSetAlgo 3 (Some 20%nat);
   CDestroy 1; CDestroy 0; CInterpolate 2 1; CDestroy 3; CDestroy 2].
Example C116_nonvacuous :
  proper [] ex_program = Some [None; None; None; None] /\ replacements [] ex_program = 2%nat /\
  match exec_all start ex_program with Ok s => live_blocks s = 6%nat /\ length (s_heap s) = 21%nat | _ => False end.
Proof. vm_compute. repeat split. Qed.

(** *** C117 *)
(** A copied object shares its arrays with the original.  If the original has
    any, then whatever the program does next (short of copying again), it cannot
    get to the end of the lives of both: one array is released twice, or an
    earlier call fails. *)
Theorem C117_copies : forall pre k s i o a post s',
  proper [] pre = Some k -> exec_all start pre = Ok s -> nth_error (s_objs s) i = Some o -> holds o a ->
  Forall no_copy post -> In (CDestroy i) post -> In (CDestroy (length (s_objs s))) post ->
  exec_all start (pre ++ CCopy i :: post) <> Ok s'.
Proof.
  intros pre k s i o a post s' HP HE EO HO NC DI DJ H. destruct (reach _ _ _ HP HE) as [leaked [V _]]. rewrite exec_app, HE in H. cbn [bind exec_all exec] in H.
  assert (LT : (i < length (s_objs s))%nat) by (apply nth_error_Some; congruence).
  assert (ET : the_obj s i = Ok o) by (unfold the_obj; rewrite EO; destruct o; try reflexivity; destruct HO). rewrite ET in H. cbn [bind] in H.
  destruct (holds_keeps _ _ HO) as [b K]. pose proof (inv_holds _ _ _ _ _ b V EO (keeps_holds _ _ K)) as LV.
  apply (shared_not_both_dead post (add_obj s (s_heap s) o) s' i (length (s_objs s)) b); try assumption; [lia|]. left. split; [exact LV|].
  split; exists o; cbn [add_obj s_objs]; (split; [|exact K]); [rewrite nth_error_app1 by exact LT; exact EO|]. rewrite nth_error_app2 by lia. rewrite Nat.sub_diag. reflexivity.
Qed.
Print Assumptions C117_copies.

(** The simplest such program, in either order: the second destructor releases
    an array that is gone. *)
Theorem C117_double_delete : forall pre k s i o a, let j := length (s_objs s) in
  proper [] pre = Some k -> exec_all start pre = Ok s -> nth_error (s_objs s) i = Some o -> holds o a ->
  exec_all start (pre ++ [CCopy i; CDestroy i; CDestroy j]) = UB Dangling /\ exec_all start (pre ++ [CCopy i; CDestroy j; CDestroy i]) = UB Dangling.
Proof.
  intros pre k s i o a j HP HE EO HO. destruct (reach _ _ _ HP HE) as [leaked [V _]].
  assert (LT : (i < length (s_objs s))%nat) by (apply nth_error_Some; congruence).
  assert (ND : o <> ODead) by (intros ->; exact HO).
  assert (ET : forall s0 x, nth_error (s_objs s0) x = Some o -> the_obj s0 x = Ok o) by (intros s0 x EX; unfold the_obj; rewrite EX; destruct o; congruence).
  set (s1 := add_obj s (s_heap s) o).
  assert (E1 : nth_error (s_objs s1) i = Some o) by (cbn [s1 add_obj s_objs]; rewrite nth_error_app1 by exact LT; exact EO).
  assert (E2 : nth_error (s_objs s1) j = Some o) by (cbn [s1 add_obj s_objs]; rewrite nth_error_app2 by (unfold j; lia); unfold j; rewrite Nat.sub_diag; reflexivity).
  destruct (inv_put _ _ _ _ _ V EO) as [R [P _]].
  set (del := fun h => match o with OStr b p => destroy_str h b p | OTable t st _ => destroy_table h t st | OPoly ps fs _ => destroy_poly h ps fs | ODead => UB Dangling end).
  assert (D1 : exists h1, del (s_heap s) = Ok h1 /\ del h1 = UB Dangling).
  { unfold del. destruct o as [b p|t st ml|ps fs n|]; [| | |congruence].
    - cbn [owned app] in P. unfold destroy_str. destruct (free_perm _ _ _ P) as [h1 [F1 P1]]. destruct (free_perm _ _ _ P1) as [h2 [F2 P2]]. exists h2. rewrite F1. cbn [bind]. split; [exact F2|].
      assert (G : free h2 b = UB Dangling); [|rewrite G; reflexivity].
      assert (SB : stat h2 b = Some false). { destruct (free_stat _ _ _ b F1) as [A _]. destruct (A eq_refl) as [_ A1]. destruct (free_cases _ _ _ b F2) as [[B _]|[B _]]; [rewrite B; exact A1|congruence]. }
      unfold free. unfold stat in SB. destruct (nth_error h2 b) as [[]|]; try discriminate. reflexivity.
    - destruct (destroy_table_ok _ _ _ ml _ P) as [h1 [E _]]. exists h1. split; [exact E|].
      assert (ST : stat h1 t = Some false). { destruct (destroy_table_cases _ _ _ _ t E) as [[_ N]|[_ N]]; [congruence|exact N]. }
      unfold destroy_table, free. unfold stat in ST. destruct (nth_error h1 t) as [[]|]; try discriminate. reflexivity.
    - cbn [owned] in P. rewrite <- app_assoc in P. destruct (free_opt_perm _ ps _ P) as [h1 [F1 P1]]. destruct (free_opt_perm _ fs _ P1) as [h2 [F2 P2]]. exists h2. unfold destroy_poly. rewrite F1. cbn [bind]. split; [exact F2|].
      assert (DP : destroy_poly (s_heap s) ps fs = Ok h2) by (unfold destroy_poly; rewrite F1; exact F2).
      assert (G : forall x, ps = Some x \/ fs = Some x -> free h2 x = UB Dangling).
      { intros x HX. destruct (destroy_poly_cases _ _ _ _ x DP) as [[_ [N1 N2]]|[_ N]]; [destruct HX; contradiction|]. unfold free. unfold stat in N. destruct (nth_error h2 x) as [[]|]; try discriminate. reflexivity. }
      destruct ps as [x|]; cbn [free_opt]; [rewrite (G x (or_introl eq_refl)); reflexivity|]. cbn [bind]. destruct fs as [y|]; cbn [free_opt]; [rewrite (G y (or_intror eq_refl)); reflexivity|].
      cbn [holds] in HO. destruct HO; discriminate. }
  destruct D1 as [h1 [D1 D2]].
  assert (GO : forall x y, x <> y -> nth_error (s_objs s1) x = Some o -> nth_error (s_objs s1) y = Some o -> exec_all s1 [CDestroy x; CDestroy y] = UB Dangling).
  { intros x y NE EX EY. cbn [exec_all exec]. rewrite (ET _ _ EX). cbn [bind]. change (s_heap s1) with (s_heap s). fold (del (s_heap s)). rewrite D1. cbn [bind].
    assert (EY' : nth_error (s_objs (put s1 h1 x ODead)) y = Some o) by (cbn [put s_objs]; rewrite upd_nth_other by congruence; exact EY).
    rewrite (ET _ _ EY'). cbn [bind put s_heap]. fold (del h1). rewrite D2. reflexivity. }
  rewrite !exec_app, HE. cbn [bind exec_all exec]. rewrite (ET _ _ EO). cbn [bind]. fold s1. split; apply GO; try assumption; unfold j; lia.
Qed.
Print Assumptions C117_double_delete.

(** The same after an assignment [x = y]. *)
Theorem C117_assignments : forall pre k s i j o o' a post s',
  proper [] pre = Some k -> exec_all start pre = Ok s -> i <> j -> nth_error (s_objs s) i = Some o -> nth_error (s_objs s) j = Some o' -> holds o' a ->
  Forall no_copy post -> In (CDestroy i) post -> In (CDestroy j) post ->
  exec_all start (pre ++ CAssign i j :: post) <> Ok s'.
Proof.
  intros pre k s i j o o' a post s' HP HE NE EO EO' HO NC DI DJ H. destruct (reach _ _ _ HP HE) as [leaked [V _]]. rewrite exec_app, HE in H. cbn [bind exec_all exec] in H.
  assert (ET : the_obj s j = Ok o') by (unfold the_obj; rewrite EO'; destruct o'; try reflexivity; destruct HO). rewrite ET in H.
  apply bind_ok in H. destruct H as [s1 [H1 H]]. apply bind_ok in H1. destruct H1 as [o1 [_ H1]]. cbn [bind] in H1. destruct (same_class o1 o'); [|discriminate]. injection H1 as <-.
  destruct (holds_keeps _ _ HO) as [b K]. pose proof (inv_holds _ _ _ _ _ b V EO' (keeps_holds _ _ K)) as LV.
  apply (shared_not_both_dead post (put s (s_heap s) i o') s' i j b); try assumption. left. split; [exact LV|].
  split; exists o'; cbn [put s_objs]; (split; [|exact K]); [apply upd_nth_same, nth_error_Some; congruence|]. rewrite upd_nth_other by congruence. exact EO'.
Qed.
Print Assumptions C117_assignments.

(** On top of that, the arrays [x] had are lost: they are never released. *)
Theorem C117_assignment_leaks : forall pre k s i j o o' a post s',
  proper [] pre = Some k -> exec_all start pre = Ok s -> i <> j -> nth_error (s_objs s) i = Some o -> nth_error (s_objs s) j = Some o' -> holds o a ->
  Forall no_copy post -> exec_all start (pre ++ CAssign i j :: post) = Ok s' -> exists c, nth_error (s_heap s') a = Some (Live c).
Proof.
  intros pre k s i j o o' a post s' HP HE NE EO EO' HO NC H. destruct (reach _ _ _ HP HE) as [leaked [V _]]. rewrite exec_app, HE in H. cbn [bind exec_all exec] in H.
  apply bind_ok in H. destruct H as [s1 [H1 H]]. apply bind_ok in H1. destruct H1 as [o1 [_ H1]]. apply bind_ok in H1. destruct H1 as [o2 [E2 H1]]. apply the_obj_inv in E2. destruct E2 as [E2 _].
  assert (o2 = o') by congruence. subst o2. destruct (same_class o1 o'); [|discriminate]. injection H1 as <-.
  assert (L : loose (put s (s_heap s) i o') a).
  { split; [exact (inv_holds _ _ _ _ _ a V EO HO)|]. intros x q EX. cbn [put s_objs] in EX. rewrite upd_nth in EX. destruct (Nat.eqb_spec x i) as [->|NX].
    - rewrite EO in EX. injection EX as <-. exact (owners_distinct _ _ _ _ _ _ _ _ V NE EO EO' HO).
    - exact (owners_distinct _ _ _ _ _ _ _ _ V (not_eq_sym NX) EO EX HO). }
  pose proof (loose_run _ _ _ _ NC H L) as [ST _]. unfold stat in ST. destruct (nth_error (s_heap s') a) as [[c|]|]; try discriminate. exists c. reflexivity.
Qed.
Print Assumptions C117_assignment_leaks.

(** Until one of the two is destroyed, a copied table and the original are one
    table: whatever is added through either is seen through both. *)
Theorem C117_one_table : forall pre s i t st ml post s1, let j := length (s_objs s) in
  exec_all start pre = Ok s -> nth_error (s_objs s) i = Some (OTable t st ml) ->
  Forall no_copy post -> ~ In (CDestroy i) post -> ~ In (CDestroy j) post ->
  exec_all start (pre ++ CCopy i :: post) = Ok s1 -> forall b, bucket s1 i b = bucket s1 j b.
Proof.
  intros pre s i t st ml post s1 j HE EO NC NI NJ H b. rewrite exec_app, HE in H. cbn [bind exec_all exec] in H.
  assert (ET : the_obj s i = Ok (OTable t st ml)) by (unfold the_obj; rewrite EO; reflexivity). rewrite ET in H. cbn [bind] in H.
  assert (LT : (i < length (s_objs s))%nat) by (apply nth_error_Some; congruence).
  destruct (table_run post (add_obj s (s_heap s) (OTable t st ml)) s1 i t st ml NC NI H) as [st1 E1]; [cbn [add_obj s_objs]; rewrite nth_error_app1 by exact LT; exact EO|].
  destruct (table_run post (add_obj s (s_heap s) (OTable t st ml)) s1 j t st ml NC NJ H) as [st2 E2]; [cbn [add_obj s_objs]; rewrite nth_error_app2 by (unfold j; lia); unfold j; rewrite Nat.sub_diag; reflexivity|].
  unfold bucket, the_obj. rewrite E1, E2. reflexivity.
Qed.
Print Assumptions C117_one_table.

(** What an assignment [x = y] does: it is possible exactly between objects of
    one class, releases and allocates nothing, makes [x] hold what [y] holds
    and leaves all other objects alone. *)
Theorem C117_assignment : forall s i j o o', nth_error (s_objs s) i = Some o -> nth_error (s_objs s) j = Some o' -> o <> ODead -> o' <> ODead ->
  ((exists s', exec s (CAssign i j) = Ok s') <->
     match o, o' with OStr _ _, OStr _ _ => True | OTable _ _ _, OTable _ _ _ => True | OPoly _ _ _, OPoly _ _ _ => True | _, _ => False end) /\
  forall s', exec s (CAssign i j) = Ok s' ->
    s_heap s' = s_heap s /\ length (s_objs s') = length (s_objs s) /\ nth_error (s_objs s') i = Some o' /\
    forall k, k <> i -> nth_error (s_objs s') k = nth_error (s_objs s) k.
Proof.
  intros s i j o o' E1 E2 N1 N2. assert (L : (i < length (s_objs s))%nat) by (apply nth_error_Some; congruence).
  assert (X : exec s (CAssign i j) = if same_class o o' then Ok (put s (s_heap s) i o') else UB BadCast).
  { cbn [exec]. unfold the_obj. rewrite E1, E2. destruct o, o'; try contradiction; reflexivity. }
  split.
  - rewrite X. destruct o, o'; cbn [same_class]; split; intros H; try exact I; try contradiction; try (destruct H; discriminate); eauto.
  - intros s' H. rewrite X in H. destruct (same_class o o'); [|discriminate]. apply Ok_inj in H. subst s'. cbn [put s_heap s_objs].
    split; [reflexivity|]. split; [apply upd_length|]. split; [apply upd_nth_same; exact L|]. intros k K. apply upd_nth_other. congruence.
Qed.
Print Assumptions C117_assignment.
Example C117_assignment_nonvacuous :
  match exec_all start [CNewStr 2; CNewStr 1; CNewTable 2 2 None; CNewTable 3 2 None; CNewPoly; CInterpolate 4 3; CNewPoly] with
  | Ok s => (exists s', exec s (CAssign 0 1) = Ok s') /\ (exists s', exec s (CAssign 2 3) = Ok s') /\ (exists s', exec s (CAssign 4 5) = Ok s') /\
            exec s (CAssign 0 2) = UB BadCast
  | _ => False
  end.
Proof. vm_compute. repeat split; eexists; reflexivity. Qed.

(** a table with an element, a list of polynomials, and their copies *)
Example C117_nonvacuous :
  let pre := [CNewTable 4 2 (Some 20%nat); CAdd 0 7 9; CNewPoly; CInterpolate 1 3] in
  proper [] pre = Some [Some (KTable true); Some KPoly] /\
  match exec_all start pre with
  | Ok s => length (s_objs s) = 2%nat /\ (exists o a, nth_error (s_objs s) 0 = Some o /\ holds o a) /\ (exists o a, nth_error (s_objs s) 1 = Some o /\ holds o a)
  | _ => False
  end /\
  match exec_all start (pre ++ [CCopy 0; CAdd 2 8 5; CSetAlgo 2 (Some 20%nat); CAdd 0 5 4]) with
  | Ok s => bucket s 0 1 = Ok [7; 8] /\ bucket s 2 1 = Ok [7; 8] /\ bucket s 2 0 = Ok [5]
  | _ => False
  end /\
  (* a list of polynomials without arrays can be copied *)
  match exec_all start [CNewPoly; CCopy 0; CInterpolate 0 3; CInterpolate 1 4; CDestroy 0; CDestroy 1] with Ok s => live_blocks s = 0%nat | _ => False end /\
  exec_all start (pre ++ [CCopy 1; CInterpolate 1 4; CDestroy 2]) = UB Dangling.
Proof.
  split; [reflexivity|]. split.
  - vm_compute. split; [reflexivity|]. split.
    + exists (OTable 3 (Some (0, 1, 2)%nat) 2), 3%nat. split; [reflexivity|left; reflexivity].
    + exists (OPoly (Some 4%nat) None 3), 4%nat. split; [reflexivity|left; reflexivity].
  - vm_compute. repeat split.
Qed.

