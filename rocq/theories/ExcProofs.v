(** Proofs about the exception classes. *)
From Coq Require Import Lia.
From Verif Require Import Base Lib ExcModel ExcSpec.

Lemma make_ok x : make x =
  if asked_fatal x
  then (Exit (asked_code x), fatal_text ++ asked_message x ++ [10])
  else (Ok (mkExc (asked_class x) (asked_message x) false (asked_code x)), []).
Proof.
  destruct x as [[m|] [[|]|] [c|] | [m|] [[|]|] | [m|] [[|]|] [c|]]; try reflexivity; destruct m; reflexivity.
Qed.

Lemma count_app l o : count_objs (o :: l) = (if creates o then S (count_objs l) else count_objs l).
Proof. unfold count_objs. cbn [filter]. now destruct (creates o). Qed.

Lemma count_rev l : count_objs (rev l) = count_objs l.
Proof.
  induction l as [|o t IH]; [reflexivity|]. cbn [rev]. rewrite count_app, <- IH.
  unfold count_objs. rewrite filter_app, app_length. cbn [filter]. destruct (creates o); cbn [length]; lia.
Qed.

(** one projection at a time: [f] reads the field, a history of which is
    described by [of_expr] and [of_set] *)
Section OneField.
Context {A : Type} (f : exc -> A) (of_expr : expr -> A) (of_set : op -> option (nat * A)).
Definition agrees (s : list exc) (r : list op) : Prop :=
  length s = count_objs r /\ forall i e, nth_error s i = Some e -> last_rev of_expr of_set r i = Some (f e).
Hypothesis Hnew : forall x e out, make x = (Ok e, out) -> f e = of_expr x.
Hypothesis Hassign : forall d e, f (mkExc (ex_class d) (ex_message e) (ex_fatal e) (ex_exitCode e)) = f e.
Hypothesis Hset : forall s o s', match o with ONew _ | OCopy _ | OAssign _ _ => False | _ => True end ->
  fst (exec_op s o) = Ok s' ->
  length s' = length s /\
  match of_set o with
  | Some (d, a) => forall i e, nth_error s' i = Some e -> if Nat.eqb i d then f e = a else nth_error s i = Some e
  | None => forall i e, nth_error s' i = Some e -> exists e0, nth_error s i = Some e0 /\ f e0 = f e
  end.

Lemma step_agrees s r o s' : agrees s r -> fst (exec_op s o) = Ok s' -> agrees s' (o :: r).
Proof using Hnew Hassign Hset.
  intros [HL HA] E.
  assert (C : match o with ONew _ | OCopy _ | OAssign _ _ => False | _ => True end -> agrees s' (o :: r)).
  { intros Hk. destruct (Hset s o s' Hk E) as [HL2 H2]. split.
    - rewrite HL2, HL, count_app. now destruct o.
    - intros i e Hi. destruct o; try easy; cbn [last_rev];
      (destruct (of_set _) as [[d a]|];
       [specialize (H2 i e Hi); destruct (Nat.eqb i d); [now rewrite H2 | now apply HA]
       | destruct (H2 i e Hi) as (e0 & H0 & <-); now apply HA]). }
  destruct o as [x|i m|i b|i c|j|d j]; try (now apply C).
  - cbn [exec_op] in E. destruct (make x) as [rr out] eqn:EM. cbn [fst] in E.
    destruct rr as [e| | | |]; cbn [bind] in E; try discriminate. injection E as <-.
    split; [rewrite app_length, count_app; cbn [creates length]; lia|].
    intros i e1 Hi. cbn [last_rev]. destruct (Nat.eqb_spec i (count_objs r)) as [->|Hne].
    + rewrite nth_error_app2, HL, PeanoNat.Nat.sub_diag in Hi by lia. cbn in Hi. injection Hi as <-.
      now rewrite (Hnew _ _ _ EM).
    + apply HA. assert (i < length s)%nat.
      { assert (Hlt := proj1 (nth_error_Some (s ++ [e]) i)). rewrite Hi in Hlt. specialize (Hlt ltac:(discriminate)).
        rewrite app_length in Hlt. cbn in Hlt. lia. }
      now rewrite nth_error_app1 in Hi.
  - cbn [exec_op fst] in E. unfold aget in E. destruct (nth_error s j) as [e|] eqn:Ej; cbn [bind] in E; [|discriminate].
    injection E as <-. split; [rewrite app_length, count_app; cbn [creates length]; lia|].
    intros i e1 Hi. cbn [last_rev]. destruct (Nat.eqb_spec i (count_objs r)) as [->|Hne].
    + rewrite nth_error_app2, HL, PeanoNat.Nat.sub_diag in Hi by lia. cbn in Hi. injection Hi as <-. now apply HA.
    + apply HA. assert (i < length s)%nat.
      { assert (Hlt := proj1 (nth_error_Some (s ++ [e]) i)). rewrite Hi in Hlt. specialize (Hlt ltac:(discriminate)).
        rewrite app_length in Hlt. cbn in Hlt. lia. }
      now rewrite nth_error_app1 in Hi.
  - cbn [exec_op fst] in E. unfold at_obj, aget, aset in E.
    destruct (nth_error s j) as [e|] eqn:Ej; cbn [bind] in E; [|discriminate].
    destruct (nth_error s d) as [e2|] eqn:Ed; cbn [bind] in E; [|discriminate].
    assert (Hd : (d < length s)%nat) by (apply nth_error_Some; now rewrite Ed).
    destruct (Nat.ltb_spec d (length s)) as [_|]; [|lia]. injection E as <-.
    split; [rewrite upd_length, count_app; exact HL|].
    intros i e1 Hi. cbn [last_rev]. rewrite upd_nth in Hi. destruct (Nat.eqb_spec i d) as [->|Hne].
    + rewrite Ed in Hi. injection Hi as <-. rewrite Hassign. now apply HA.
    + now apply HA.
Qed.
End OneField.

Lemma at_obj_ok s i g : (i < length s)%nat ->
  exists e, nth_error s i = Some e /\ at_obj s i g = Ok (upd s i (g e)).
Proof.
  intros H. unfold at_obj. destruct (aget_lt s i H) as (e & -> & He). exists e. split; [exact He|].
  cbn [bind]. now apply aset_ok.
Qed.
Lemma at_obj_inv s i g s' : at_obj s i g = Ok s' -> exists e, nth_error s i = Some e /\ s' = upd s i (g e).
Proof.
  unfold at_obj. intros H. apply bind_ok in H as (e & He & H). apply aget_ok in He. exists e.
  split; [exact He|]. now apply aset_inv in H as [-> _].
Qed.

(** running a well-named history without a fatal request *)
Lemma exec_ok l : forall s, named (length s) l -> forallb (fun o => negb (asks_fatal o)) l = true ->
  exists s', exec_ops s l = (Ok s', []) /\ length s' = (length s + count_objs l)%nat.
Proof.
  induction l as [|o t IH]; intros s HN HF.
  - exists s. split; [reflexivity | unfold count_objs; cbn; lia].
  - cbn [forallb] in HF. apply andb_prop in HF as [HF1 HF2]. rewrite count_app. cbn [exec_ops].
    destruct o as [x|i m|i b|i c|j|d j]; cbn [named asks_fatal creates] in *.
    + cbn [exec_op]. rewrite make_ok. apply negb_true_iff in HF1. rewrite HF1. cbn [bind].
      destruct (IH (s ++ [mkExc (asked_class x) (asked_message x) false (asked_code x)])) as (s' & -> & HL).
      { rewrite app_length. cbn [length]. now rewrite PeanoNat.Nat.add_1_r. } { exact HF2. }
      exists s'. split; [reflexivity|]. rewrite HL, app_length. cbn [length]. lia.
    + destruct HN as [Hi HN]. cbn [exec_op]. destruct (at_obj_ok s i (fun e => setMessage e m) Hi) as (e & _ & ->).
      destruct (IH (upd s i (setMessage e m))) as (s' & -> & HL); [now rewrite upd_length|exact HF2|].
      exists s'. rewrite upd_length in HL. now split.
    + destruct HN as [Hi HN]. cbn [exec_op]. destruct (at_obj_ok s i (fun e => setFatal e b) Hi) as (e & _ & ->).
      destruct (IH (upd s i (setFatal e b))) as (s' & -> & HL); [now rewrite upd_length|exact HF2|].
      exists s'. rewrite upd_length in HL. now split.
    + destruct HN as [Hi HN]. cbn [exec_op]. destruct (at_obj_ok s i (fun e => setExitCode e c) Hi) as (e & _ & ->).
      destruct (IH (upd s i (setExitCode e c))) as (s' & -> & HL); [now rewrite upd_length|exact HF2|].
      exists s'. rewrite upd_length in HL. now split.
    + destruct HN as [Hj HN]. cbn [exec_op]. destruct (aget_lt s j Hj) as (e & -> & _). cbn [bind].
      destruct (IH (s ++ [e])) as (s' & -> & HL).
      { rewrite app_length. cbn [length]. now rewrite PeanoNat.Nat.add_1_r. } { exact HF2. }
      exists s'. split; [reflexivity|]. rewrite HL, app_length. cbn [length]. lia.
    + destruct HN as (Hi & Hj & HN). cbn [exec_op]. destruct (aget_lt s j Hj) as (e & -> & _). cbn [bind].
      destruct (at_obj_ok s d (fun d => mkExc (ex_class d) (ex_message e) (ex_fatal e) (ex_exitCode e)) Hi) as (e2 & _ & ->).
      destruct (IH (upd s d (mkExc (ex_class e2) (ex_message e) (ex_fatal e) (ex_exitCode e)))) as (s' & -> & HL);
        [now rewrite upd_length|exact HF2|].
      exists s'. rewrite upd_length in HL. now split.
Qed.

Lemma exec_ops_app a : forall s b, exec_ops s (a ++ b) =
  match exec_ops s a with
  | (Ok s', out) => let '(r, out2) := exec_ops s' b in (r, out ++ out2)
  | (r, out) => (r, out)
  end.
Proof.
  induction a as [|o t IH]; intros s b; cbn [app exec_ops].
  - now destruct (exec_ops s b).
  - destruct (exec_op s o) as [[s1| | | |] out]; try reflexivity. rewrite IH.
    destruct (exec_ops s1 t) as [[s2| | | |] out2]; try reflexivity.
    destruct (exec_ops s2 b) as [r3 out3]. now rewrite app_assoc.
Qed.

Lemma exec_agrees {A} (f : exc -> A) of_expr of_set
  (Hnew : forall x e out, make x = (Ok e, out) -> f e = of_expr x)
  (Hassign : forall d e, f (mkExc (ex_class d) (ex_message e) (ex_fatal e) (ex_exitCode e)) = f e)
  (Hset : forall s o s', match o with ONew _ | OCopy _ | OAssign _ _ => False | _ => True end ->
    fst (exec_op s o) = Ok s' ->
    length s' = length s /\
    match of_set o with
    | Some (d, a) => forall i e, nth_error s' i = Some e -> if Nat.eqb i d then f e = a else nth_error s i = Some e
    | None => forall i e, nth_error s' i = Some e -> exists e0, nth_error s i = Some e0 /\ f e0 = f e
    end) l : forall s r s' out, agrees f of_expr of_set s r -> exec_ops s l = (Ok s', out) ->
  agrees f of_expr of_set s' (rev l ++ r).
Proof.
  induction l as [|o t IH]; intros s r s' out HA E; cbn [exec_ops] in E.
  - now injection E as <- <-.
  - destruct (exec_op s o) as [[s1| | | |] out1] eqn:E1; try discriminate.
    destruct (exec_ops s1 t) as [r2 out2] eqn:E2. injection E as -> <-.
    cbn [rev]. rewrite <- app_assoc. cbn [app]. eapply IH; [|exact E2].
    eapply step_agrees; eauto. now rewrite E1.
Qed.

Ltac field_set :=
  let s := fresh "s" in let o := fresh "o" in let s' := fresh "s'" in let E := fresh "E" in
  intros s o s' Hk E; destruct o as [x|i m|i b|i c|j|d j]; try easy; cbn [exec_op fst] in E;
  apply at_obj_inv in E as (e0 & He0 & ->); (split; [apply upd_length|]);
  intros k e Hk2; rewrite upd_nth in Hk2; (destruct (Nat.eqb k i) eqn:Eki;
  [apply PeanoNat.Nat.eqb_eq in Eki; subst k; rewrite He0 in Hk2; injection Hk2 as <-; eauto | eauto]).

Lemma history_message l s out : exec_ops [] l = (Ok s, out) ->
  forall i e, nth_error s i = Some e -> message_after l i = Some (getMessage e).
Proof.
  intros E. unfold message_after. rewrite <- (app_nil_r (rev l)).
  match goal with |- forall i e, _ -> last_rev ?a ?b ?r i = _ => cut (agrees ex_message a b s r); [intros [_ HH]; exact HH|] end.
  refine (exec_agrees ex_message _ _ _ _ _ l [] [] s out _ E).
  - intros x e o2 Hm. rewrite make_ok in Hm. destruct (asked_fatal x); [discriminate|]. now injection Hm as <- <-.
  - reflexivity.
  - field_set.
  - split; [reflexivity|]. intros i e H. now destruct i.
Qed.
Lemma history_fatal l s out : exec_ops [] l = (Ok s, out) ->
  forall i e, nth_error s i = Some e -> fatal_after l i = Some (isFatal e).
Proof.
  intros E. unfold fatal_after. rewrite <- (app_nil_r (rev l)).
  match goal with |- forall i e, _ -> last_rev ?a ?b ?r i = _ => cut (agrees ex_fatal a b s r); [intros [_ HH]; exact HH|] end.
  refine (exec_agrees ex_fatal _ _ _ _ _ l [] [] s out _ E).
  - intros x e o2 Hm. rewrite make_ok in Hm. destruct (asked_fatal x) eqn:Ef; [discriminate|]. now injection Hm as <- <-.
  - reflexivity.
  - field_set.
  - split; [reflexivity|]. intros i e H. now destruct i.
Qed.
Lemma history_code l s out : exec_ops [] l = (Ok s, out) ->
  forall i e, nth_error s i = Some e -> code_after l i = Some (getExitCode e).
Proof.
  intros E. unfold code_after. rewrite <- (app_nil_r (rev l)).
  match goal with |- forall i e, _ -> last_rev ?a ?b ?r i = _ => cut (agrees ex_exitCode a b s r); [intros [_ HH]; exact HH|] end.
  refine (exec_agrees ex_exitCode _ _ _ _ _ l [] [] s out _ E).
  - intros x e o2 Hm. rewrite make_ok in Hm. destruct (asked_fatal x) eqn:Ef; [discriminate|]. now injection Hm as <- <-.
  - reflexivity.
  - field_set.
  - split; [reflexivity|]. intros i e H. now destruct i.
Qed.

(** *** throw and catch *)
Lemma throw_ok h cur x : exec h cur (SThrow x) =
  if asked_fatal x then (h, Exited (asked_code x))
  else (h ++ [mkExc (asked_class x) (asked_message x) false (asked_code x)], Raised (length h)).
Proof. cbn [exec]. rewrite make_ok. now destruct (asked_fatal x). Qed.

Lemma exit_from s : forall h cur h' c, exec h cur s = (h', Exited c) ->
  exists x, In x (throws s) /\ asked_fatal x = true /\ asked_code x = c.
Proof.
  induction s as [|a IHa b IHb|x| |f|a IHa p b IHb]; intros h cur h' c E.
  - discriminate.
  - cbn [exec throws] in *. destruct (exec h cur a) as [h1 [|i|c1|]] eqn:Ea; try discriminate.
    + destruct (IHb _ _ _ _ E) as (x & Hx & H). exists x. split; [apply in_or_app; now right|exact H].
    + injection E as -> ->. destruct (IHa _ _ _ _ Ea) as (x & Hx & H). exists x. split; [apply in_or_app; now left|exact H].
  - rewrite throw_ok in E. destruct (asked_fatal x) eqn:Ef; [|discriminate]. injection E as <- <-.
    exists x. repeat split; [now left|exact Ef].
  - cbn [exec] in E. now destruct cur.
  - cbn [exec] in E. destruct cur as [i|]; [|discriminate]. now destruct (nth_error h i).
  - cbn [exec throws] in *. destruct (exec h cur a) as [h1 [|i|c1|]] eqn:Ea; try discriminate.
    + destruct (nth_error h1 i) as [e|]; [|discriminate]. destruct (catches p e); [|discriminate].
      destruct (IHb _ _ _ _ E) as (x & Hx & H). exists x. split; [apply in_or_app; now right|exact H].
    + injection E as -> ->. destruct (IHa _ _ _ _ Ea) as (x & Hx & H). exists x. split; [apply in_or_app; now left|exact H].
Qed.

Lemma fatal_inside fs x : asked_fatal x = true ->
  (forall b r h cur, In (FAfter b r) fs -> exists h', exec h cur b = (h', Done)) ->
  forall h cur, exists h', exec h cur (inside fs (SThrow x)) = (h', Exited (asked_code x)).
Proof.
  intros Hf. induction fs as [|[b r|p hd] t IH]; intros HB h cur; cbn [inside].
  - rewrite throw_ok, Hf. eauto.
  - cbn [exec]. destruct (HB b r h cur (or_introl eq_refl)) as [h1 ->].
    destruct (IH (fun b r h cur Hin => HB b r h cur (or_intror Hin)) h1 cur) as [h2 ->]. eauto.
  - cbn [exec]. destruct (IH (fun b r h cur Hin => HB b r h cur (or_intror Hin)) h cur) as [h2 ->]. eauto.
Qed.

(** the handler nearest to the throw that takes the class [k]; frames are
    listed from the outside in *)
Fixpoint nearest (fs : list frame) (k : cls) : option stmt :=
  match fs with
  | [] => None
  | f :: t =>
      match nearest t k with
      | Some h => Some h
      | None =>
          match f with
          | FTry p h =>
              match p, k with
              | PAll, _ | PStd, _ | PClass KException, _ => Some h
              | PClass KOutOfBound, KOutOfBound => Some h
              | PClass KProtocol, KProtocol => Some h
              | _, _ => None
              end
          | _ => None
          end
      end
  end.

Lemma catches_takes p e : catches p e = true <-> takes p (ex_class e).
Proof.
  unfold takes, is_a. destruct p as [[| |]| |]; cbn; try (split; auto; fail); destruct (ex_class e); cbn; split; intros H;
    try reflexivity; try discriminate; auto; now destruct H.
Qed.

Lemma nearest_None_catch p hd t k e : ex_class e = k -> nearest t k = None ->
  nearest (FTry p hd :: t) k = if catches p e then Some hd else None.
Proof. intros <- H. cbn [nearest]. rewrite H. destruct p as [[| |]| |]; cbn; destruct (ex_class e); reflexivity. Qed.

Lemma nearest_raises l x h cur : asked_fatal x = false -> nearest (tries l) (asked_class x) = None ->
  exec h cur (inside (tries l) (SThrow x)) =
    (h ++ [mkExc (asked_class x) (asked_message x) false (asked_code x)], Raised (length h)).
Proof.
  intros Hf. set (e := mkExc _ _ _ _). induction l as [|[p hd] t IH]; intros HN.
  - cbn [tries map inside]. rewrite throw_ok, Hf. reflexivity.
  - cbn [tries map fst snd inside] in *. fold (tries t) in *.
    destruct (nearest (tries t) (asked_class x)) as [h2|] eqn:Et; [cbn [nearest] in HN; rewrite Et in HN; discriminate|].
    rewrite (nearest_None_catch p hd _ _ e) in HN by (exact Et || reflexivity).
    cbn [exec]. rewrite IH by reflexivity. rewrite nth_error_app2, PeanoNat.Nat.sub_diag by lia. cbn [nth_error].
    now destruct (catches p e).
Qed.

Lemma nearest_handles l x hd h cur h2 : asked_fatal x = false -> nearest (tries l) (asked_class x) = Some hd ->
  exec (h ++ [mkExc (asked_class x) (asked_message x) false (asked_code x)]) (Some (length h)) hd = (h2, Done) ->
  exec h cur (inside (tries l) (SThrow x)) = (h2, Done).
Proof.
  intros Hf. set (e := mkExc _ _ _ _). intros HN HH. revert HN.
  induction l as [|[p hd1] t IH]; intros HN; [discriminate|].
  cbn [tries map fst snd inside] in *. fold (tries t) in *.
  destruct (nearest (tries t) (asked_class x)) as [hd2|] eqn:Et.
  - cbn [nearest] in HN. rewrite Et in HN. injection HN as ->. cbn [exec]. now rewrite IH.
  - rewrite (nearest_None_catch p hd1 _ _ e) in HN by (exact Et || reflexivity).
    cbn [exec]. rewrite nearest_raises by assumption. fold e.
    rewrite nth_error_app2, PeanoNat.Nat.sub_diag by lia. cbn [nth_error].
    destruct (catches p e); [|discriminate]. now injection HN as ->.
Qed.

Lemma nearest_app_None a b k : nearest b k = None -> nearest (a ++ b) k = nearest a k.
Proof. intros H. induction a as [|f t IH]; cbn [app nearest]; [exact H|]. now rewrite IH. Qed.
Lemma nearest_app_Some a b k hd : nearest b k = Some hd -> nearest (a ++ b) k = Some hd.
Proof. intros H. induction a as [|f t IH]; cbn [app nearest]; [exact H|]. now rewrite IH. Qed.
Lemma nearest_none l k : Forall (fun ph => ~ takes (fst ph) k) l -> nearest (tries l) k = None.
Proof.
  induction 1 as [|[p hd] t Hp Ht IH]; [reflexivity|]. cbn [tries map fst snd]. fold (tries t).
  rewrite (nearest_None_catch p hd (tries t) k (mkExc k [] false 0)) by (exact IH || reflexivity).
  destruct (catches p (mkExc k [] false 0)) eqn:E; [|reflexivity]. apply catches_takes in E. now destruct Hp.
Qed.
Lemma nearest_some outer p hd inner k : takes p k -> Forall (fun ph => ~ takes (fst ph) k) inner ->
  nearest (tries (outer ++ (p, hd) :: inner)) k = Some hd.
Proof.
  intros Hp Hi. unfold tries. rewrite map_app. apply nearest_app_Some. cbn [map fst snd]. fold (tries inner).
  rewrite (nearest_None_catch p hd (tries inner) k (mkExc k [] false 0)) by (now apply nearest_none || reflexivity).
  assert (E : catches p (mkExc k [] false 0) = true) by now apply catches_takes. now rewrite E.
Qed.
