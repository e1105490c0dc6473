(** C18: what a table says about its dimensions *)
From Verif Require Import Base Spec Lib HashBucketsModel HashBucketsSpec HashBucketsProofs AllocSpec AllocProofs PropHash.

(** Whatever was called on a table, getLength() and getMaxLoad() are the
    numbers it was made with, and the buckets that can be read are exactly
    those before getLength(). *)
Theorem C18_dimensions : forall (T G : Type) (gen : G -> T * G) k ml a h0 g0 ops h g,
  match a with Some al => algo_valid al | None => True end -> Forall op_algo_valid ops ->
  new_hb k ml a = Ok h0 -> run_table gen (h0, g0) ops = Ok (h, g) ->
  getLength h = k /\ getMaxLoad h = ml /\
  (forall i, (i < k)%nat -> exists b, getBucket h i = Ok b) /\ (forall i, (k <= i)%nat -> getBucket h i = Exit 1).
Proof.
  intros T G gen k ml a h0 g0 ops h g V VO E0 E.
  destruct (new_hb_ok k ml a V) as [h0' [E0' [W0 [K0 [M0 _]]]]]. assert (h0' = h0) by congruence. subst h0'.
  assert (X : hwf h /\ hb_k h = k /\ hb_maxload h = ml).
  { clear E0 E0'. revert h0 g0 W0 K0 M0 E. induction VO as [|o ops Ho VO IH]; intros h0 g0 W0 K0 M0 E; cbn [run_table] in E.
    - injection E as -> ->. auto.
    - apply bind_ok in E. destruct E as [[h2 g2] [Ha Hb]]. destruct (apply_top_extends gen h0 h2 g0 g2 o (proj1 W0) Ha) as [Q1 [Q2 _]].
      assert (W2 : hwf h2). { apply (run_table_wf gen [o] h0 g0 h2 g2 W0); [constructor; [exact Ho|constructor]|]. cbn [run_table]. rewrite Ha. reflexivity. }
      apply (IH h2 g2 W2); [congruence|congruence|exact Hb]. }
  destruct X as [[WL _] [HK HM]]. split; [exact HK|]. split; [exact HM|]. unfold getBucket. rewrite HK. split; intros i Hi.
  - destruct (Nat.ltb_spec i k); [|lia]. destruct (aget_lt (hb_buckets h) i ltac:(lia)) as [b [Eb _]]. eauto.
  - destruct (Nat.ltb_spec i k); [lia|]. reflexivity.
Qed.
Print Assumptions C18_dimensions.
Example C18_dimensions_nonvacuous : exists h0 h g, new_hb 3 2 (Some demo_algo) = Ok h0 /\
  run_table demo_gen (h0, 100) [TAdd 4; TConceal; TSetAlgo None] = Ok (h, g) /\ getLength h = 3%nat /\ getMaxLoad h = 2%nat.
Proof. do 3 eexists. vm_compute. repeat split; reflexivity. Qed.
