(** Property C109: the work-sharing branch of blind(). *)
From Verif Require Import Base Spec Lib NtlMissProofs PolyModel PolySpec EopsiModel.
From Coq Require Import Lia.

Lemma polEval_range p us polys L : length polys = L -> forall from to bl, (to <= L)%nat -> length bl = L ->
  exists bl', polEval p us polys from to bl = Ok bl' /\ length bl' = L /\
    forall j, (j < L)%nat -> nth_error bl' j =
      if (Nat.leb from j && Nat.ltb j to)%bool then Some (peval_vec p (nth j polys []) us) else nth_error bl j.
Proof.
  intros LP from to bl T LB. unfold polEval.
  destruct (for_up_inv (fun i (b : matrix) => length b = L /\ forall j, (j < L)%nat -> nth_error b j =
      if (Nat.leb from j && Nat.ltb j i)%bool then Some (peval_vec p (nth j polys []) us) else nth_error bl j) (to - from) from
      (fun j bl => do f <- aget polys j; aset bl j (peval_vec p f us)) bl) as [b [E [H1 H2]]].
  - split; [exact LB|]. intros j Hj. destruct (Nat.leb_spec from j); destruct (Nat.ltb_spec j from); try lia; reflexivity.
  - intros i b Hi [H1 H2]. rewrite (aget_nth []) by lia. cbn [bind]. exists (upd b i (peval_vec p (nth i polys []) us)).
    split; [unfold aset; destruct (Nat.ltb_spec i (length b)); [reflexivity|lia]|]. split; [rewrite upd_length; exact H1|].
    intros j Hj. destruct (Nat.eq_dec j i) as [->|NE].
    + rewrite upd_nth_same by lia. destruct (Nat.leb_spec from i); [|lia]. destruct (Nat.ltb_spec i (S i)); [reflexivity|lia].
    + rewrite upd_nth_other by exact NE. rewrite H2 by exact Hj.
      destruct (Nat.leb_spec from j); cbn [andb]; [|reflexivity]. destruct (Nat.ltb_spec j i), (Nat.ltb_spec j (S i)); try lia; reflexivity.
  - exists b. split; [exact E|]. split; [exact H1|]. intros j Hj. rewrite H2 by exact Hj.
    destruct (Nat.leb_spec from j); cbn [andb]; [|reflexivity]. destruct (Nat.ltb_spec j (from + (to - from))), (Nat.ltb_spec j to); try lia; reflexivity.
Qed.

(** blind() sets the number of threads to 1 before it evaluates the polynomials
    (C62).  The branch for more threads stays inside the arrays, but evaluates
    only the first nThreads * floor((length + 1) / nThreads) polynomials; the
    other rows would be outsourced as they are (masked zeros).  Nothing is left
    out exactly if length + 1 leaves remainder 0 or 1. *)
Theorem C109_shared_evaluation : forall p us polys rows nThreads, (1 < nThreads)%nat -> length rows = length polys ->
  let len := length polys in
  let covered := Nat.min (nThreads * ((len + 1) / nThreads)) len in
  (exists rows', evalPolys p nThreads len us polys rows = Ok rows' /\ length rows' = len /\
    forall j, (j < len)%nat ->
      ((j < covered)%nat -> forall f, nth_error polys j = Some f -> nth_error rows' j = Some (peval_vec p f us)) /\
      ((covered <= j)%nat -> nth_error rows' j = nth_error rows j)) /\
  (covered = len <-> ((len + 1) mod nThreads <= 1)%nat).
Proof.
  intros p us polys rows n N LR len covered.
  assert (DM := Nat.div_mod (len + 1) n ltac:(lia)). assert (MB := Nat.mod_upper_bound (len + 1) n ltac:(lia)).
  set (q := ((len + 1) / n)%nat) in *. set (r := ((len + 1) mod n)%nat) in *.
  split; [|unfold covered; lia].
  assert (IN : forall i, (i < n)%nat -> (i * q <= len)%nat).
  { intros i Hi. destruct q as [|q']; [lia|]. assert (i * S q' + S q' <= n * S q')%nat by nia. lia. }
  set (cumul := fun i => if Nat.eqb i n then Nat.min (n * q) len else (i * q)%nat).
  assert (CL : forall i, (i < n)%nat -> cumul i = (i * q)%nat) by (intros i Hi; unfold cumul; destruct (Nat.eqb_spec i n); [lia|reflexivity]).
  assert (EQ : evalPolys p n len us polys rows =
    bind (for_up (n - 1) 0 (fun i bl => polEval p us polys (cumul i) (cumul (S i)) bl) rows) (fun bl1 => polEval p us polys (cumul (n - 1)%nat) (cumul n) bl1)).
  { unfold evalPolys. destruct (Nat.ltb_spec 1 n); [reflexivity|lia]. }
  rewrite EQ. clear EQ.
  destruct (for_up_inv (fun i (b : matrix) => length b = len /\ forall j, (j < len)%nat -> nth_error b j =
      if Nat.ltb j (i * q) then Some (peval_vec p (nth j polys []) us) else nth_error rows j) (n - 1) 0
      (fun i bl => polEval p us polys (cumul i) (cumul (S i)) bl) rows) as [b [E [H1 H2]]].
  - split; [exact LR|]. intros j Hj. destruct (Nat.ltb_spec j (0 * q)); [lia|reflexivity].
  - intros i b Hi [H1 H2]. destruct (polEval_range p us polys len eq_refl (cumul i) (cumul (S i)) b) as [b' [E [L' H']]].
    + rewrite CL by lia. apply IN. lia.
    + exact H1.
    + exists b'. split; [exact E|]. split; [exact L'|]. intros j Hj. rewrite H', H2 by exact Hj. rewrite !CL by lia.
      destruct (Nat.leb_spec (i * q) j), (Nat.ltb_spec j (S i * q)), (Nat.ltb_spec j (i * q)); cbn [andb]; try lia; reflexivity.
  - rewrite E. cbn [bind]. rewrite Nat.add_0_l in H2.
    destruct (polEval_range p us polys len eq_refl (cumul (n - 1)%nat) (cumul n) b) as [b' [E' [L' H']]].
    + unfold cumul. rewrite Nat.eqb_refl. lia.
    + exact H1.
    + exists b'. split; [exact E'|]. split; [exact L'|]. intros j Hj.
      assert (EN : nth_error b' j = if Nat.ltb j covered then Some (peval_vec p (nth j polys []) us) else nth_error rows j).
      { rewrite H', H2 by exact Hj. rewrite CL by lia. unfold cumul. rewrite Nat.eqb_refl. fold covered.
        assert (CC : ((n - 1) * q <= covered)%nat) by (unfold covered; pose proof (IN (n - 1)%nat ltac:(lia)); nia).
        destruct (Nat.leb_spec ((n - 1) * q) j), (Nat.ltb_spec j covered), (Nat.ltb_spec j ((n - 1) * q)); cbn [andb]; try lia; reflexivity. }
      split; intros HC.
      * intros f Hf. rewrite EN. destruct (Nat.ltb_spec j covered); [|lia]. rewrite (nth_error_nth _ _ _ Hf). reflexivity.
      * rewrite EN. destruct (Nat.ltb_spec j covered); [lia|reflexivity].
Qed.
Print Assumptions C109_shared_evaluation.
(** ten buckets and four threads: the last two are not evaluated; nine: all are *)
Example C109_nonvacuous :
  evalPolys 61 4 10 [2] (repeat [1; 1] 10) (repeat [0] 10) = Ok (repeat [3] 8 ++ repeat [0] 2) /\
  evalPolys 61 4 8 [2] (repeat [1; 1] 8) (repeat [0] 8) = Ok (repeat [3] 8).
Proof. split; vm_compute; reflexivity. Qed.
