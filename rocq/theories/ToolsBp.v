(** Proofs about bptest. *)
From Coq Require Import QArith Lia Znumtheory.
From Verif Require Import Base Spec Lib NtlMiss NtlMissProofs StrIntModel HashBucketsModel HashBucketsSpec HashBucketsProofs PRFModel PRFSpec PRFProofs
  PolyModel PolySpec PolyProofs InterpProofs PolyObjProofs EopsiModel EopsiSpec EopsiProofs EopsiBlind FilesModel FilesSpec FilesProofs ToolsModel ToolsSpec ToolsProofs.
From Verif Require BenchModel BenchSpec BenchProofs ShaSpec.
Open Scope Z_scope.

Lemma nth_error_skipn {A} n : forall (l : list A) i, nth_error (skipn n l) i = nth_error l (n + i).
Proof. induction n as [|n IH]; intros [|a l] i; cbn [skipn Nat.add nth_error]; [reflexivity|reflexivity|destruct i; reflexivity|apply IH]. Qed.

Section Bp.
Variables mh3 sha1 sha256 : halgo Z.
Variable files : chars -> option chars.
Lemma bparse_ok os : forall a d, (forall o, In o os -> (forall c, ~ bbad o c) /\ bopt_long o) ->
  match bp_algo a with Some al => al | None => mh3 end = d ->
  0 < bp_k a < 2 ^ 63 -> 0 < bp_l a < 2 ^ 63 -> 0 < bp_bits a < 2 ^ 63 ->
  exists r, bparse mh3 sha1 sha256 os a = Ok r /\
    match bp_algo r with Some al => al | None => mh3 end = last_of (opt_balgo mh3 sha1 sha256) d os /\
    bp_k r = last_of opt_bk (bp_k a) os /\ bp_l r = last_of opt_bl (bp_l a) os /\ bp_bits r = last_of opt_bbits (bp_bits a) os /\
    bp_file r = last_of opt_bin (bp_file a) os /\
    0 < bp_k r < 2 ^ 63 /\ 0 < bp_l r < 2 ^ 63 /\ 0 < bp_bits r < 2 ^ 63.
Proof.
  induction os as [|o os IH]; intros a d NB A K L B.
  - exists a. cbn. auto 12.
  - assert (NB' : forall o, In o os -> (forall c, ~ bbad o c) /\ bopt_long o) by (intros; apply NB; right; assumption).
    destruct (NB o (or_introl eq_refl)) as [NO LO].
    assert (W : forall z, 0 <= z < 2 ^ 63 -> w64 z = z) by (intros z Hz; apply w64_small; unfold M64; lia).
    destruct o as [n|f|z|z|z|z|]; cbn [bparse last_of fold_left opt_bk opt_bl opt_bbits opt_bin opt_balgo].
    + unfold chars_eqb, s_mh3, s_sha1, s_sha256, s_sha512.
      destruct (list_eq_dec Z.eq_dec n [77; 72; 51]) as [e|e].
      { exact (IH {| bp_algo := Some mh3; bp_k := bp_k a; bp_l := bp_l a; bp_bits := bp_bits a; bp_file := bp_file a |} mh3 NB' eq_refl K L B). }
      destruct (list_eq_dec Z.eq_dec n [83; 72; 65; 49]) as [e1|e1].
      { exact (IH {| bp_algo := Some sha1; bp_k := bp_k a; bp_l := bp_l a; bp_bits := bp_bits a; bp_file := bp_file a |} sha1 NB' eq_refl K L B). }
      destruct (list_eq_dec Z.eq_dec n [83; 72; 65; 50; 53; 54]) as [e2|e2].
      { exact (IH {| bp_algo := Some sha256; bp_k := bp_k a; bp_l := bp_l a; bp_bits := bp_bits a; bp_file := bp_file a |} sha256 NB' eq_refl K L B). }
      destruct (list_eq_dec Z.eq_dec n [83; 72; 65; 53; 49; 50]) as [e3|e3].
      { exfalso. apply (NO 2). cbn [bbad]. auto. }
      exact (IH a d NB' A K L B).
    + exact (IH {| bp_algo := bp_algo a; bp_k := bp_k a; bp_l := bp_l a; bp_bits := bp_bits a; bp_file := f |} d NB' A K L B).
    + destruct (Z.ltb_spec z 0); [exfalso; apply (NO 1); cbn [bbad]; auto|]. exact (IH a d NB' A K L B).
    + destruct (Z.leb_spec z 0); [exfalso; apply (NO 1); cbn [bbad]; auto|]. cbn [bopt_long] in LO. rewrite (W z) by lia.
      apply (IH {| bp_algo := bp_algo a; bp_k := z; bp_l := bp_l a; bp_bits := bp_bits a; bp_file := bp_file a |} d NB' A); cbn; lia.
    + destruct (Z.leb_spec z 0); [exfalso; apply (NO 1); cbn [bbad]; auto|]. cbn [bopt_long] in LO. rewrite (W z) by lia.
      apply (IH {| bp_algo := bp_algo a; bp_k := bp_k a; bp_l := z; bp_bits := bp_bits a; bp_file := bp_file a |} d NB' A); cbn; lia.
    + destruct (Z.leb_spec z 0); [exfalso; apply (NO 1); cbn [bbad]; auto|]. cbn [bopt_long] in LO. rewrite (W z) by lia.
      apply (IH {| bp_algo := bp_algo a; bp_k := bp_k a; bp_l := bp_l a; bp_bits := z; bp_file := bp_file a |} d NB' A); cbn; lia.
    + exfalso. apply (NO 1). reflexivity.
Qed.
Lemma bparse_bad os1 o os2 c : forall a, (forall o c, In o os1 -> ~ bbad o c) -> bbad o c ->
  bparse mh3 sha1 sha256 (os1 ++ o :: os2) a = Exit c.
Proof.
  induction os1 as [|q os1 IH]; intros a NB B; cbn [app bparse].
  - destruct o as [n|f|z|z|z|z|]; cbn [bbad] in B; try contradiction.
    + destruct B as [-> ->]. reflexivity.
    + destruct B as [B ->]. destruct (Z.ltb_spec z 0); [reflexivity|lia].
    + destruct B as [B ->]. destruct (Z.leb_spec z 0); [reflexivity|lia].
    + destruct B as [B ->]. destruct (Z.leb_spec z 0); [reflexivity|lia].
    + destruct B as [B ->]. destruct (Z.leb_spec z 0); [reflexivity|lia].
    + subst c. reflexivity.
  - assert (NB' : forall o c, In o os1 -> ~ bbad o c) by (intros; apply NB; right; assumption).
    pose proof (fun c => NB q c (or_introl eq_refl)) as NQ.
    destruct q as [n|f|z|z|z|z|]; cbn [bbad] in NQ.
    + unfold chars_eqb, s_mh3, s_sha1, s_sha256, s_sha512.
      destruct (list_eq_dec Z.eq_dec n [77; 72; 51]); [apply IH; assumption|].
      destruct (list_eq_dec Z.eq_dec n [83; 72; 65; 49]); [apply IH; assumption|].
      destruct (list_eq_dec Z.eq_dec n [83; 72; 65; 50; 53; 54]); [apply IH; assumption|].
      destruct (list_eq_dec Z.eq_dec n [83; 72; 65; 53; 49; 50]) as [e3|e3]; [|apply IH; assumption].
      exfalso. apply (NQ 2). auto.
    + apply IH; assumption.
    + destruct (Z.ltb_spec z 0); [exfalso; apply (NQ 1); auto|apply IH; assumption].
    + destruct (Z.leb_spec z 0); [exfalso; apply (NQ 1); auto|apply IH; assumption].
    + destruct (Z.leb_spec z 0); [exfalso; apply (NQ 1); auto|apply IH; assumption].
    + destruct (Z.leb_spec z 0); [exfalso; apply (NQ 1); auto|apply IH; assumption].
    + exfalso. apply (NQ 1). reflexivity.
Qed.
Hypothesis V : algo_valid mh3 /\ algo_valid sha1 /\ algo_valid sha256.
Lemma balgo_chosen os d : algo_valid d -> algo_valid (last_of (opt_balgo mh3 sha1 sha256) d os).
Proof.
  destruct V as [V1 [V2 V3]]. revert d. induction os as [|o os IH]; intros d D; [exact D|].
  cbn [last_of fold_left]. apply IH. destruct o as [n|f|z|z|z|z|]; cbn [opt_balgo]; auto.
  destruct (list_eq_dec Z.eq_dec n [77; 72; 51]); auto.
  destruct (list_eq_dec Z.eq_dec n [83; 72; 65; 49]); auto.
  destruct (list_eq_dec Z.eq_dec n [83; 72; 65; 50; 53; 54]); auto.
Qed.

Lemma integers_read b vs text : is_integer_text b vs text -> exists s s2,
  get_ZZ {| in_rest := text; in_good := true |} = Ok (s, b) /\ get_size s = (s2, Some (Z.of_nat (length vs))) /\
  (forall p pad, bp_read p pad (length vs) s2 = Ok (map (fun v => zeroPad v pad mod p) vs)).
Proof.
  intros [tb [tn [ts [LY [Db [Dn F4]]]]]].
  inversion LY as [|sp1 t1 ts1 rest1 B1 LY1 R1 e1 e2]; subst t1 ts1.
  inversion LY1 as [|sp2 t2 ts2 rest2 B2 LY2 R2 e3 e4]; subst t2 ts2 rest1.
  eexists _, _. split; [apply (get_ZZ_word sp1 b tb _ B1 Db R1)|]. split; [apply (get_size_word sp2 _ tn _ B2 Dn R2)|].
  intros p pad. unfold bp_read. destruct (read_loop_f (fun v => zeroPad v pad mod p) vs ts F4 rest2 0%nat [] LY2) as [s Es].
  rewrite Es. reflexivity.
Qed.
End Bp.

Section Fixed.
Variable p : Z.
Hypothesis Hp : 1 < p.
Hypothesis Hnb : num_bits p + 7 < 2 ^ 64.
Variable sha : list Z -> list Z.
Hypothesis HS : is_sha sha.
Variable rand : nat -> Z.
Variable fuel : nat.

Lemma bp_unknowns_ok D zp : zp_inv p zp -> Z.of_nat D <= 2 ^ 64 ->
  exists zp', bp_unknowns sha rand fuel p D zp = Ok (zp', repeat 0 D ++ map (fun i => drawn sha p 0 (Z.of_nat i)) (seq 0 D)) /\ zp_inv p zp'.
Proof.
  intros I LD. unfold bp_unknowns.
  destruct (for_up_inv (fun j '(zp, us) => zp_inv p zp /\ us = repeat 0 D ++ map (fun i => drawn sha p 0 (Z.of_nat i)) (seq 0 j)) D 0
    (fun j '(zp, us) => do (zp1, v) <- zp_generate sha rand p fuel zp (0 mod p) (Z.of_nat j) 0; Ok (zp1, us ++ [v]))
    (zp, set_length [] D)) as [[zp' us] [E [I' U]]].
  - split; [exact I|]. cbn [seq map]. rewrite app_nil_r. unfold set_length. cbn [length firstn]. rewrite firstn_nil. cbn [app]. f_equal. lia.
  - intros j [z us] Hj [Iz U]. cbn [Nat.add] in Hj.
    destruct (zp_full0 p Hp Hnb sha HS rand fuel z 0 (Z.of_nat j) Iz) as [z' [Ez Iz']].
    rewrite Z.mod_small in Ez by lia. rewrite Zmod_0_l. rewrite Ez. cbn [bind]. eexists. split; [reflexivity|]. split; [exact Iz'|].
    rewrite U, map_seq_S, app_assoc. reflexivity.
  - rewrite E. exists zp'. cbn [Nat.add] in U. rewrite U. auto.
Qed.

Definition bp_cell (seed : Z) (D j : nat) (row : list Z) (i : nat) : Z :=
  if Nat.ltb i D then (nth i row 0 + drawn sha p seed (Z.of_nat (j * D + i))) mod p else nth i row 0.
Lemma bp_blind_row_ok seed D j : forall row zp, zp_inv p zp -> (D <= length row)%nat ->
  exists zp', bp_blind_row sha rand fuel p seed D row (zp, mask_pos D j 0) =
    Ok (zp', mask_pos D (S j) 0, map (bp_cell seed D j row) (seq 0 (length row))) /\ zp_inv p zp'.
Proof.
  intros row zp I HD. unfold bp_blind_row. cbn [fst snd].
  set (g := fun i => (nth i row 0 + drawn sha p seed (Z.of_nat (j * D + i))) mod p).
  destruct (for_up_inv (fun i '(zp, index, r) => zp_inv p zp /\ index = mask_pos D j i /\
       r = map g (seq 0 i) ++ skipn i row) D 0
     (fun i '(zp, index, row) =>
      do v <- aget row i;
      do (zp1, x) <- zp_generate sha rand p fuel zp seed index 0;
      do row1 <- aset row i ((v + x) mod p);
      Ok (zp1, w64 (index + 1), row1)) (zp, mask_pos D j 0, row)) as [[[zp' ix] r] [E [I' [X R]]]].
  - split; [exact I|]. split; reflexivity.
  - intros i [[z x] r] Hi [Iz [X R]]. cbn [Nat.add] in Hi.
    assert (LS : length (skipn i row) = S (length row - S i)) by (rewrite skipn_length; lia).
    destruct (skipn i row) as [|a t] eqn:Es; [discriminate|].
    assert (ES : skipn (S i) row = t) by (replace (S i) with (1 + i)%nat by lia; rewrite <- skipn_skipn, Es; reflexivity).
    assert (EN : nth i row 0 = a).
    { rewrite <- (firstn_skipn i row), Es, app_nth2 by (rewrite firstn_length; lia). rewrite firstn_length.
      replace (i - Nat.min i (length row))%nat with 0%nat by lia. reflexivity. }
    pose proof (mid_get (map g (seq 0 i)) a t) as MG. rewrite map_length, seq_length in MG. rewrite R, MG. cbn [bind].
    rewrite X. unfold mask_pos at 1. destruct (zp_full0 p Hp Hnb sha HS rand fuel z seed (Z.of_nat (j * D + i)) Iz) as [z' [Ez Iz']]. rewrite Ez. cbn [bind].
    pose proof (mid_set (map g (seq 0 i)) a t (g i)) as MS. rewrite map_length, seq_length in MS.
    replace ((a + drawn sha p seed (Z.of_nat (j * D + i))) mod p) with (g i) by (unfold g; rewrite EN; reflexivity).
    rewrite MS. cbn [bind]. eexists. split; [reflexivity|]. split; [exact Iz'|]. split; [apply mask_step|].
    rewrite map_seq_S, <- app_assoc, ES. reflexivity.
  - cbn [Nat.add] in *. rewrite E. exists zp'. split; [|exact I']. f_equal. f_equal; [f_equal; rewrite X; apply mask_row|].
    rewrite R. apply nth_ext_error. intros i. rewrite nth_error_map.
    destruct (Nat.ltb_spec i D) as [HL|HL].
    + rewrite nth_error_app1 by (rewrite map_length, seq_length; lia). rewrite nth_error_map_seq by lia.
      rewrite (nth_error_nth' _ 0%nat) by (rewrite seq_length; lia). rewrite seq_nth by lia. cbn [option_map Nat.add].
      unfold bp_cell. destruct (Nat.ltb_spec i D); [reflexivity|lia].
    + rewrite nth_error_app2 by (rewrite map_length, seq_length; lia). rewrite map_length, seq_length.
      rewrite nth_error_skipn. replace (D + (i - D))%nat with i by lia.
      destruct (Nat.ltb_spec i (length row)) as [HR|HR].
      * rewrite (nth_error_nth' row 0) by lia. rewrite (nth_error_nth' (seq 0 (length row)) 0%nat) by (rewrite seq_length; lia).
        rewrite seq_nth by lia. cbn [option_map Nat.add]. unfold bp_cell. destruct (Nat.ltb_spec i D); [lia|reflexivity].
      * rewrite (proj2 (nth_error_None row i)) by lia. rewrite (proj2 (nth_error_None (seq 0 (length row)) i)) by (rewrite seq_length; lia). reflexivity.
Qed.
End Fixed.

(** * the chronometer of bptest *)
Definition bp_ops (clock : nat -> Z) : list BenchModel.op :=
  [BenchModel.Start (clock 0%nat)] ++ [BenchModel.Step (clock 1%nat) n_padding] ++ [BenchModel.Step (clock 2%nat) []] ++ [BenchModel.Step (clock 3%nat) n_hashbuckets] ++
   [BenchModel.Step (clock 4%nat) []] ++ [BenchModel.Step (clock 5%nat) n_conceal] ++ [BenchModel.Step (clock 6%nat) []] ++ [BenchModel.Step (clock 7%nat) n_polgen] ++
   [BenchModel.Step (clock 8%nat) []] ++ [BenchModel.Step (clock 9%nat) n_unkgen] ++ [BenchModel.Step (clock 10%nat) []] ++ [BenchModel.Step (clock 11%nat) n_poleval] ++
   [BenchModel.Step (clock 12%nat) []] ++ [BenchModel.Stop (clock 13%nat) n_blind].
Definition bp_names : list chars := [n_padding; n_hashbuckets; n_conceal; n_polgen; n_unkgen; n_poleval; n_blind].
Definition bp_laps (clock : nat -> Z) : list Z := map (fun i => Z.quot (clock (2 * i + 1)%nat - clock (2 * i)%nat) 1000) (seq 0 7).

Lemma bp_times clock b : BenchModel.run BenchModel.new_bm (bp_ops clock) = Ok b -> mapM (BenchModel.benchmark_named b) bp_names = Ok (bp_laps clock).
Proof.
  intros E. destruct (BenchProofs.history_rel (bp_ops clock)) as [b' [E' [R LR]]]; [cbn; lia|].
  rewrite E in E'. apply Ok_inj in E'. subst b'.
  set (log := snd (BenchSpec.c_run (bp_ops clock))) in *.
  assert (RR : BenchProofs.rel (BenchSpec.Stopped, log) b) by exact R.
  assert (N : forall name i, name <> [] -> BenchSpec.last_labelled log name (S i) -> forall x y, nth_error log i = Some x -> nth_error log (S i) = Some y ->
     BenchModel.benchmark_named b name = Ok (Z.quot (BenchSpec.at_ y - BenchSpec.at_ x) 1000)).
  { intros. eapply BenchProofs.named_ok; eassumption. }
  clear R RR E LR.
  assert (LL : forall name i s, nth_error log i = Some s -> BenchSpec.label s = name ->
     forallb (fun q => if list_eq_dec Z.eq_dec (BenchSpec.label q) name then false else true) (skipn (S i) log) = true -> BenchSpec.last_labelled log name i).
  { intros name i s H1 H2 H3. split; [exists s; auto|]. intros j t Hj Ht. destruct (le_lt_dec j i) as [HL|HL]; [exact HL|].
    exfalso. rewrite forallb_forall in H3. assert (In t (skipn (S i) log)) as HI.
    { apply nth_error_In with (n := (j - S i)%nat). rewrite nth_error_skipn. replace (S i + (j - S i))%nat with j by lia. exact Hj. }
    specialize (H3 t HI). destruct (list_eq_dec Z.eq_dec (BenchSpec.label t) name); [discriminate|contradiction]. }
  unfold bp_names, bp_laps. cbn [seq map mapM Nat.mul Nat.add].
  rewrite (N n_padding 0%nat ltac:(discriminate) (LL n_padding 1%nat _ eq_refl eq_refl eq_refl) _ _ eq_refl eq_refl). cbn [bind].
  rewrite (N n_hashbuckets 2%nat ltac:(discriminate) (LL n_hashbuckets 3%nat _ eq_refl eq_refl eq_refl) _ _ eq_refl eq_refl). cbn [bind].
  rewrite (N n_conceal 4%nat ltac:(discriminate) (LL n_conceal 5%nat _ eq_refl eq_refl eq_refl) _ _ eq_refl eq_refl). cbn [bind].
  rewrite (N n_polgen 6%nat ltac:(discriminate) (LL n_polgen 7%nat _ eq_refl eq_refl eq_refl) _ _ eq_refl eq_refl). cbn [bind].
  rewrite (N n_unkgen 8%nat ltac:(discriminate) (LL n_unkgen 9%nat _ eq_refl eq_refl eq_refl) _ _ eq_refl eq_refl). cbn [bind].
  rewrite (N n_poleval 10%nat ltac:(discriminate) (LL n_poleval 11%nat _ eq_refl eq_refl eq_refl) _ _ eq_refl eq_refl). cbn [bind].
  rewrite (N n_blind 12%nat ltac:(discriminate) (LL n_blind 13%nat _ eq_refl eq_refl eq_refl) _ _ eq_refl eq_refl). cbn [bind].
  reflexivity.
Qed.

(** * bptest *)
Section BpMain.
Variables mh3 sha1 sha256 : halgo Z.
Variable files : chars -> option chars.
Hypothesis V : algo_valid mh3 /\ algo_valid sha1 /\ algo_valid sha256.
Variable sha : list Z -> list Z.
Hypothesis HS : is_sha sha.
Variable rand : nat -> Z.
Variable fuel : nat.
Variable found : Z -> Z.
Variable clock : nat -> Z.

#[local] Notation bptest := (bptest sha rand fuel found clock mh3 sha1 sha256 files).
Definition good_bopts (os : list bopt) : Prop := forall o, In o os -> (forall c, ~ bbad o c) /\ bopt_long o.

Lemma bin_name os : forall d1 d2, file_or_default d1 = file_or_default d2 ->
  file_or_default (last_of opt_bin d1 os) = file_or_default (last_of opt_bin d2 os).
Proof.
  induction os as [|o os IH]; intros d1 d2 H; [exact H|]. cbn [last_of fold_left]. apply IH.
  destruct o; cbn [opt_bin]; auto.
Qed.
Lemma bptest_no_file os pos : good_bopts os -> 1 < last_of opt_bbits 113 os ->
  files (file_or_default (last_of opt_bin [] os)) = None -> bptest os pos = Exit 1.
Proof.
  intros G B N. unfold ToolsModel.bptest.
  destruct (bparse_ok mh3 sha1 sha256 os bdefault mh3 G eq_refl) as [r [E [A [K [L [Bt [F [RK [RL RB]]]]]]]]]; [cbn; lia|cbn; lia|cbn; lia|].
  rewrite E. cbn [bind]. cbn [bdefault bp_k bp_l bp_bits bp_file] in *. rewrite <- Bt in B.
  unfold gen_prime. rewrite s64_small by lia. destruct (Z.leb_spec (bp_bits r) 1); [lia|]. cbn [bind]. cbn zeta.
  rewrite name_eq, F, (bin_name os _ []) by reflexivity. rewrite N. reflexivity.
Qed.
Lemma bptest_reads os text pos : good_bopts os -> 1 < last_of opt_bbits 113 os ->
  files (file_or_default (last_of opt_bin [] os)) = Some text ->
  (get_ZZ {| in_rest := text; in_good := true |} = Abort -> bptest os pos = Abort) /\
  (forall s b s2, get_ZZ {| in_rest := text; in_good := true |} = Ok (s, b) -> get_size s = (s2, None) -> bptest os pos = UB Uninit) /\
  (forall s b s2 n, get_ZZ {| in_rest := text; in_good := true |} = Ok (s, b) -> get_size s = (s2, Some n) ->
    (forall f : Z -> Z, for_up (Z.to_nat n) 0 (fun _ '(s, zs) => do (s1, v) <- get_ZZ s; Ok (s1, zs ++ [f v])) (s2, []) = Abort) ->
    bptest os pos = Abort) /\
  (forall s b s2 empty width, get_ZZ {| in_rest := text; in_good := true |} = Ok (s, b) -> get_size s = (s2, Some 0) ->
    is_integer_text width [] empty ->
    bptest os pos = ToolsModel.bptest sha rand fuel found clock mh3 sha1 sha256 (fun _ => Some empty) os pos).
Proof.
  intros G B Ft. unfold ToolsModel.bptest.
  destruct (bparse_ok mh3 sha1 sha256 os bdefault mh3 G eq_refl) as [r [E [A [K [L [Bt [F [RK [RL RB]]]]]]]]]; [cbn; lia|cbn; lia|cbn; lia|].
  rewrite E. cbn [bind]. cbn [bdefault bp_k bp_l bp_bits bp_file] in *. rewrite <- Bt in B.
  unfold gen_prime. rewrite s64_small by lia. destruct (Z.leb_spec (bp_bits r) 1); [lia|]. cbn [bind]. cbn zeta.
  rewrite name_eq, F, (bin_name os _ []) by reflexivity. rewrite Ft, A.
  set (al := last_of (opt_balgo mh3 sha1 sha256) mh3 os).
  assert (VA : algo_valid al) by (apply balgo_chosen; [exact V|apply V]).
  destruct (new_hb_ok (Z.to_nat (bp_k r)) (Z.to_nat (bp_l r)) (Some al) VA) as [h0 [E0 _]]. rewrite E0. cbn [bind].
  split; [|split; [|split]].
  - intros ->. reflexivity.
  - intros s b s2 -> H2. cbn [bind]. rewrite H2. reflexivity.
  - intros s b s2 n -> H2 RD. cbn [bind]. rewrite H2. destruct (Z.eqb_spec (bp_k r) 0); [lia|].
    unfold bp_read. rewrite (RD (fun v => zeroPad v (w32 (num_bits (found (bp_bits r)))) mod found (bp_bits r))). reflexivity.
  - intros s b s2 empty width -> H2 IE. cbn [bind]. rewrite H2. destruct (integers_read _ _ _ IE) as [s3 [t3 [A3 [B3 C3]]]].
    rewrite A3. cbn [bind]. rewrite B3. reflexivity.
Qed.
Lemma bptest_tiny os pos : good_bopts os -> last_of opt_bbits 113 os = 1 -> bptest os pos = Abort.
Proof.
  intros G B. unfold ToolsModel.bptest.
  destruct (bparse_ok mh3 sha1 sha256 os bdefault mh3 G eq_refl) as [r [E [A [K [L [Bt _]]]]]]; [cbn; lia|cbn; lia|cbn; lia|].
  rewrite E. cbn [bind]. rewrite Bt. cbn [bp_bits bdefault]. rewrite B. reflexivity.
Qed.

Ltac clockstep R :=
  match goal with
  | |- context [BenchModel.step ?b ?t ?n] =>
      let b' := fresh "b" in let G := fresh "G" in let R' := fresh "R" in
      destruct (run_more _ b (BenchModel.Step t n) R) as [b' [G R']]; [cbn; lia|];
      cbn [BenchModel.exec] in G; rewrite G; cbn [bind]; clear R G; rename R' into R
  end.

Lemma bptest_ok os text b vs pos : good_bopts os -> 1 < last_of opt_bbits 113 os ->
  files (file_or_default (last_of opt_bin [] os)) = Some text -> is_integer_text b vs text ->
  let p := found (last_of opt_bbits 113 os) in
  let k := Z.to_nat (last_of opt_bk 10000 os) in
  let l := Z.to_nat (last_of opt_bl 140 os) in
  let D := (2 * l + 1)%nat in
  let al := last_of (opt_balgo mh3 sha1 sha256) mh3 os in
  let zs := map (fun v => (v * 2 ^ (num_bits p mod 2 ^ 32)) mod p) vs in
  let us := repeat 0 D ++ map (fun i => drawn sha p 0 (Z.of_nat i)) (seq 0 D) in
  1 < p -> num_bits p + 7 < 2 ^ 64 ->
  ((exists j, (j < k)%nat /\ (l < length (belonging al k j zs))%nat) -> bptest os pos = Exit 1) /\
  ((forall j, (j < k)%nat -> (length (belonging al k j zs) <= l)%nat) ->
   exists r R, bptest os pos = Ok r /\ br_modulo r = p /\ hb_k (br_table r) = k /\ length (hb_buckets (br_table r)) = k /\
     (forall j, (j < k)%nat -> exists f m, R j = belonging al k j zs ++ f /\ length (R j) = l /\ Forall (in_field p) f /\
        nth_error (hb_buckets (br_table r)) j = Some (mkMvec (R j) m)) /\
     br_polys r = map (fun j => build_from_roots p (R j)) (seq 0 k) /\
     br_unknowns r = us /\
     br_evals r = map (fun j => map (bp_cell p sha (le_val topsy mod p) D j (map (prod_value p (R j)) us)) (seq 0 (2 * D))) (seq 0 k) /\
     br_times r = bp_laps clock).
Proof.
  intros G B Ft [tb [tn [ts [LY [Db [Dn F4]]]]]] p k l D al zs us P1 NB.
  inversion LY as [|sp1 t1 ts1 rest1 B1 LY1 R1 e1 e2]; subst t1 ts1.
  inversion LY1 as [|sp2 t2 ts2 rest2 B2 LY2 R2 e3 e4]; subst t2 ts2 rest1.
  destruct (bparse_ok mh3 sha1 sha256 os bdefault mh3 G eq_refl) as [r [E [A [K [L [Bt [F [RK [RL RB]]]]]]]]]; [cbn; lia|cbn; lia|cbn; lia|].
  unfold ToolsModel.bptest. rewrite E. cbn [bind]. cbn [bdefault bp_k bp_l bp_bits bp_file] in *.
  rewrite name_eq, F, (bin_name os _ []) by reflexivity. rewrite Ft, A.
  unfold gen_prime. rewrite Bt, s64_small by lia. destruct (Z.leb_spec (last_of opt_bbits 113 os) 1); [lia|]. cbn [bind].
  fold p al. cbv zeta.
  assert (KK : Z.to_nat (bp_k r) = k) by (unfold k; rewrite K; reflexivity).
  assert (LL : Z.to_nat (bp_l r) = l) by (unfold l; rewrite L; reflexivity).
  assert (DD : Z.to_nat (w64 (2 * bp_l r + 1)) = D) by (rewrite w64_small by (unfold M64; lia); unfold D; lia).
  rewrite KK, LL, DD. assert (KP : (0 < k)%nat) by lia.
  assert (VA : algo_valid al) by (apply balgo_chosen; [exact V|apply V]).
  destruct (new_hb_ok k l (Some al) VA) as [h0 [E0 [W0 [K0 [L0 [A0 B0]]]]]]. rewrite E0. cbn [bind].
  rewrite <- e2. rewrite (get_ZZ_word sp1 b tb _ B1 Db R1). cbn [bind].
  rewrite (get_size_word sp2 (Z.of_nat (length vs)) tn _ B2 Dn R2).
  destruct (Z.eqb_spec (bp_k r) 0); [lia|]. rewrite Nat2Z.id.
  assert (RD : bp_read p (w32 (num_bits p)) (length vs) {| in_rest := rest2; in_good := true |} = Ok zs).
  { unfold bp_read. destruct (read_loop_f (fun v => zeroPad v (w32 (num_bits p)) mod p) vs ts F4 rest2 0%nat [] LY2) as [s Es].
    rewrite Es. cbn [bind app]. f_equal. unfold zs. apply map_ext. intros v. rewrite zeroPad_mul_l; [reflexivity|].
    pose proof (Z.mod_pos_bound (num_bits p) (2 ^ 32) ltac:(lia)). unfold w32. lia. }
  rewrite RD. cbn [bind].
  assert (R : BenchModel.run BenchModel.new_bm [BenchModel.Start (clock 0%nat)] = Ok (BenchModel.start (clock 0%nat))) by reflexivity.
  do 2 clockstep R.
  assert (LZ : length zs = length vs) by (unfold zs; apply map_length).
  rewrite <- LZ. change (for_up (length zs) 0 (fun i h => do z <- aget zs i; hb_add h z) h0) with (hb_add_list h0 zs (length zs)).
  destruct (add_history_l al k l zs VA KP) as [h0' [E0' [AH1 AH2]]].
  assert (h0' = h0) by congruence. subst h0'. split; [intros HH; rewrite (AH2 HH); reflexivity|].
  intros HH. destruct (AH1 HH) as [h1 [E1 N1]]. rewrite E1. cbn [bind].
  do 2 clockstep R.
  pose proof (hb_add_list_wf zs (length zs) 0 h0 h1 W0 E1) as [W1 [K1 [M1 _]]].
  rewrite K0 in K1. rewrite L0 in M1.
  assert (F1 : Forall (fun b => length (mv_items b) <= hb_maxload h1)%nat (hb_buckets h1)).
  { apply Forall_forall. intros bk Hin. apply In_nth_error in Hin. destruct Hin as [j Hj].
    assert (Hjl : (j < k)%nat) by (destruct W1 as [WL1 _]; rewrite <- K1, <- WL1; apply nth_error_Some; congruence).
    rewrite (N1 j Hjl) in Hj. injection Hj as <-. cbn [mv_items]. rewrite M1. apply HH. exact Hjl. }
  assert (I0 : zp_inv p (new_zpprf p pos)) by (split; [apply new_prf_wf|reflexivity]).
  destruct (conceal_spec (conceal_gen sha rand fuel p) h1 (Ok (new_zpprf p pos)) W1 F1) as [h2 [fillers HC]]. cbv zeta in HC.
  destruct HC as [EC [CF [[K2 [M2 [A2 [S2 [n2 L2]]]]] N2]]]. rewrite EC. cbn [bind].
  destruct (draws_ok p P1 NB sha HS rand fuel (hb_k h1 * hb_maxload h1 - total_items h1) (new_zpprf p pos) I0) as [dl [zp1 [ED [I1 FD]]]].
  rewrite ED in EC, CF |- *. cbn [fst snd bind] in *.
  do 2 clockstep R.
  set (RT := fun j => mv_items (nth j (hb_buckets h2) (mkMvec [] false))).
  assert (RBk : forall j, (j < k)%nat -> exists f m, RT j = belonging al k j zs ++ f /\ length (RT j) = l /\ Forall (in_field p) f /\
     nth_error (hb_buckets h2) j = Some (mkMvec (RT j) m)).
  { intros j Hj. destruct (N2 j _ (N1 j Hj)) as [b' [f [Eb [Ef [Ei [El Em]]]]]]. cbn [mv_items] in Ei.
    exists f, (mv_marked b'). assert (ER : RT j = mv_items b') by (unfold RT; rewrite (nth_error_nth _ _ _ Eb); reflexivity).
    rewrite ER. split; [exact Ei|]. split; [congruence|]. split.
    - apply Forall_forall. intros xx Hx. rewrite Forall_forall in FD. apply FD. rewrite <- CF. apply in_concat. exists f. split; [|exact Hx].
      eapply nth_error_In. exact Ef.
    - destruct b'; exact Eb. }
  assert (K2L : hb_k h2 = k) by congruence. assert (L2L : length (hb_buckets h2) = k) by congruence.
  rewrite (mapM_ok _ (fun j => build_from_roots p (RT j))).
  2: { intros j Hj. apply in_seq in Hj. unfold getBucket. destruct (Nat.ltb_spec j (hb_k h2)); [|lia].
       rewrite (aget_nth (mkMvec [] false)) by lia. cbn [bind]. rewrite vector2VecZZp_eq. reflexivity. }
  cbn [bind]. do 2 clockstep R.
  destruct (bp_unknowns_ok p P1 NB sha HS rand fuel D zp1 I1) as [zp2 [EU I2]]; [unfold D; lia|]. rewrite EU. cbn [bind]. fold us.
  do 2 clockstep R.
  rewrite (polEval_ok p rand us (map (fun j => build_from_roots p (RT j)) (seq 0 k)) k); [|rewrite map_length, seq_length; reflexivity|apply repeat_length].
  cbn [bind]. rewrite map_map. do 2 clockstep R.
  set (ev := fun j => peval_vec p (build_from_roots p (RT j)) us).
  assert (LU : length us = (2 * D)%nat) by (unfold us; rewrite app_length, repeat_length, map_length, seq_length; lia).
  assert (LE : forall j, length (ev j) = (2 * D)%nat) by (intros; unfold ev, peval_vec; rewrite map_length; exact LU).
  assert (EV : forall j, ev j = map (prod_value p (RT j)) us).
  { intros j. unfold ev, peval_vec. apply map_ext. intros u. apply prod_value_eval. }
  set (seed := le_val topsy mod p).
  destruct (for_up_inv (fun j '(zp, index, bl) => zp_inv p zp /\ index = mask_pos D j 0 /\
      bl = map (fun j => map (bp_cell p sha seed D j (map (prod_value p (RT j)) us)) (seq 0 (2 * D))) (seq 0 j)) k 0
    (fun j '(zp, index, bl) =>
      do row <- aget (map ev (seq 0 k)) j;
      do (zp', index', row') <- bp_blind_row sha rand fuel p seed D row (zp, index);
      Ok (zp', index', bl ++ [row'])) (zp2, 0, [])) as [[[zp3 ix] bl] [EB [I3 [_ BL]]]].
  - split; [exact I2|]. split; reflexivity.
  - intros j [[z ix] bl] Hj [Iz [X BL]]. cbn [Nat.add] in Hj.
    assert (GE : aget (map ev (seq 0 k)) j = Ok (ev j)) by (unfold aget; rewrite nth_error_map_seq by lia; reflexivity).
    rewrite GE. cbn [bind]. rewrite X.
    destruct (bp_blind_row_ok p P1 NB sha HS rand fuel seed D j (ev j) z Iz) as [z' [ER Iz']]; [rewrite LE; lia|]. rewrite ER. cbn [bind].
    eexists. split; [reflexivity|]. split; [exact Iz'|]. split; [reflexivity|].
    rewrite LE, EV. rewrite BL. cbn [Nat.add]. rewrite map_seq_S. reflexivity.
  - cbn [Nat.add] in *. rewrite EB. cbn [bind].
    match goal with |- context [BenchModel.stop ?b ?t ?n] =>
      destruct (run_more _ b (BenchModel.Stop t n) R) as [b14 [G14 R14]]; [cbn; lia|] end.
    cbn [BenchModel.exec] in G14. rewrite G14. cbn [bind].
    pose proof (bp_times clock b14 R14) as TM. unfold bp_names in TM. rewrite TM. cbn [bind].
    eexists _, RT. split; [reflexivity|]. cbn [br_modulo br_table br_polys br_unknowns br_evals br_times].
    split; [reflexivity|]. split; [exact K2L|]. split; [exact L2L|]. split; [exact RBk|]. split; [reflexivity|]. split; [reflexivity|].
    split; [exact BL|reflexivity].
Qed.
End BpMain.
