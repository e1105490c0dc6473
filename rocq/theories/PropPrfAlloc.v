(** C125: the generators when memory runs out. *)
From Verif Require Import Base Spec Lib NtlMiss PRFModel PRFSpec PRFProofs PrfAllocModel PrfAllocSpec PrfAllocProofs.

(** A history of calls of any widths and seeds on a new generator, any request
    for memory being refused at any point.  With [n] the number of new maxima
    of the output sizes plus that of the input sizes: if the next [n] requests
    succeed, every call returns its value and exactly [n] requests were made;
    otherwise the process exits with status 2 during the first call whose
    requests do not all succeed, and what was returned before is right. *)
Theorem C125_history : forall ok sha rand fuel pos t l,
  is_sha sha -> Forall wide l ->
  (granted ok t (requests (rand pos) l) ->
   exists st, run_a ok sha rand fuel (new_prf pos) t l = (values sha (rand pos) l, Ok (st, (t + requests (rand pos) l)%nat))) /\
  (~ granted ok t (requests (rand pos) l) ->
   exists j, (j < length l)%nat /\
     run_a ok sha rand fuel (new_prf pos) t l = (firstn j (values sha (rand pos) l), Exit 2) /\
     granted ok t (requests (rand pos) (firstn j l)) /\ ~ granted ok t (requests (rand pos) (firstn (S j) l))).
Proof. exact history_l. Qed.
Print Assumptions C125_history.

(** After any history that returned, a call for no more output than some
    earlier call and with a seed no longer than some earlier one (or of at most
    12 bytes) asks for no memory: it returns its value whatever the allocator
    does. *)
Theorem C125_steady : forall ok ok2 sha rand fuel pos t t2 l vs st t1 c,
  is_sha sha -> Forall wide l -> wide c ->
  run_a ok sha rand fuel (new_prf pos) t l = (vs, Ok (st, t1)) ->
  (exists c1, In c1 l /\ call_bits c <= call_bits c1) ->
  (exists c2, In c2 l /\ (byte_count (call_seed (rand pos) c) <= Nat.max 12 (byte_count (call_seed (rand pos) c2)))%nat) ->
  exists st', exec_a ok2 sha rand fuel st t2 c =
    Ok (st', prf_value sha (call_seed (rand pos) c) (call_index c) (call_bits c), t2).
Proof.
  intros ok ok2 sha rand fuel pos t t2 l vs st t1 c HS F Hc E [c1 [I1 L1]] [c2 [I2 L2]].
  apply (steady_l ok ok2 sha rand fuel pos t t2 l vs st t1 c HS F Hc E).
  - exists c1. split; [exact I1|]. unfold out_bytes. apply Z.div_le_mono; lia.
  - exists c2. split; [exact I2|]. unfold in_bytes. lia.
Qed.
Print Assumptions C125_steady.

(** Constructing a generator takes two requests, a client's generator five;
    any refusal exits with status 2. *)
Theorem C125_constructors : forall ok t pos fieldsize,
  (granted ok t 2 -> new_prf_a ok t pos = Ok (new_prf pos, (t + 2)%nat)) /\
  (~ granted ok t 2 -> new_prf_a ok t pos = Exit 2) /\
  (granted ok t 5 -> client_prf_a ok t fieldsize pos = Ok (new_zpprf fieldsize pos, (t + 5)%nat)) /\
  (~ granted ok t 5 -> client_prf_a ok t fieldsize pos = Exit 2).
Proof.
  intros ok t pos fieldsize. destruct (new_prf_a_l ok t pos). destruct (client_prf_a_l ok t fieldsize pos). auto.
Qed.
Print Assumptions C125_constructors.

(** A client's masks: any number of calls (seed, index, bits) with full width
    (bits 0 or at least that of the field) on a new ZZpPRF.  One request for
    the output, one for every new longest seed: two in all if the seeds have at
    most 12 bytes.  Refused, the process exits with status 2. *)
Theorem C125_masks : forall ok sha rand p fuel pos t fieldsize l,
  is_sha sha -> 0 < fieldsize -> num_bits fieldsize + 7 < 2 ^ 64 -> l <> [] ->
  Forall (fun c => snd c = 0 \/ num_bits fieldsize <= snd c) l ->
  let n := (1 + peaks 0 (map (fun c => in_bytes (fst (fst c))) l))%nat in
  let vs := map (fun c => prf_value sha (fst (fst c)) (snd (fst c)) (num_bits fieldsize) mod p) l in
  (granted ok t n -> exists st, run_zp_a ok sha rand p fuel (new_zpprf fieldsize pos) t l = (vs, Ok (st, (t + n)%nat))) /\
  (~ granted ok t n -> exists j, (j < length l)%nat /\
     run_zp_a ok sha rand p fuel (new_zpprf fieldsize pos) t l = (firstn j vs, Exit 2)) /\
  (Forall (fun c => Z.abs (fst (fst c)) < 2 ^ 96) l -> n = 2%nat).
Proof.
  intros ok sha rand p fuel pos t fieldsize l HS H0 H7 NE F n vs.
  set (m := map (seeded fieldsize) l).
  assert (GB : forall c, In c l -> gen_bits fieldsize (snd c) = num_bits fieldsize).
  { intros c I. pose proof (proj1 (Forall_forall _ _) F c I) as X. cbn beta in X. unfold gen_bits.
    destruct (Z.ltb_spec (num_bits fieldsize) (snd c)); [reflexivity|].
    destruct (Z.eqb_spec (snd c) 0); [reflexivity|]. cbn [orb]. lia. }
  pose proof (num_bits_pos fieldsize ltac:(lia)) as NP.
  assert (W : Forall wide m).
  { unfold m. apply Forall_forall. intros c I. apply in_map_iff in I. destruct I as [[[s i] b] [<- I]].
    pose proof (GB _ I) as X. cbn [snd] in X. cbn [seeded wide call_bits]. rewrite X. lia. }
  assert (M1 : map (fun c => out_bytes (call_bits c)) m = map (fun _ => out_bytes (num_bits fieldsize)) l).
  { unfold m. rewrite map_map. apply map_ext_in. intros [[s i] b] I. pose proof (GB _ I) as X. cbn [snd] in X.
    cbn [seeded call_bits]. rewrite X. reflexivity. }
  assert (M2 : map (fun c => in_bytes (call_seed (rand pos) c)) m = map (fun c => in_bytes (fst (fst c))) l).
  { unfold m. rewrite map_map. apply map_ext_in. intros [[s i] b] I. reflexivity. }
  assert (M3 : map (fun v => v mod p) (values sha (rand pos) m) = vs).
  { unfold values, m, vs. rewrite !map_map. apply map_ext_in. intros [[s i] b] I. pose proof (GB _ I) as X. cbn [snd] in X.
    cbn [seeded call_seed call_index call_bits fst snd]. rewrite X. reflexivity. }
  assert (R : requests (rand pos) m = n).
  { unfold requests. rewrite M1, M2. unfold n. f_equal. apply (peaks_one (out_bytes (num_bits fieldsize))).
    - unfold out_bytes. lia.
    - apply Forall_map, Forall_forall. reflexivity.
    - intros E. apply map_eq_nil in E. contradiction. }
  destruct (history_l ok sha rand fuel pos t m HS W) as [Y N]. rewrite R in *.
  pose proof (run_zp_a_eq ok sha rand p fuel l (new_zpprf fieldsize pos) t) as E.
  cbn [new_zpprf zp_prf zp_modulo] in E. fold m in E.
  split; [|split].
  - intros G. destruct (Y G) as [st E1]. rewrite E1 in E. cbn [fst snd] in E. rewrite M3 in E. eexists. exact E.
  - intros G. destruct (N G) as [j [L [E1 _]]]. exists j. split; [unfold m in L; rewrite map_length in L; exact L|].
    rewrite E1 in E. cbn [fst snd] in E. rewrite <- firstn_map in E. rewrite M3 in E. exact E.
  - intros SM. unfold n. change 2%nat with (1 + 1)%nat. apply (f_equal (Nat.add 1)). apply (peaks_one 20); [lia| |intros X; apply map_eq_nil in X; contradiction].
    apply Forall_map. eapply Forall_impl; [|exact SM]. intros c H. cbn beta in H.
    pose proof (byte_count_small (fst (fst c)) 12 H). unfold in_bytes. lia.
Qed.
Print Assumptions C125_masks.

(** Calls of every kind, generate() and width 0 included, on any generator: the
    history that memory lets finish is the one of unlimited memory (also when
    that one is undefined); the only other end is exit status 2, after a refused
    request, with the values of unlimited memory up to there. *)
Theorem C125_any_call : forall ok sha rand fuel st t l vs e,
  run_a ok sha rand fuel st t l = (vs, e) ->
  (exists st1, run_prf sha rand fuel st (firstn (length vs) l) = Ok (st1, vs)) /\
  match e with
  | Ok (st1, _) => run_prf sha rand fuel st l = Ok (st1, vs)
  | Exit k => k = 2 /\ exists i, (t <= i)%nat /\ ok i = false
  | UB w => run_prf sha rand fuel st l = UB w
  | Abort => run_prf sha rand fuel st l = Abort
  | NoFuel => run_prf sha rand fuel st l = NoFuel
  end.
Proof.
  intros ok sha rand fuel st t l vs e E. pose proof (run_a_any ok sha rand fuel l st t) as H. rewrite E in H.
  destruct H as [_ [X A]]. split; [exact X|]. destruct e as [[st1 t1]| | | |]; cbn [bind fst snd agrees] in A; tauto.
Qed.
Print Assumptions C125_any_call.
Example C125_any_nonvacuous :
  match run_a (fun k => (k <? 3)%nat) demo_sha (fun k => 3 + 5 * Z.of_nat k) 1 (new_prf 0) 0 [Next; Auto 1 20; Next; Auto 2 40] with
  | (vs, Exit 2) => Nat.eqb (length vs) 3
  | _ => false end = true.
Proof. vm_compute. reflexivity. Qed.

(** four calls, growing and shrinking: three requests; with the third refused
    two values are returned and the process exits *)
Definition calls125 : list call := [Seeded 5 0 61; Auto 3 16; Seeded (2 ^ 100) 1 61; Seeded 5 2 61].
Example C125_nonvacuous :
  is_sha demo_sha /\ Forall wide calls125 /\ requests 42 calls125 = 3%nat /\
  granted (fun _ => true) 0 3 /\ ~ granted (fun k => negb (k =? 2)%nat) 0 3 /\
  (match run_a (fun k => negb (k =? 2)%nat) demo_sha (fun _ => 42) 1 (new_prf 0) 0 calls125 with
   | (vs, Exit 2) => Nat.eqb (length vs) 2
   | _ => false end = true) /\
  (match run_a (fun _ => true) demo_sha (fun _ => 42) 1 (new_prf 0) 0 calls125 with
   | (vs, Ok (_, t)) => Nat.eqb (length vs) 4 && Nat.eqb t 3
   | _ => false end = true).
Proof.
  split; [exact demo_is_sha|]. split; [repeat constructor; reflexivity|]. split; [vm_compute; reflexivity|].
  split; [intros k _; reflexivity|]. split; [|split; vm_compute; reflexivity].
  intros H. specialize (H 2%nat ltac:(lia)). discriminate.
Qed.
Example C125_masks_nonvacuous :
  0 < 2305843009213693951 /\ num_bits 2305843009213693951 = 61 /\
  (match run_zp_a (fun k => (k <? 2)%nat) demo_sha (fun _ => 42) 2305843009213693951 1 (new_zpprf 2305843009213693951 0) 0
           [(7, 0, 61); (7, 1, 61); (9, 0, 0)] with
   | (vs, Ok (_, t)) => Nat.eqb (length vs) 3 && Nat.eqb t 2
   | _ => false end = true).
Proof. split; [lia|]. split; vm_compute; reflexivity. Qed.
