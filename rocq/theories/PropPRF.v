(** Properties C25-C31: the pseudo random generators. *)
From Verif Require Import Base Spec Lib PRFModel PRFSpec PRFProofs PRFNext.

(** C25: whatever calls (of any width, with or without seed) returned before
    on the object, generate with a positive width returns [prf_value]: a
    function of seed, index and width. *)
Theorem C25_history_independent : forall sha rand fuel pos l st vs seed index bits,
  is_sha sha -> (forall k, 0 <= rand k < 2 ^ 31) ->
  Forall call_width_ok l -> run_prf sha rand fuel (new_prf pos) l = Ok (st, vs) ->
  0 < bits -> bits + 7 < 2 ^ 64 ->
  exists st', generate sha rand fuel st seed index bits = Ok (st', prf_value sha seed index bits).
Proof.
  exact (fun sha rand fuel pos l st vs seed index bits HS HR F E B0 B1 =>
    match generate_pos sha HS rand fuel st seed index bits
            (run_prf_wf sha HS rand fuel HR l (new_prf pos) st vs (new_prf_wf pos) F E) (conj B0 B1)
    with ex_intro _ st' H => ex_intro _ st' (proj1 H) end).
Qed.
Print Assumptions C25_history_independent.

(** and every history of calls with positive widths runs without any
    out-of-bounds access or read of uninitialised memory, call by call with the
    specified value (Auto calls use one seed, drawn once). *)
Theorem C25_memory_safe : forall sha rand fuel pos l,
  is_sha sha -> Forall call_ok l ->
  exists st, run_prf sha rand fuel (new_prf pos) l =
    Ok (st, map (fun c => match c with
                          | Seeded s i b => prf_value sha s i b
                          | Auto i b => prf_value sha (rand pos) i b
                          | Next => 0 end) l).
Proof.
  exact (fun sha rand fuel pos l HS F =>
    match run_prf_values sha HS rand fuel l (new_prf pos) (new_prf_wf pos) F
    with ex_intro _ st' H => ex_intro _ st' (proj1 H) end).
Qed.
Print Assumptions C25_memory_safe.

Example C25_nonvacuous :
  is_sha demo_sha /\ Forall call_ok [Seeded 12345678901234567890123456789 7 300; Seeded 5 7 13; Auto 1 8] /\
  exists st v, run_prf demo_sha (fun _ => 42) 1 (new_prf 0) [Seeded 12345678901234567890123456789 7 300; Seeded 5 7 13] = Ok (st, v)
    /\ p_genLength st = 38 /\ p_hashInputSize st = 20.
Proof.
  split; [exact demo_is_sha|]. split; [repeat constructor|].
  do 2 eexists. split; [vm_compute; reflexivity|]. split; reflexivity.
Qed.

(** C26 *)
Theorem C26_output_width : forall sha rand fuel pos l st vs seed index bits st' v,
  is_sha sha -> (forall k, 0 <= rand k < 2 ^ 31) ->
  Forall call_width_ok l -> run_prf sha rand fuel (new_prf pos) l = Ok (st, vs) ->
  0 < bits -> bits + 7 < 2 ^ 64 ->
  generate sha rand fuel st seed index bits = Ok (st', v) -> 0 <= v < 2 ^ bits.
Proof.
  exact (fun sha rand fuel pos l st vs seed index bits st' v HS HR F E B0 B1 G =>
    match C25_history_independent sha rand fuel pos l st vs seed index bits HS HR F E B0 B1
    with ex_intro _ st2 H =>
      eq_ind _ (fun v => 0 <= v < 2 ^ bits) (prf_value_range sha seed index bits (Z.lt_le_incl _ _ B0)) v
        (f_equal snd (Ok_inj _ _ (eq_trans (eq_sym H) G))) end).
Qed.
Print Assumptions C26_output_width.

(** C27: on any two objects in any state *)
Theorem C27_shorter_is_truncation : forall sha rand fuel pos l st vs pos2 l2 st2 vs2 seed index b c r1 v1 r2 v2,
  is_sha sha -> (forall k, 0 <= rand k < 2 ^ 31) ->
  Forall call_width_ok l -> run_prf sha rand fuel (new_prf pos) l = Ok (st, vs) ->
  Forall call_width_ok l2 -> run_prf sha rand fuel (new_prf pos2) l2 = Ok (st2, vs2) ->
  0 < b -> b <= c -> c + 7 < 2 ^ 64 ->
  generate sha rand fuel st seed index b = Ok (r1, v1) ->
  generate sha rand fuel st2 seed index c = Ok (r2, v2) ->
  v1 = v2 mod 2 ^ b.
Proof.
  intros sha rand fuel pos l st vs pos2 l2 st2 vs2 seed index b c r1 v1 r2 v2 HS HR F E F2 E2 B0 BC C7 G1 G2.
  destruct (C25_history_independent sha rand fuel pos l st vs seed index b HS HR F E B0 ltac:(lia)) as [x H1].
  destruct (C25_history_independent sha rand fuel pos2 l2 st2 vs2 seed index c HS HR F2 E2 ltac:(lia) C7) as [y H2].
  rewrite G1 in H1. rewrite G2 in H2. apply Ok_inj in H1. apply Ok_inj in H2.
  injection H1 as _ ->. injection H2 as _ ->. apply prf_value_trunc; [exact HS|lia].
Qed.
Print Assumptions C27_shorter_is_truncation.

Example C27_nonvacuous : exists a b, generate demo_sha (fun _ => 0) 1 (new_prf 0) 99 3 11 = Ok (a, 1286)
   /\ generate demo_sha (fun _ => 0) 1 (new_prf 0) 99 3 180 = Ok (b, 1229366282771431131960504536114781043998063638518959366)
   /\ 1229366282771431131960504536114781043998063638518959366 mod 2 ^ 11 = 1286.
Proof. do 2 eexists. split; [vm_compute; reflexivity|]. split; [vm_compute; reflexivity|]. vm_compute. reflexivity. Qed.

(** C28: the first string hashed determines |seed| and the index. *)
Theorem C28_hash_input_injective : forall s s' i i',
  0 <= s -> 0 <= s' -> 0 <= i < 2 ^ 64 -> 0 <= i' < 2 ^ 64 ->
  hash_input s i = hash_input s' i' -> s = s' /\ i = i'.
Proof.
  intros s s' i i' Hs Hs' Hi Hi' E. destruct (hash_input_inj s s' i i' Hi Hi' E). split; lia.
Qed.
Print Assumptions C28_hash_input_injective.

(** opposite seeds are the same seed *)
Theorem C28_opposite_seeds : forall sha rand fuel pos l st vs s i bits r1 v1 r2 v2,
  is_sha sha -> (forall k, 0 <= rand k < 2 ^ 31) ->
  Forall call_width_ok l -> run_prf sha rand fuel (new_prf pos) l = Ok (st, vs) ->
  0 < bits -> bits + 7 < 2 ^ 64 ->
  generate sha rand fuel st s i bits = Ok (r1, v1) ->
  generate sha rand fuel st (- s) i bits = Ok (r2, v2) -> v1 = v2.
Proof.
  intros sha rand fuel pos l st vs s i bits r1 v1 r2 v2 HS HR F E B0 B1 G1 G2.
  destruct (C25_history_independent sha rand fuel pos l st vs s i bits HS HR F E B0 B1) as [x H1].
  destruct (C25_history_independent sha rand fuel pos l st vs (- s) i bits HS HR F E B0 B1) as [y H2].
  rewrite G1 in H1. rewrite G2 in H2. apply Ok_inj in H1. apply Ok_inj in H2.
  injection H1 as _ ->. injection H2 as _ ->. unfold prf_value. rewrite hash_input_opp. reflexivity.
Qed.
Print Assumptions C28_opposite_seeds.

(** C28/C25 link: the model really hashes [hash_input] first: with a digest
    function that reveals its argument the output is that argument. *)
Example C28_nonvacuous :
  hash_input 300 5 = [44; 1; 5; 0; 0; 0; 0; 0; 0; 0] /\
  exists st, generate (fun x => x ++ repeat 0 (20 - length x)) (fun _ => 0) 1 (new_prf 0) 300 5 80
    = Ok (st, 44 + 1 * 256 + 5 * 65536).
Proof. split; [reflexivity|]. eexists. vm_compute. reflexivity. Qed.

(** C29: width 0.  [r] is the first non-zero value rand() delivers. *)
Theorem C29_zero_width_undefined : forall sha rand fuel pos l st vs seed index k,
  is_sha sha -> (forall k, 0 <= rand k < 2 ^ 31) ->
  Forall call_width_ok l -> run_prf sha rand fuel (new_prf pos) l = Ok (st, vs) ->
  (k < fuel)%nat -> (forall j, (j < k)%nat -> rand (p_pos st + j)%nat = 0) ->
  24 < rand (p_pos st + k)%nat ->
  generate sha rand fuel st seed index 0 = UB BadShift.
Proof.
  exact (fun sha rand fuel pos l st vs seed index k HS HR F E Hk Hz Hr =>
    zero_bits_ub sha HS rand fuel st seed index k
      (run_prf_wf sha HS rand fuel HR l (new_prf pos) st vs (new_prf_wf pos) F E) Hk Hz
      (conj Hr (proj2 (HR (p_pos st + k)%nat)))).
Qed.
Print Assumptions C29_zero_width_undefined.

Theorem C29_zero_width_small : forall sha rand fuel pos l st vs seed index k r,
  is_sha sha -> (forall k, 0 <= rand k < 2 ^ 31) ->
  Forall call_width_ok l -> run_prf sha rand fuel (new_prf pos) l = Ok (st, vs) ->
  (k < fuel)%nat -> (forall j, (j < k)%nat -> rand (p_pos st + j)%nat = 0) ->
  rand (p_pos st + k)%nat = r -> 1 <= r <= 24 ->
  let n := Z.to_nat ((r + 7) / 8) in
  exists st', generate sha rand fuel st seed index 0 =
    Ok (st', LE (firstn (n - 1) (chain sha (hash_input seed index) n))).
Proof.
  intros sha rand fuel pos l st vs seed index k r HS HR F E Hk Hz Er Hr. subst r.
  destruct (zero_bits_small sha HS rand fuel st seed index k
      (run_prf_wf sha HS rand fuel HR l (new_prf pos) st vs (new_prf_wf pos) F E) Hk Hz Hr) as [st' [G _]].
  exists st'. exact G.
Qed.
Print Assumptions C29_zero_width_small.

Example C29_nonvacuous :
  let rnd k := if Nat.ltb k 2 then 0 else if Nat.eqb k 2 then 20 else 1804289383 in
  (exists st v, generate demo_sha rnd 5 (new_prf 0) 9 1 0 = Ok (st, v) /\ p_pos st = 3%nat) /\
  (exists st vs, run_prf demo_sha rnd 5 (new_prf 0) [Seeded 9 1 0; Seeded 3 3 77] = Ok (st, vs) /\ 24 < rnd (p_pos st + 0)%nat).
Proof. cbv zeta. split; do 2 eexists; (split; [vm_compute; reflexivity|reflexivity]). Qed.

(** C30 *)
Theorem C30_field_range_and_cap : forall sha rand p fuel pos l modulo st vs seed index bits,
  is_sha sha -> 1 < p -> 0 < modulo -> num_bits modulo + 7 < 2 ^ 64 -> Forall zp_call_ok l ->
  run_zp sha rand p fuel (new_zpprf modulo pos) l = Ok (st, vs) -> 0 <= bits ->
  let width := if bits =? 0 then num_bits modulo else Z.min bits (num_bits modulo) in
  0 < width /\
  exists st', zp_generate sha rand p fuel st seed index bits = Ok (st', prf_value sha seed index width mod p) /\
    0 <= prf_value sha seed index width mod p < p.
Proof. exact zp_range_l. Qed.
Print Assumptions C30_field_range_and_cap.

Example C30_nonvacuous : exists st, zp_generate demo_sha (fun _ => 9) 1000003 1 (new_zpprf 1000003 0) 17 4 0 = Ok (st, 401176).
Proof. eexists. vm_compute. reflexivity. Qed.

(** C31: in any interleaving, the j-th call, if seedless, returns the
    element number (seedless calls before it) of the stream of the seed drawn
    once; if it gives an index, that element of the same stream. *)
Theorem C31_seedless_stream : forall sha rand p fuel pos modulo l,
  is_sha sha -> 0 < modulo -> num_bits modulo + 7 < 2 ^ 64 -> Forall zp_call_ok l ->
  exists st vs, run_zp sha rand p fuel (new_zpprf modulo pos) l = Ok (st, vs) /\ length vs = length l /\
    forall j c, nth_error l j = Some c ->
      nth_error vs j = Some (
        let value s i b := prf_value sha s i (zp_width modulo b) mod p in
        match c with
        | Seeded s i b => value s i b
        | Auto i b => value (rand pos mod p) i b
        | Next => value (rand pos mod p) (nexts (firstn j l) mod 2 ^ 64) 0
        end).
Proof. exact zp_stream_l. Qed.
Print Assumptions C31_seedless_stream.

Example C31_nonvacuous : Forall zp_call_ok [Seeded 4 4 0; Next; Auto 3 9; Next] /\
  nexts (firstn 3 [Seeded 4 4 0; Next; Auto 3 9; Next]) = 1.
Proof. split; [repeat constructor; cbn; lia|reflexivity]. Qed.

(** C90: generate() without arguments on a plain ZZPRF, after any history [l]
    that returned: it is generate(index, 0) with index the number of earlier
    generate() calls (modulo 2^64): explicit calls do not advance it. *)
Theorem C90_next_index : forall sha rand fuel pos l st vs v,
  run_prf sha rand fuel (new_prf pos) l = Ok (st, vs) ->
  ((exists st', generate_next sha rand fuel st = Ok (st', v)) <->
   (exists st', generate_auto sha rand fuel st (nexts l mod 2 ^ 64) 0 = Ok (st', v))).
Proof. exact next_is_auto. Qed.
Print Assumptions C90_next_index.

(** and the seed of all seedless calls is the value rand() delivered at the
    first of them *)
Theorem C90_one_seed : forall sha rand fuel pos l1 st1 vs1 c st2 v2,
  run_prf sha rand fuel (new_prf pos) l1 = Ok (st1, vs1) -> ~ Exists seedless l1 ->
  seedless c -> exec_call sha rand fuel st1 c = Ok (st2, v2) ->
  forall l3 st3 vs3 index bits, run_prf sha rand fuel st2 l3 = Ok (st3, vs3) ->
    generate_auto sha rand fuel st3 index bits = generate sha rand fuel st3 (rand (p_pos st1)) index bits.
Proof. exact seed_kept. Qed.
Print Assumptions C90_one_seed.

Example C90_nonvacuous :
  let rnd k := Z.of_nat k + 3 in
  nexts [Seeded 9 1 30; Next; Auto 5 12; Next; Auto 5 12] = 2 /\
  exists st vs st' v, run_prf demo_sha rnd 5 (new_prf 0) [Seeded 9 1 30; Next; Auto 5 12; Next; Auto 5 12] = Ok (st, vs) /\
    nth 2 vs 0 = nth 4 vs 0 /\ generate_next demo_sha rnd 5 st = Ok (st', v) /\ p_autoSeed st = Some (rnd 0%nat).
Proof.
  cbv zeta. split; [reflexivity|]. do 4 eexists. split; [vm_compute; reflexivity|]. split; [reflexivity|].
  split; [vm_compute; reflexivity|reflexivity].
Qed.
