(** The chronometers inside the classes of the protocol and of the simulator
    and the times they print: zzppoly.cpp, eopsiclient.cpp, eopsiserver.cpp and
    test/eopsisimul.cpp.  [clock k] is the k-th reading of the clock; what the
    program does between two readings is in the other models.  Times are in
    microseconds (the program divides them by 1000 or 1000000 to print). *)
From Coq Require Import QArith.
From Verif Require Import Base.
From Verif Require BenchModel.
Open Scope Z_scope.
Notation bm := BenchModel.bm.

(** what eopsiclient.cpp:546-561 prints of one chronometer; the standard
    deviation is kept squared *)
Record shown := { sh_avg : Q; sh_sd2 : Q; sh_total : Z }.
Definition shown_of (b : bm) : res shown :=
  do a <- BenchModel.average b true;
  do d <- BenchModel.standardDeviation_squared b true;
  do t <- BenchModel.cumulativeBenchmark b 0 true;
  Ok {| sh_avg := a; sh_sd2 := d; sh_total := t |}.

(** the members bmInt, bmMon, bmFac, bmCap of ZZpPolynomials (zzppoly.h:43-46) *)
Record laps := { lp_int : bm; lp_mon : bm; lp_fac : bm; lp_cap : bm }.
(** cont() ... pause() around one action *)
Definition one_lap (b : bm) (t0 t1 : Z) : res bm :=
  do b1 <- BenchModel.cont b t0; BenchModel.pause b1 t1 [].
(** zzppoly.cpp:204-232: round j of findIntersection; [k] is the number of
    readings before it *)
Definition find_round (clock : nat -> Z) (k : nat) (l : laps) : res laps :=
  do i <- one_lap (lp_int l) (clock k) (clock (k + 1)%nat);
  do m <- one_lap (lp_mon l) (clock (k + 2)%nat) (clock (k + 3)%nat);
  do f <- one_lap (lp_fac l) (clock (k + 4)%nat) (clock (k + 5)%nat);
  do c <- one_lap (lp_cap l) (clock (k + 6)%nat) (clock (k + 7)%nat);
  Ok {| lp_int := i; lp_mon := m; lp_fac := f; lp_cap := c |}.
(** zzppoly.cpp:199-239 for n polynomials, starting with reading [k]; the
    chronometers are paused at the calls of stop(), which take no reading *)
Definition find_times (clock : nat -> Z) (k n : nat) : res laps :=
  let new := BenchModel.new_bm in
  do l <- for_up n 0 (fun j l => find_round clock (k + 8 * j)%nat l) {| lp_int := new; lp_mon := new; lp_fac := new; lp_cap := new |};
  do i <- BenchModel.stop (lp_int l) (clock (k + 8 * n)%nat) [];
  do m <- BenchModel.stop (lp_mon l) (clock (k + 8 * n)%nat) [];
  do f <- BenchModel.stop (lp_fac l) (clock (k + 8 * n)%nat) [];
  do c <- BenchModel.stop (lp_cap l) (clock (k + 8 * n)%nat) [];
  Ok {| lp_int := i; lp_mon := m; lp_fac := f; lp_cap := c |}.

(** eopsiclient.cpp:541-566: what intersect(true) prints for n buckets *)
Record int_times := { it_int : shown; it_mon : shown; it_fac : shown; it_cap : shown; it_total : Z }.
Definition intersect_times (clock : nat -> Z) (k n : nat) : res int_times :=
  let b := BenchModel.start (clock k) in
  do l <- find_times clock (k + 1)%nat n;
  do b1 <- BenchModel.stop b (clock (k + 1 + 8 * n)%nat) [];
  do i <- shown_of (lp_int l);
  do m <- shown_of (lp_mon l);
  do f <- shown_of (lp_fac l);
  do c <- shown_of (lp_cap l);
  do t <- BenchModel.cumulativeBenchmark b1 0 true;
  Ok {| it_int := i; it_mon := m; it_fac := f; it_cap := c; it_total := t |}.

(** "cloud", "client", "int-unsure" *)
Definition s_cloud : list Z := [99; 108; 111; 117; 100].
Definition s_client : list Z := [99; 108; 105; 101; 110; 116].
Definition s_unsure : list Z := [105; 110; 116; 45; 117; 110; 115; 117; 114; 101].

(** eopsiclient.cpp:89, 152, 159, 169-170: the helper's time for a client
    request.  Readings: at the start, before and after the message to the
    server, at the end.  (The party's own chronometer is not used by the
    messages sent in between.) *)
Definition helper_time (clock : nat -> Z) : res Z :=
  let b := BenchModel.start (clock 0%nat) in
  do b1 <- BenchModel.pause b (clock 1%nat) s_cloud;
  do b2 <- BenchModel.cont b1 (clock 2%nat);
  do b3 <- BenchModel.stop b2 (clock 3%nat) s_client;
  BenchModel.cumulativeBenchmark b3 0 true.
(** eopsiserver.cpp:45, 67-68 and 75, 88-89: the server's time for a cloud
    request and for storing data *)
Definition server_time (clock : nat -> Z) : res Z :=
  let b := BenchModel.start (clock 0%nat) in
  do b1 <- BenchModel.stop b (clock 1%nat) [];
  BenchModel.cumulativeBenchmark b1 0 true.
(** eopsiclient.cpp:176-187 (192-203): the requester gets t (q); [complete]:
    the other one is there already, so that intersect() does its work on [n]
    buckets.  Result: what intersect prints, the time for finding the
    intersection, the time for the reception. *)
Definition output_times (clock : nat -> Z) (complete : bool) (n : nat) : res (option (int_times * Z) * Z) :=
  let b := BenchModel.start (clock 0%nat) in
  do b1 <- BenchModel.step b (clock 1%nat) s_unsure;
  do (b2, shown) <-
    (if complete then
       do it <- intersect_times clock 2 n;
       do b2 <- BenchModel.stop b1 (clock (4 + 8 * n)%nat) [];
       do t <- BenchModel.cumulativeBenchmark b2 0 true;
       Ok (b2, Some (it, t))
     else Ok (b1, None));
  do u <- BenchModel.cumulativeBenchmark_named b2 s_unsure true;
  Ok (shown, u).

(** the labels of eopsisimul.cpp: "min-cap", "set-A", "set-B",
    "add-n-blind-A", "add-n-blind-B", "eopsi-begin", "outsourcing",
    "plain-cap", "comp-req", "the-end", "check-result" *)
Definition s_min_cap : list Z := [109; 105; 110; 45; 99; 97; 112].
Definition s_set_A : list Z := [115; 101; 116; 45; 65].
Definition s_set_B : list Z := [115; 101; 116; 45; 66].
Definition s_blind_A : list Z := [97; 100; 100; 45; 110; 45; 98; 108; 105; 110; 100; 45; 65].
Definition s_blind_B : list Z := [97; 100; 100; 45; 110; 45; 98; 108; 105; 110; 100; 45; 66].
Definition s_begin : list Z := [101; 111; 112; 115; 105; 45; 98; 101; 103; 105; 110].
Definition s_outsourcing : list Z := [111; 117; 116; 115; 111; 117; 114; 99; 105; 110; 103].
Definition s_plain_cap : list Z := [112; 108; 97; 105; 110; 45; 99; 97; 112].
Definition s_comp_req : list Z := [99; 111; 109; 112; 45; 114; 101; 113].
Definition s_the_end : list Z := [116; 104; 101; 45; 101; 110; 100].
Definition s_check : list Z := [99; 104; 101; 99; 107; 45; 114; 101; 115; 117; 108; 116].

(** the ten times of the simulator in the order of printing
    (eopsisimul.cpp:377-379, 392-393, 408, 448, 471-473).  The clock is read
    at: the start; after the common data, A's data, B's data; before blinding;
    after A's and B's blinding; before and after the outsourcing; before and
    after the plain intersection; before the request is sent; after the
    protocol; after the check. *)
Record sim_times := {
  sm_common : Z; sm_dataA : Z; sm_dataB : Z; sm_blindA : Z; sm_blindB : Z; sm_outsourcing : Z; sm_request : Z;
  sm_plain : Z; sm_protocol : Z; sm_check : Z }.
Definition simulator_times (clock : nat -> Z) : res sim_times :=
  let b0 := BenchModel.start (clock 0%nat) in
  do b1 <- BenchModel.step b0 (clock 1%nat) s_min_cap;
  do b2 <- BenchModel.step b1 (clock 2%nat) s_set_A;
  do b3 <- BenchModel.step b2 (clock 3%nat) s_set_B;
  do r1 <- BenchModel.benchmark_named b3 s_min_cap;
  do r2 <- BenchModel.benchmark_named b3 s_set_A;
  do r3 <- BenchModel.benchmark_named b3 s_set_B;
  do b4 <- BenchModel.step b3 (clock 4%nat) [];
  do b5 <- BenchModel.step b4 (clock 5%nat) s_blind_A;
  do b6 <- BenchModel.step b5 (clock 6%nat) s_blind_B;
  do r4 <- BenchModel.benchmark_named b6 s_blind_A;
  do r5 <- BenchModel.benchmark_named b6 s_blind_B;
  do b7 <- BenchModel.step b6 (clock 7%nat) s_begin;
  do b8 <- BenchModel.step b7 (clock 8%nat) s_outsourcing;
  do r6 <- BenchModel.benchmark_named b8 s_outsourcing;
  do b9 <- BenchModel.step b8 (clock 9%nat) [];
  do b10 <- BenchModel.step b9 (clock 10%nat) s_plain_cap;
  do b11 <- BenchModel.step b10 (clock 11%nat) s_comp_req;
  do r7 <- BenchModel.benchmark_named b11 s_comp_req;
  do b12 <- BenchModel.step b11 (clock 12%nat) s_the_end;
  do b13 <- BenchModel.stop b12 (clock 13%nat) s_check;
  do r8 <- BenchModel.benchmark_named b13 s_plain_cap;
  do e <- BenchModel.cumulativeBenchmark_named b13 s_the_end true;
  do s <- BenchModel.cumulativeBenchmark_named b13 s_begin true;
  do r10 <- BenchModel.benchmark_named b13 s_check;
  Ok {| sm_common := r1; sm_dataA := r2; sm_dataB := r3; sm_blindA := r4; sm_blindB := r5; sm_outsourcing := r6;
        sm_request := r7; sm_plain := r8; sm_protocol := e - s; sm_check := r10 |}.
