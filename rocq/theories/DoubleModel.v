(** The figures computed in double: average, variance and standard deviation
    of a chronometer (src/libeopsi/simplebm.cpp) and of the bucket sizes
    (src/libeopsi/hashbuckets.hpp).  BenchModel and FilesModel compute them in
    exact rationals; here every operation is rounded as IEEE 754 binary64
    does.  A double is the real number it stands for; infinities and NaN are
    left out: nothing below divides by zero except where said, and all values
    stay below 2^200. *)
From Coq Require Import Reals.
From Flocq Require Import Core.
From Verif Require Import Base BenchModel HashBucketsModel.
Open Scope Z_scope.

(** round to nearest, ties to even (the default mode), 53 bits, least exponent -1074 *)
Definition rnd (x : R) : R := round radix2 (FLT_exp (-1074) 53) ZnearestE x.
(** conversion of an integer to double *)
Definition of_int (z : Z) : R := rnd (IZR z).
Definition dadd (x y : R) : R := rnd (x + y).
Definition dsub (x y : R) : R := rnd (x - y).
Definition dmul (x y : R) : R := rnd (x * y).
Definition ddiv (x y : R) : R := rnd (x / y).
(** sqrt() is correctly rounded (IEEE 754, glibc) *)
Definition dsqrt (x : R) : R := rnd (sqrt x).
(** conversion of a double to an unsigned 64-bit integer: truncation, undefined outside the range *)
Definition to_size (x : R) : res Z :=
  let z := Ztrunc x in if (0 <=? z) && (z <? 2 ^ 64) then Ok z else UB BadConv.

(** simplebm.cpp:254-264 *)
Definition average_d (b : bm) (noPauses : bool) : res R :=
  do few <- too_few b noPauses;
  if few then Ok 0%R
  else if noPauses then
    do s <- cumulativeBenchmark b 0 true;
    do c <- countNotPausedTimes b 1 (length (times b));
    Ok (ddiv (of_int s) (of_int c))
  else
    do s <- cumulativeBenchmark b 0 true;
    Ok (ddiv (of_int s) (of_int (Z.of_nat (length (times b)) - 1))).

(** simplebm.cpp:267-289; [x] is an unsigned long, converted when it meets [avg] *)
Definition variance_d (b : bm) (noPauses : bool) : res R :=
  do few <- too_few b noPauses;
  if few then Ok 0%R
  else
    do avg <- average_d b noPauses;
    let n := Z.of_nat (length (times b)) - 1 in
    for_up (length (times b) - 1) 1 (fun i var =>
      do ps <- aget (pauses b) i;
      if noPauses && negb ps then
        do d <- interval b i;
        let x := of_int (w64 d) in
        let diff := if Rlt_bool avg x then dsub x avg else dsub avg x in
        Ok (dadd var (dmul (ddiv diff (of_int n)) diff))
      else Ok var) 0%R.

(** simplebm.cpp:292-299 *)
Definition standardDeviation_d (b : bm) (noPauses : bool) : res R :=
  do few <- too_few b noPauses;
  if few then Ok 0%R else do v <- variance_d b noPauses; Ok (dsqrt v).

(** hashbuckets.hpp:203-218: average, the deviations (size_t), variance,
    standard deviation and the percentage of line 213; the latter divides by
    maxLoad as a double (by 0: not a number, not modelled) *)
Record size_figures := { sf_avg : R; sf_devs : list Z; sf_var : R; sf_sd : R; sf_percent : R }.
Definition size_figures_d {T} (h : hb T) : res size_figures :=
  do s <- print_stats h;
  let avg := ddiv (of_int (Z.of_nat (st_total s))) (of_int (Z.of_nat (hb_k h))) in
  do (devs, var) <- for_up (hb_k h) 0 (fun i '(devs, var) =>
      do b <- aget (hb_buckets h) i;
      let s := of_int (Z.of_nat (length (mv_items b))) in
      do d <- to_size (if Rlt_bool s avg then dsub avg s else dsub s avg);
      Ok (devs ++ [d], dadd var (ddiv (dmul (of_int d) (of_int d)) (of_int (Z.of_nat (hb_k h)))))) ([], 0%R);
  Ok {| sf_avg := avg; sf_devs := devs; sf_var := var; sf_sd := dsqrt var;
        sf_percent := ddiv (ddiv (dmul (of_int (Z.of_nat (st_total s))) (of_int 100)) (of_int (Z.of_nat (hb_k h))))
                           (of_int (Z.of_nat (hb_maxload h))) |}.
