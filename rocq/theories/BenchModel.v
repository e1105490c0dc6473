(** Model of src/libeopsi/simplebm.cpp (class SimpleBenchmark). *)
From Verif Require Import Base.
From Coq Require Import QArith.
Open Scope Z_scope.

(** A std::string. *)
Notation str := (list Z).
Definition str_eq (a b : str) : bool := if list_eq_dec Z.eq_dec a b then true else false.

(** simplebm.h:60-63.  Time points are nanoseconds (system clock period);
    [cursors] is an unordered_map, here an association list, newest first. *)
Record bm := { times : list Z; stopped : bool; cursors : list (str * nat); pauses : list bool }.

(** duration_cast<microseconds> of a nanosecond difference: truncation toward zero *)
Definition us (ns : Z) : Z := Z.quot ns 1000.

(** simplebm.cpp:152-158; the receiver's previous content is irrelevant *)
Definition reset : bm := {| times := []; stopped := false; cursors := []; pauses := [false] |}.
(** simplebm.cpp:13-18 *)
Definition new_bm : bm := {| times := times reset; stopped := true; cursors := cursors reset; pauses := pauses reset |}.

(** simplebm.cpp:30-36 (and 25-27 with pausing = false); [now] is the clock reading *)
Definition takeTime (b : bm) (now : Z) (pausing : bool) (cursor : str) : bm :=
  let times' := times b ++ [now] in
  {| times := times'; stopped := stopped b;
     cursors := if str_eq cursor [] then cursors b else (cursor, (length times' - 1)%nat) :: cursors b;
     pauses := pauses b ++ [pausing] |}.

(** simplebm.cpp:39-51 *)
Definition getNumericCursor (b : bm) (cursor : str) : nat :=
  match find (fun p => str_eq (fst p) cursor) (cursors b) with
  | Some p => snd p
  | None => 0
  end.

(** times[i] - times[i-1] in microseconds *)
Definition interval (b : bm) (i : nat) : res Z :=
  do t1 <- aget (times b) i;
  do t0 <- zget (times b) (w64 (Z.of_nat i - 1));
  Ok (us (t1 - t0)).

(** loop bounds of simplebm.cpp:58 and 71 *)
Definition lo_cursor (from : nat) : nat := if Nat.ltb 0 from then from else 1.
Definition hi_cursor (b : bm) (to : nat) : nat := if Nat.leb to (length (times b)) then to else length (times b).

(** simplebm.cpp:54-64 *)
Definition sumNotPausedTimes (b : bm) (from to : nat) : res Z :=
  for_up (hi_cursor b to - lo_cursor from) (lo_cursor from) (fun i sum =>
    do ps <- aget (pauses b) i;
    if negb ps then do d <- interval b i; Ok (sum + d) else Ok sum) 0.

(** simplebm.cpp:67-77 *)
Definition countNotPausedTimes (b : bm) (from to : nat) : res Z :=
  for_up (hi_cursor b to - lo_cursor from) (lo_cursor from) (fun i count =>
    do ps <- aget (pauses b) i;
    if negb ps then Ok (count + 1) else Ok count) 0.

(** the guard of simplebm.cpp:86, 255, 272, 293, 303, 313 *)
Definition too_few (b : bm) (noPauses : bool) : res bool :=
  if Nat.ltb (length (times b)) 2 then Ok true
  else if noPauses then Ok false
  else do c <- countNotPausedTimes b (length (times b)) 0; Ok (c <? 2).

(** simplebm.cpp:92-98: [i] is the loop counter; the result is the final i
    and (min, max) *)
Fixpoint first_running (fuel : nat) (b : bm) (i : nat) (mm : Z * Z) : res (nat * (Z * Z)) :=
  match fuel with
  | O => NoFuel
  | S f =>
      let i := S i in
      if Nat.ltb i (length (times b)) then
        do ps <- aget (pauses b) i;
        if negb ps then do d <- interval b i; Ok (i, (d, d))
        else first_running f b i mm
      else Ok (i, mm)
  end.
(** simplebm.cpp:103-107 and 114-118 *)
Definition update_min_max (mm : Z * Z) (cur : Z) : Z * Z :=
  let '(mn, mx) := mm in
  if cur <? mn then (cur, mx) else if mx <? cur then (mn, cur) else (mn, mx).

(** simplebm.cpp:80-123 *)
Definition minOrMax (b : bm) (giveMax noPauses : bool) : res Z :=
  do few <- too_few b noPauses;
  if few then Ok 0 else
  do mm <- (if noPauses then
      do (i, mm) <- first_running (S (length (times b))) b 0 (0, 0);
      for_up (length (times b) - i) i (fun i mm =>
        do ps <- aget (pauses b) i;
        if negb ps then do d <- interval b i; Ok (update_min_max mm d) else Ok mm) mm
    else
      do d <- interval b 1;
      for_up (length (times b) - 2) 2 (fun i mm =>
        do d <- interval b i; Ok (update_min_max mm d)) (d, d));
  Ok (if giveMax then snd mm else fst mm).

(** simplebm.cpp:126-129 *)
Definition start (now : Z) : bm := takeTime reset now false [].

(** simplebm.cpp:201-203 *)
Definition isPaused (b : bm) : res bool :=
  if stopped b then Ok false else zget (pauses b) (w64 (Z.of_nat (length (pauses b)) - 1)).
(** simplebm.cpp:206-208 *)
Definition isStopped (b : bm) : bool := stopped b.

(** simplebm.cpp:132-149; the warnings on stderr are not modelled, the read
    inside isPaused is *)
Definition step (b : bm) (now : Z) (cursor : str) : res bm :=
  if Nat.eqb (length (times b)) 0 then Ok (start now)
  else do _ <- isPaused b;
       if negb (stopped b) then Ok (takeTime b now false cursor) else Ok b.

(** simplebm.cpp:161-176 *)
Definition pause (b : bm) (now : Z) (cursor : str) : res bm :=
  if Nat.eqb (length (times b)) 0 then Ok b
  else do ps <- isPaused b;
       if ps then Ok b
       else if negb (stopped b) then Ok (takeTime b now true cursor) else Ok b.

(** simplebm.cpp:179-181 *)
Definition cont (b : bm) (now : Z) : res bm := step b now [].

(** simplebm.cpp:184-198 *)
Definition stop (b : bm) (now : Z) (cursor : str) : res bm :=
  if stopped b then Ok b
  else do ps <- isPaused b;
       let b1 := if negb ps then takeTime b now false cursor else b in
       Ok {| times := times b1; stopped := true; cursors := cursors b1; pauses := pauses b1 |}.

(** simplebm.cpp:211-221 *)
Definition benchmark (b : bm) (cursor : nat) : res Z :=
  if Nat.leb (length (times b)) cursor then Ok 0
  else if Nat.ltb cursor 1 then
    do t1 <- zget (times b) (w64 (Z.of_nat (length (times b)) - 1));
    do t0 <- zget (times b) (w64 (Z.of_nat (length (times b)) - 2));
    Ok (us (t1 - t0))
  else interval b cursor.
(** simplebm.cpp:224-226 *)
Definition benchmark_named (b : bm) (cursor : str) : res Z := benchmark b (getNumericCursor b cursor).

(** simplebm.cpp:229-246 *)
Definition cumulativeBenchmark (b : bm) (cursor : nat) (noPauses : bool) : res Z :=
  if Nat.leb (length (times b)) cursor then Ok 0
  else if Nat.ltb cursor 1 then
    if noPauses then sumNotPausedTimes b 1 (length (times b))
    else do t1 <- zget (times b) (w64 (Z.of_nat (length (times b)) - 1));
         do t0 <- aget (times b) 0; Ok (us (t1 - t0))
  else
    if noPauses then sumNotPausedTimes b 1 (cursor + 1)
    else do t1 <- aget (times b) cursor; do t0 <- aget (times b) 0; Ok (us (t1 - t0)).
(** simplebm.cpp:249-251 *)
Definition cumulativeBenchmark_named (b : bm) (cursor : str) (noPauses : bool) : res Z :=
  cumulativeBenchmark b (getNumericCursor b cursor) noPauses.

(** simplebm.cpp:254-264, in exact rationals instead of double;
    [cumulativeBenchmark(false)] passes false as the cursor 0. *)
Definition average (b : bm) (noPauses : bool) : res Q :=
  do few <- too_few b noPauses;
  if few then Ok (0 # 1)%Q
  else if noPauses then
    do s <- cumulativeBenchmark b 0 true;
    do c <- countNotPausedTimes b 1 (length (times b));
    Ok (inject_Z s / inject_Z c)%Q
  else
    do s <- cumulativeBenchmark b 0 true;
    Ok (inject_Z s / inject_Z (Z.of_nat (length (times b)) - 1))%Q.

(** simplebm.cpp:267-289, in exact rationals; [x] is an unsigned long *)
Definition variance (b : bm) (noPauses : bool) : res Q :=
  do few <- too_few b noPauses;
  if few then Ok (0 # 1)%Q
  else
    do avg <- average b noPauses;
    let n := Z.of_nat (length (times b)) - 1 in
    for_up (length (times b) - 1) 1 (fun i var =>
      do ps <- aget (pauses b) i;
      if noPauses && negb ps then
        do d <- interval b i;
        let x := inject_Z (w64 d) in
        let diff := if negb (Qle_bool x avg) then (x - avg)%Q else (avg - x)%Q in
        Ok (var + diff / inject_Z n * diff)%Q
      else Ok var) (0 # 1)%Q.

(** simplebm.cpp:292-299: the square of the returned value *)
Definition standardDeviation_squared (b : bm) (noPauses : bool) : res Q :=
  do few <- too_few b noPauses;
  if few then Ok (0 # 1)%Q else variance b noPauses.

(** simplebm.cpp:302-319 *)
Definition max (b : bm) (noPauses : bool) : res Z :=
  do few <- too_few b noPauses;
  if few then Ok 0 else minOrMax b true noPauses.
Definition min (b : bm) (noPauses : bool) : res Z :=
  do few <- too_few b noPauses;
  if few then Ok 0 else minOrMax b false noPauses.

(** histories of public calls, each with the clock reading it would take *)
Inductive op :=
| Start (now : Z) | Step (now : Z) (cursor : str) | Pause (now : Z) (cursor : str)
| Cont (now : Z) | Stop (now : Z) (cursor : str) | Reset.
Definition exec (b : bm) (o : op) : res bm :=
  match o with
  | Start t => Ok (start t)
  | Step t c => step b t c
  | Pause t c => pause b t c
  | Cont t => cont b t
  | Stop t c => stop b t c
  | Reset => Ok reset
  end.
Fixpoint run (b : bm) (l : list op) : res bm :=
  match l with [] => Ok b | o :: t => do b1 <- exec b o; run b1 t end.
