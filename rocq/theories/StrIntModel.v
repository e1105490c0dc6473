(** Model of src/libeopsi/strint.cpp: class StrInt *)
From Verif Require Import Base StrIntSpec.

(** strint.h:27-33.  [si_b]: the mpz_t scratch array b; [si_z]: the number;
    [si_pow2]: cached powers; [si_len]: length (a size_t, as nat). *)
Record strint := mkStrInt {
  si_b : list Z;
  si_z : Z;
  si_pow2 : list Z;
  si_len : nat
}.

(** strint.cpp:86-90: [b[i] = n[i] * pow2[i]] for i < dim *)
Definition fill_cells (dim : nat) (n : list Z) (pow2 : list Z) (b : list Z) : res (list Z) :=
  for_up dim 0 (fun i b =>
    do x <- aget n i;
    do p <- aget pow2 i;
    aset b i (x * p)) b.

(** strint.cpp:97-99: [for (i = 0; i < j/2; i++) b[i] += b[j/2+i]] *)
Definition fold_half (j : nat) (b : list Z) : res (list Z) :=
  for_up (j / 2) 0 (fun i b =>
    do x <- aget b i;
    do y <- aget b (j / 2 + i);
    aset b i (x + y)) b.

(** strint.cpp:97-102: one round; after the inner loop i = j/2. *)
Definition tree_round (j : nat) (b : list Z) : res (list Z) :=
  do b1 <- fold_half j b;
  if Nat.eqb (j mod 2) 1 then
    do x <- aget b1 (j - 1);
    aset b1 (j / 2) x
  else Ok b1.

(** strint.cpp:96-103: [for (j = dim; j > 1; j = (j+1)/2)] *)
Fixpoint tree_sum (fuel : nat) (j : nat) (b : list Z) : res (list Z) :=
  match fuel with
  | O => NoFuel
  | S f => if Nat.ltb 1 j then do b1 <- tree_round j b; tree_sum f ((j + 1) / 2) b1
           else Ok b
  end.

(** strint.cpp:81-107.  [n] is the caller's buffer, [len] the length argument. *)
Definition set_bytes (s : strint) (n : list Z) (len : nat) : res strint :=
  let dim := Nat.min len (si_len s) in
  do b1 <- fill_cells dim n (si_pow2 s) (si_b s);
  do b2 <- tree_sum (S dim) dim b1;
  do z <- aget b2 0;
  Ok (mkStrInt b2 z (si_pow2 s) (si_len s)).

(** strint.cpp:12-59.  [n = None] is the null pointer; [len*bytes > 0] is
    size_t arithmetic. *)
Definition new_strint (bytes : nat) (n : option (list Z)) (len : nat) : res strint :=
  let length := match bytes with O => 1%nat | _ => bytes end in
  let s0 := mkStrInt (repeat 0 length) 0
                     (map (fun i => 2 ^ (8 * Z.of_nat i)) (seq 0 length)) length in
  match n with
  | Some buf =>
      if 0 <? w64 (Z.of_nat len * Z.of_nat bytes) then set_bytes s0 buf len
      else set_bytes s0 (repeat 0 len) len
  | None => set_bytes s0 (repeat 0 len) len
  end.

(** strint.cpp:76-78 *)
Definition set_ulong (s : strint) (v : Z) : strint :=
  mkStrInt (si_b s) v (si_pow2 s) (si_len s).

(** strint.cpp:110-112: mpz_fdiv_ui, GMP aborts on a zero divisor. *)
Definition rem (s : strint) (d : Z) : res Z :=
  if d =? 0 then Abort else Ok (si_z s mod d).

(** strint.cpp:115-117: [mpz_fdiv_ui(b[0], (unsigned long)(-1L))] *)
Definition lsb (s : strint) : res Z :=
  do b0 <- aget (si_b s) 0; Ok (b0 mod (M64 - 1)).

(** strint.cpp:120-122 *)
Definition inc (s : strint) : res strint :=
  do p <- aget (si_pow2 s) 0;
  Ok (mkStrInt (si_b s) (si_z s + p) (si_pow2 s) (si_len s)).

(** strint.cpp:125-128 *)
Definition add (s : strint) (n : Z) : res strint :=
  do b <- aset (si_b s) 0 n;
  Ok (mkStrInt b (si_z s + n) (si_pow2 s) (si_len s)).

(** strint.cpp:172-174.  mpz_sizeinbase(z,2) is 1 for 0 (GMP manual) and the
    bit length otherwise; sizeof(byte) = 1. *)
Definition getByteSize (s : strint) : Z :=
  ((if si_z s =? 0 then 1 else num_bits (si_z s)) + 1 - 1) / 1.

(** mpz_export with 1-byte words, most significant first (GMP manual): the
    words written; their number is stored through countp. *)
Definition export_words (z : Z) : list Z :=
  rev (le_bytes (Z.to_nat ((num_bits z + 7) / 8)) (Z.abs z)).

(** Result of toBytes: the returned pointer's buffer (None = null) and the
    final value of *bytelen. *)
Record bytes_out := mkBytesOut { bo_buf : option (list (option Z)); bo_len : Z }.

(** write [ws] over the first cells of a buffer; past its end is UB *)
Fixpoint overwrite (buf : list (option Z)) (ws : list Z) {struct ws} : res (list (option Z)) :=
  match ws, buf with
  | [], _ => Ok buf
  | w :: ws', _ :: buf' => do r <- overwrite buf' ws'; Ok (Some w :: r)
  | _ :: _, [] => UB OutOfBounds
  end.

(** strint.cpp:138-169.  [barr = None] is a null buffer, [bytelen = None] a
    null length pointer, [Some n] the value it points to.  With a null buffer
    mpz_export allocates its own block whose address toBytes drops. *)
Definition toBytes (s : strint) (barr : option (list (option Z))) (bytelen : option Z)
  : res bytes_out :=
  let LEN := getByteSize s in
  let barr1 :=
    match barr, bytelen with
    | Some _, Some n => if n =? LEN then barr else Some (repeat None (Z.to_nat LEN))
    | _, _ => barr
    end in
  let ws := export_words (si_z s) in
  do barr2 <- match barr1 with
              | Some buf => do r <- overwrite buf ws; Ok (Some r)
              | None => Ok None
              end;
  match bytelen with
  | None => UB NullDeref                              (* *bytelen, line 158 *)
  | Some _ =>
      let n := Z.of_nat (length ws) in
      do (barr3, n3) <-
        (if (n =? 0) && (LEN =? 1) then
           match barr2 with
           | None => UB NullDeref                     (* barr[0], line 159 *)
           | Some buf => do r <- aset buf 0 (Some 0); Ok (Some r, 1)
           end
         else Ok (barr2, n));
      if n3 =? LEN then Ok (mkBytesOut barr3 n3) else Exit 2
  end.

(** A history of calls on one object (strint.cpp:76-128). *)
Definition apply_op (s : strint) (o : op) : res strint :=
  match o with
  | SetU v => Ok (set_ulong s v)
  | SetB n len => set_bytes s n len
  | Inc => inc s
  | Add v => add s v
  end.
Fixpoint run (s : strint) (l : list op) : res strint :=
  match l with [] => Ok s | o :: t => do s1 <- apply_op s o; run s1 t end.
