(** Model of src/libeopsi/ntlmiss.cpp *)
From Verif Require Import Base.

(** ntlmiss.cpp:13-25.  [while (zl > 1) { zl = zl >> 1; l2++; }], one unit of
    fuel per evaluation of the loop condition. *)
Fixpoint log2_loop (fuel : nat) (zl l2 : Z) : res Z :=
  match fuel with
  | O => NoFuel
  | S f => if 1 <? zl then log2_loop f (ntl_shr zl 1) (w64 (l2 + 1)) else Ok l2
  end.
(** ntlmiss.cpp:13-19: the initial values. The fuel is a model parameter. *)
Definition log2 (fuel : nat) (z : Z) : res Z := log2_loop fuel z 0.

(** ntlmiss.cpp:28-30, unsigned long arithmetic; division by zero is UB. *)
Definition blocks (bits bits_per_block : Z) : res Z :=
  if bits_per_block =? 0 then UB DivByZero
  else Ok (w64 (bits + bits_per_block - 1) / bits_per_block).

(** ntlmiss.cpp:33-35 *)
Definition bytes_of_bits (bits : Z) : res Z := blocks bits 8.

(** ntlmiss.cpp:38-40 (and 43-46 for a ZZ_p, through its representative).
    [NumBits] is a [long]; sizes are far below 2^63. *)
Definition bytes_of_zz (z : Z) : Z := (num_bits z + 7) / 8.

(** NTL's vec_ZZ_p::SetLength (NTL manual): the cells below the old length are
    kept, new cells are zero. *)
Definition set_length (zp : list Z) (n : nat) : list Z :=
  firstn n zp ++ repeat 0 (n - length zp).
(** the loop [for (i = 0; i < n; i++) zp[i] = v[i]] of lines 52-54, 62-64,
    77-79 and 91-93 *)
Definition copy_cells (zp v : list Z) (n : nat) : res (list Z) :=
  for_up n 0 (fun i zp => do x <- aget v i; aset zp i x) zp.
(** ntlmiss.cpp:49-55; [zp.kill()] empties the destination. *)
Definition vector2VecZZp_into (zp v : list Z) : res (list Z) :=
  let zp := [] in
  copy_cells (set_length zp (length v)) v (length v).
(** ntlmiss.cpp:58-67 *)
Definition vector2VecZZp (v : list Z) : res (list Z) :=
  copy_cells (set_length [] (length v)) v (length v).
(** ntlmiss.cpp:70-80: copy of the first [dim] cells of a C array; a null
    pointer leaves the destination untouched. *)
Definition array2VecZZp_into (zp : list Z) (v : option (list Z)) (dim : nat) : res (list Z) :=
  match v with
  | None => Ok zp
  | Some a => let zp := [] in copy_cells (set_length zp dim) a dim
  end.
(** ntlmiss.cpp:83-96 *)
Definition array2VecZZp (v : option (list Z)) (dim : nat) : res (list Z) :=
  match v with
  | None => Ok []
  | Some a => copy_cells (set_length [] dim) a dim
  end.

(** ntlmiss.cpp:99-110.  [padsize] is a size_t, NTL's shift takes a long. *)
Definition zeroPad (z padsize : Z) : Z :=
  if 0 <? padsize then ntl_shl z (s64 padsize) else z.

(** ntlmiss.cpp:113-127.  [bs] and [topad] are 32-bit unsigned ints. *)
Definition zeroPadTo (z padsize : Z) : Z :=
  let bs := w32 (num_bits z) in
  let topad := w32 (if bs <? padsize then w64 (padsize - bs) else 0) in
  if 0 <? topad then ntl_shl z (w32 (topad - 1)) else z.

(** ntlmiss.cpp:130-132 *)
Definition countLeadingZeros (z : Z) : Z := num_twos z.
