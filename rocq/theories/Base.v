(** Common vocabulary of the model: outcomes of a C++ call, fixed width
    integers, arrays with bounds, loops.  No proofs here. *)
From Coq Require Export ZArith List Bool.
Export ListNotations.
Open Scope Z_scope.

(** Reasons for undefined behaviour that the model distinguishes. *)
Inductive ub :=
| OutOfBounds      (* read or write outside an array *)
| NullDeref        (* dereference of a null pointer *)
| Dangling         (* read or delete of freed memory *)
| Uninit           (* read of uninitialised memory *)
| BadShift         (* shift count not below the width of the promoted operand *)
| DivByZero        (* built-in integer division by zero *)
| BadCast          (* object accessed through a pointer to another type *)
| BadConv.         (* floating point value outside the range of an integer type *)

(** Outcome of a call.  [Exit c] is [exit(c)]; [Abort] is an error inside
    GMP/NTL that terminates the program; [NoFuel] is a model artefact (a loop
    bound was exhausted) that the theorems exclude. *)
Inductive res (A : Type) :=
| Ok (a : A)
| Exit (code : Z)
| UB (why : ub)
| Abort
| NoFuel.
Arguments Ok {A} a.
Arguments Exit {A} code.
Arguments UB {A} why.
Arguments Abort {A}.
Arguments NoFuel {A}.

Definition bind {A B} (x : res A) (f : A -> res B) : res B :=
  match x with
  | Ok a => f a
  | Exit c => Exit c
  | UB w => UB w
  | Abort => Abort
  | NoFuel => NoFuel
  end.
Notation "'do' x <- e ; f" := (bind e (fun x => f))
  (at level 200, x pattern, e at level 100, f at level 200, right associativity).

(** Platform: LP64 (64-bit [unsigned long]/[size_t], 32-bit [unsigned int],
    8-bit bytes), as the library's own NTL build requires. *)
Definition M64 : Z := 2 ^ 64.
Definition w64 (z : Z) : Z := z mod M64.
Definition w32 (z : Z) : Z := z mod 2 ^ 32.
Definition w8 (z : Z) : Z := z mod 256.
(** conversion of an unsigned 64-bit value to [long] *)
Definition s64 (z : Z) : Z := if z mod M64 <? 2 ^ 63 then z mod M64 else z mod M64 - M64.

(** Arrays: reads and writes outside the bounds are undefined behaviour. *)
Definition aget {A} (l : list A) (i : nat) : res A :=
  match nth_error l i with Some a => Ok a | None => UB OutOfBounds end.

Fixpoint upd {A} (l : list A) (i : nat) (v : A) : list A :=
  match l, i with
  | [], _ => []
  | _ :: t, O => v :: t
  | h :: t, S j => h :: upd t j v
  end.

Definition aset {A} (l : list A) (i : nat) (v : A) : res (list A) :=
  if Nat.ltb i (length l) then Ok (upd l i v) else UB OutOfBounds.

(** Indices given as machine integers. *)
Definition zget {A} (l : list A) (i : Z) : res A :=
  if i <? 0 then UB OutOfBounds else aget l (Z.to_nat i).
Definition zset {A} (l : list A) (i : Z) (v : A) : res (list A) :=
  if i <? 0 then UB OutOfBounds else aset l (Z.to_nat i) v.

(** [for (i = i0; i < i0 + n; i++) body] *)
Fixpoint for_up {S} (n i0 : nat) (body : nat -> S -> res S) (s : S) : res S :=
  match n with
  | O => Ok s
  | Datatypes.S m => do s1 <- body i0 s; for_up m (Datatypes.S i0) body s1
  end.

(** map with failure *)
Fixpoint mapM {A B} (f : A -> res B) (l : list A) : res (list B) :=
  match l with
  | [] => Ok []
  | a :: t => do b <- f a; do bs <- mapM f t; Ok (b :: bs)
  end.

(** NTL::NumBits: number of bits of |z|, 0 for 0 (NTL manual). *)
Definition num_bits (z : Z) : Z := if z =? 0 then 0 else Z.log2 (Z.abs z) + 1.

(** NTL::NumTwos: largest e with 2^e | z, 0 for 0 (NTL manual). *)
Fixpoint pos_twos (p : positive) : Z :=
  match p with xO q => 1 + pos_twos q | _ => 0 end.
Definition num_twos (z : Z) : Z :=
  match z with Z0 => 0 | Zpos p => pos_twos p | Zneg p => pos_twos p end.

(** NTL shifts with a signed count: a negative count shifts the other way,
    right shifts act on the absolute value (NTL manual). *)
Definition ntl_shl (z k : Z) : Z :=
  if 0 <=? k then z * 2 ^ k else Z.quot z (2 ^ (- k)).
Definition ntl_shr (z k : Z) : Z := ntl_shl z (- k).

(** Little-endian bytes: NTL::ZZFromBytes / NTL::BytesFromZZ (NTL manual;
    BytesFromZZ writes the [n] low-order bytes of |z|). *)
Fixpoint le_val (l : list Z) : Z :=
  match l with [] => 0 | b :: t => b + 256 * le_val t end.
Fixpoint le_bytes (n : nat) (z : Z) : list Z :=
  match n with
  | O => []
  | S m => z mod 256 :: le_bytes m (z / 256)
  end.
Definition is_byte (b : Z) : Prop := 0 <= b < 256.
