(** What a StrInt is supposed to be under an operation history (no reference
    to the implementation). *)
From Verif Require Import Base Spec.

(** Calls of the public mutators: set(unsigned long), set(bytes, len), inc, add. *)
Inductive op := SetU (v : Z) | SetB (n : list Z) (len : nat) | Inc | Add (v : Z).

(** the caller's obligation: a buffer holds at least the bytes read *)
Definition op_valid (o : op) : Prop :=
  match o with SetB n len => (len <= length n)%nat | _ => True end.

(** the number denoted by a history, when the empty byte string is never set:
    [L] is the capacity in bytes. *)
Definition value_step (L : nat) (v : Z) (o : op) : Z :=
  match o with
  | SetU x => x
  | SetB n len => LE (firstn (Nat.min len L) n)
  | Inc => v + 1
  | Add x => v + x
  end.

(** the same with the scratch value that set(n, 0) exposes: (number, scratch) *)
Definition abs_step (L : nat) (a : Z * Z) (o : op) : Z * Z :=
  match o with
  | SetU v => (v, snd a)
  | SetB n O => (snd a, snd a)
  | SetB n len => (LE (firstn (Nat.min len L) n), LE (firstn (Nat.min len L) n))
  | Inc => (fst a + 1, snd a)
  | Add v => (fst a + v, v)
  end.

Definition nonempty_op (o : op) : Prop :=
  match o with SetB _ len => (1 <= len)%nat | _ => True end.
