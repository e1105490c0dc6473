(** What a generator needs in memory over a history of calls. *)
From Verif Require Import Base Spec PRFModel PRFSpec.

(** how many times a new maximum is reached, reading from the left with
    [top] as the maximum so far *)
Fixpoint peaks (top : Z) (l : list Z) : nat :=
  match l with
  | [] => 0
  | x :: r => if top <? x then S (peaks x r) else peaks top r
  end.

(** size of the output of a call in bytes; size of the buffer that holds the
    seed and the 8 bytes of the index, which has at least the size of a digest *)
Definition out_bytes (bits : Z) : Z := (bits + 7) / 8.
Definition in_bytes (seed : Z) : Z := Z.max 20 (Z.of_nat (byte_count seed) + 8).

(** the seed and the width of a call; [auto] is the automatic seed *)
Definition call_seed (auto : Z) (c : call) : Z := match c with Seeded s _ _ => s | _ => auto end.
Definition call_bits (c : call) : Z := match c with Seeded _ _ b => b | Auto _ b => b | Next => 0 end.
Definition call_index (c : call) : Z := match c with Seeded _ i _ => i | Auto i _ => i | Next => 0 end.

(** memory requests of a history on a new generator *)
Definition requests (auto : Z) (l : list call) : nat :=
  (peaks 0 (map (fun c => out_bytes (call_bits c)) l) + peaks 0 (map (fun c => in_bytes (call_seed auto c)) l))%nat.
(** the values *)
Definition values (sha : list Z -> list Z) (auto : Z) (l : list call) : list Z :=
  map (fun c => prf_value sha (call_seed auto c) (call_index c) (call_bits c)) l.

(** a call with an explicit positive width that size_t can count in bytes *)
Definition wide (c : call) : Prop :=
  match c with Next => False | _ => 0 < call_bits c /\ call_bits c + 7 < 2 ^ 64 end.

(** all of the next [n] requests, from request [t] on, succeed *)
Definition granted (ok : nat -> bool) (t n : nat) : Prop := forall k, (t <= k < t + n)%nat -> ok k = true.
