(** What the printed times are supposed to be. *)
From Coq Require Import QArith.
From Verif Require Import Base Spec FilesSpec ToolsSpec TimingModel.
Open Scope Z_scope.

(** whole microseconds between two readings (in nanoseconds) of the clock *)
Definition span (clock : nat -> Z) (i j : nat) : Z := Z.quot (clock j - clock i) 1000.
Definition steady (clock : nat -> Z) : Prop := forall i, clock i <= clock (S i).

(** the figures of a list of measured times; [c]: the number the sum of the
    squared deviations is divided by *)
Definition shown_right (xs : list Z) (c : Z) (s : shown) : Prop :=
  sh_total s = sum_z xs /\ (sh_avg s == average_of xs)%Q /\
  ((forall x, In x xs -> 0 <= x < 2 ^ 64) ->
   (sh_sd2 s == sum_q (map (fun x => (inject_Z x - average_of xs) * (inject_Z x - average_of xs)) xs) / inject_Z c)%Q).
