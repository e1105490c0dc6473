(** What a chronometer is: a three-state machine with a log of time stamps. *)
From Verif Require Import Base Spec BenchModel.

Inductive status := Running | Paused | Stopped.
(** [ran]: the chronometer was running during the interval that ends here
    (meaningless for the first stamp). *)
Record stamp := { at_ : Z; label : str; ran : bool }.

Definition chrono := (status * list stamp)%type.
Definition fresh : chrono := (Stopped, []).

Definition c_step (c : chrono) (t : Z) (name : str) : chrono :=
  match c with
  | (_, []) => (Running, [{| at_ := t; label := []; ran := false |}])
  | (Stopped, log) => (Stopped, log)
  | (Running, log) => (Running, log ++ [{| at_ := t; label := name; ran := true |}])
  | (Paused, log) => (Running, log ++ [{| at_ := t; label := name; ran := false |}])
  end.
Definition c_exec (c : chrono) (o : op) : chrono :=
  match o with
  | Start t => (Running, [{| at_ := t; label := []; ran := false |}])
  | Reset => (Running, [])
  | Step t name => c_step c t name
  | Cont t => c_step c t []
  | Pause t name =>
      match c with
      | (Running, (_ :: _) as log) => (Paused, log ++ [{| at_ := t; label := name; ran := true |}])
      | _ => c
      end
  | Stop t name =>
      match c with
      | (Running, log) => (Stopped, log ++ [{| at_ := t; label := name; ran := true |}])
      | (_, log) => (Stopped, log)
      end
  end.
Definition c_run (l : list op) : chrono := fold_left c_exec l fresh.

(** the intervals between consecutive stamps: (running?, microseconds) *)
Fixpoint intervals (log : list stamp) : list (bool * Z) :=
  match log with
  | a :: ((b :: _) as rest) => (ran b, Z.quot (at_ b - at_ a) 1000) :: intervals rest
  | _ => []
  end.
Definition running_times (log : list stamp) : list Z := map snd (filter fst (intervals log)).

(** position of the last stamp carrying a (non-empty) name *)
Definition last_labelled (log : list stamp) (name : str) (i : nat) : Prop :=
  (exists s, nth_error log i = Some s /\ label s = name) /\
  forall j s, nth_error log j = Some s -> label s = name -> (j <= i)%nat.
