(** The words of the lines that carry something else than times (for C129),
    character by character. *)
From Verif Require Import Base ShaSpec ConsoleModel.
From Coq Require Import String Ascii.
#[local] Open Scope string_scope.
#[local] Open Scope list_scope.
#[local] Open Scope Z_scope.

(** the characters of a literal *)
Definition chars (s : string) : list Z := map (fun c => Z.of_nat (nat_of_ascii c)) (list_ascii_of_string s).
Definition quote : list Z := [34].
Definition newline : list Z := [10].
(** [t] is what is written for [l]; the lines with times in them are left out *)
Definition written (l : line) (t : list Z) : Prop :=
  match l with
  | LSecret id secret from => exists n, decimal secret n /\
      t = id ++ chars ". Received " ++ quote ++ n ++ quote ++ chars " from " ++ from ++ chars "." ++ newline
  | LSending id key cloud => exists n, decimal key n /\
      t = id ++ chars ". Sending cloud computation request with key " ++ quote ++ n ++ quote ++ chars " to " ++ cloud ++ chars "." ++ newline
  | LGot id v from => exists n, decimal v n /\
      t = chars "I, " ++ id ++ chars ", received " ++ quote ++ n ++ chars ", ..." ++ quote ++ chars " from " ++ from ++ chars "." ++ newline
  | LKey id key from => exists n, decimal key n /\
      t = chars "I, " ++ id ++ chars ", received key " ++ quote ++ n ++ quote ++ chars " from " ++ from ++ newline
  | LStored id from size => exists n, decimal size n /\
      t = id ++ chars ". Data from " ++ from ++ chars " stored (size " ++ n ++ chars ")." ++ newline
  | LHelperTime | LStats _ _ | LFound | LPart _ | LServerTime | LStoredTime => False
  end.
