(** What the example program promises. *)
From Coq Require Import String.
From Verif Require Import Base NtlMiss PRFSpec FilesModel FilesSpec ExcSpec.
Open Scope list_scope.
Open Scope Z_scope.

(** an integer of any size as the user types it *)
Definition int_word (v : Z) (t : chars) : Prop :=
  exists w t', numeral w t' /\ ((t = t' \/ t = 43 :: t') /\ v = w \/ t = 45 :: t' /\ v = - w).

(** line number [i] (from 1) of the listing for the value [z] *)
Definition is_line (i z : Z) (t : chars) : Prop :=
  exists ti tz tb, ShaSpec.decimal i ti /\ ShaSpec.decimal z tz /\ ShaSpec.decimal (num_bits z) tb /\
    t = ti ++ text_of " - " ++ tz ++ text_of " " ++ [9] (* tab *) ++ text_of "(" ++ tb ++ text_of " bits)" ++ [10].

Definition prompt_text : chars := text_of "Insert number of bits: ".
Definition is_heading (b : Z) (t : chars) : Prop :=
  exists tb, ShaSpec.decimal b tb /\
    t = text_of "Generation of 10 random numbers with at most " ++ tb ++ text_of " bits: " ++ [10].
