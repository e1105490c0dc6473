(** Model of res/examples/randomzzgen.cpp, the example program shipped with
    the library, and of the stream operator with which it reads its input. *)
From Verif Require Import Base NtlMiss PRFModel MurmurModel FilesModel.

(** [in >> x] for an int (C++11 num_get), on the streams of FilesModel:
    [None]: x is not assigned (the stream had failed before, or only blanks
    are left); no digits: 0 and the stream fails; a value outside int: the
    nearest int and the stream fails. *)
Definition get_int (s : istream) : istream * option Z :=
  if negb (in_good s) then (s, None)
  else match skip_space (in_rest s) with
       | [] => ({| in_rest := []; in_good := false |}, None)
       | c :: t =>
           let '(minus, body) := if c =? 45 then (true, t) else if c =? 43 then (false, t) else (false, c :: t) in
           let '(n, w, rest) := span_digits body 0 0 in
           let v := if minus : bool then - w else w in
           if Nat.eqb n 0 then ({| in_rest := rest; in_good := false |}, Some 0)
           else if v <? - 2 ^ 31 then ({| in_rest := rest; in_good := false |}, Some (- 2 ^ 31))
           else if 2 ^ 31 <=? v then ({| in_rest := rest; in_good := false |}, Some (2 ^ 31 - 1))
           else ({| in_rest := rest; in_good := true |}, Some v)
       end.

(** randomzzgen.cpp:6,8-11: [bits] is not initialised ([None]); [fuel] bounds
    the rounds of the loop.  Also counts the prompts. *)
Fixpoint ask (fuel : nat) (s : istream) (bits : option Z) : res (nat * Z) :=
  match fuel with
  | O => NoFuel
  | S f =>
      let '(s1, v) := get_int s in
      let bits := match v with Some z => Some z | None => bits end in
      match bits with
      | None => UB Uninit
      | Some b => if b <? 1 then do (k, b') <- ask f s1 (Some b); Ok (S k, b') else Ok (1%nat, b)
      end
  end.

(** the literals of randomzzgen.cpp:9, 13-14, 19-20 *)
Definition t_prompt : chars :=
  [73;110;115;101;114;116;32;110;117;109;98;101;114;32;111;102;32;98;105;116;115;58;32].
Definition t_head1 : chars :=
  [71;101;110;101;114;97;116;105;111;110;32;111;102;32;49;48;32;114;97;110;100;111;109;32;110;117;109;98;101;114;115;
   32;119;105;116;104;32;97;116;32;109;111;115;116;32].
Definition t_head2 : chars := [32;98;105;116;115;58;32].
Definition t_dash : chars := [32;45;32].
Definition t_open : chars := [32;9;40].
Definition t_close : chars := [32;98;105;116;115;41].

Section Program.
Variable sha : list Z -> list Z.
Variable rand : nat -> Z.

(** randomzzgen.cpp:17-21; [bits] is an int, the parameter is a size_t *)
Definition line (bits seed : Z) (i : nat) (s : prf * chars) : res (prf * chars) :=
  let '(st, text) := s in
  do (st1, z) <- generate sha rand 0 st seed (Z.of_nat i) (w64 bits);
  Ok (st1, text ++ dec_text (Z.of_nat i + 1) ++ t_dash ++ dec_text z ++ t_open ++ dec_text (num_bits z) ++ t_close ++ [10]).

(** randomzzgen.cpp:3-24: what the program prints (it returns 0).  [pos]: the
    number of rand() values drawn before. *)
Definition randomzzgen (fuel : nat) (input : chars) (pos : nat) : res chars :=
  let st := new_prf pos in
  do (k, bits) <- ask fuel {| in_rest := input; in_good := true |} None;
  let text := concat (repeat t_prompt k) ++ t_head1 ++ dec_text bits ++ t_head2 ++ [10] in
  let '(st, seed) := randomSeed rand st in
  do (_, text) <- for_up 10 0 (line bits seed) (st, text);
  Ok text.
End Program.
