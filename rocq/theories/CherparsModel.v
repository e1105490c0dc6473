(** Model of src/test/cherpars.cpp.  Doubles are real numbers (rounding is not
    modelled), except for the conversion of [pow(2., n)] to size_t. *)
From Coq Require Import Reals.
From Verif Require Import Base.

(** what getopt and atol/atof deliver (from argv: CmdModel) *)
Inductive copt := Cl (z : Z) | Cn (z : Z) | Cp (r : R) | Cq | Ch.
Record cargs := { ca_l : Z; ca_n : Z; ca_p : R; ca_quiet : bool }.
(** cherpars.cpp:27-34 and cherpars.h: DEFAULT_BUCKET_SIZE, DEFAULT_N,
    DEFAULT_TARGET_PROB_EXPONENT *)
Definition cdefault : cargs := {| ca_l := 100; ca_n := 1024; ca_p := (-40)%R; ca_quiet := false |}.
(** cherpars.cpp:31 *)
Definition epsilon : R := (/ 10000)%R.

(** cherpars.cpp:38-81; [return 1] of main is exit code 1 *)
Fixpoint cparse (os : list copt) (c : cargs) : res cargs :=
  match os with
  | [] => Ok c
  | Cl z :: t => if z <? 1 then Exit 1
                 else cparse t {| ca_l := z; ca_n := ca_n c; ca_p := ca_p c; ca_quiet := ca_quiet c |}
  | Cn z :: t => if z <=? 0 then Exit 1
                 else cparse t {| ca_l := ca_l c; ca_n := z; ca_p := ca_p c; ca_quiet := ca_quiet c |}
  | Cp r :: t => if Rge_dec r (- epsilon) then Exit 1
                 else cparse t {| ca_l := ca_l c; ca_n := ca_n c; ca_p := r; ca_quiet := ca_quiet c |}
  | Cq :: t => cparse t {| ca_l := ca_l c; ca_n := ca_n c; ca_p := ca_p c; ca_quiet := true |}
  | Ch :: _ => Exit 1
  end.

(** what is printed: (size_t) floor(h), mu, sigma, currentP *)
Record cout := { co_h : Z; co_mu : Z; co_sigma : R; co_prob : R }.

(** libm's ceil *)
Definition ceil (x : R) : Z := (- Int_part (- x))%Z.

(** cherpars.cpp:91-96: one round for a value of mu; [l], [n] as doubles *)
Definition c_sigma (l mu : R) : R := (l / mu - 1)%R.
Definition c_h (n mu : R) : R := IZR (ceil (n / mu)).
Definition c_prob (l n mu : R) : R :=
  let sigma := c_sigma l mu in
  let h := c_h n mu in
  let top := Rpower (exp 1) sigma in
  let down := Rpower (1 + sigma) (1 + sigma) in
  (h * Rpower (top / down) mu)%R.

(** cherpars.cpp:90-98: [do ... mu--; while (mu > 0 && currentP > targetP)];
    entered with mu >= 1. *)
Fixpoint csearch (l n target : R) (mu : nat) : cout :=
  match mu with
  | O => {| co_h := 0; co_mu := 0; co_sigma := 0; co_prob := 0 |}
  | S m =>
      let x := INR mu in
      let out := {| co_h := Int_part (c_h n x); co_mu := Z.of_nat m; co_sigma := c_sigma l x; co_prob := c_prob l n x |} in
      match m with
      | O => out
      | S _ => if Rgt_dec (c_prob l n x) target then csearch l n target m else out
      end
  end.

(** cherpars.cpp:87-88: [n = pow(2., n)] is undefined unless the value fits
    size_t *)
Definition to_size (n : Z) : res Z := if n <? 64 then Ok (2 ^ n) else UB BadConv.

(** cherpars.cpp:26-115 *)
Definition cherpars (os : list copt) : res cout :=
  do c <- cparse os cdefault;
  let target := Rpower 2 (ca_p c) in
  do n <- to_size (ca_n c);
  Ok (csearch (IZR (ca_l c)) (IZR n) target (Z.to_nat (ca_l c))).
