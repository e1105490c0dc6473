(** Model of src/libeopsi/zzppoly.cpp and of the NTL polynomial operations it
    and the protocol classes call (NTL is not part of the repository: these
    follow the NTL manual and are part of the trusted base). *)
From Verif Require Import Base NtlMiss.

(** ZZ_pX: coefficients in [0,p), lowest degree first, no trailing zero. *)
Notation poly := (list Z).

Section P.
(** The global modulus of ZZ_p. *)
Variable p : Z.

(** ZZ_pX::normalize *)
Fixpoint norm (l : poly) : poly :=
  match l with
  | [] => []
  | c :: t => match norm t with [] => if c =? 0 then [] else [c] | t' => c :: t' end
  end.

(** NTL::deg (-1 for the zero polynomial), ConstTerm, LeadCoeff *)
Definition deg (f : poly) : Z := Z.of_nat (length f) - 1.
Definition const_term (f : poly) : Z := nth 0 f 0.
Definition lead_coeff (f : poly) : Z := last f 0.

(** NTL::eval(f, x), Horner's rule *)
Definition peval (f : poly) (x : Z) : Z := fold_right (fun c acc => (c + x * acc) mod p) 0 f.
(** NTL::eval(b, f, a): b gets the length of a *)
Definition peval_vec (f : poly) (xs : list Z) : list Z := map (peval f) xs.

(** NTL::SetCoeff(f, i, a) *)
Definition set_coeff (f : poly) (i : nat) (a : Z) : poly :=
  norm (upd (f ++ repeat 0 (S i - length f)) i a).

(** f + c*g, coefficientwise *)
Fixpoint add_scaled (c : Z) (f g : poly) : poly :=
  match f, g with
  | [], _ => map (fun b => (c * b) mod p) g
  | _, [] => f
  | a :: f1, b :: g1 => (a + c * b) mod p :: add_scaled c f1 g1
  end.
(** (X - r) * f *)
Definition mul_lin (f : poly) (r : Z) : poly := add_scaled (- r) (0 :: f) f.

(** NTL::BuildFromRoots: the monic polynomial with the given roots; 1 for none *)
Definition build_from_roots (rs : list Z) : poly := fold_left mul_lin rs [1].

(** Extended Euclid; the first component x satisfies x*a + y*b = gcd(a,b) *)
Fixpoint egcd (fuel : nat) (a b : Z) : Z * Z :=
  match fuel with
  | O => (1, 0)
  | S f => if b =? 0 then (1, 0)
           else let '(x, y) := egcd f b (a mod b) in (y, x - (a / b) * y)
  end.
(** NTL::inv(ZZ_p): an error when not invertible *)
Definition inv_mod (a : Z) : res Z :=
  if Z.gcd a p =? 1 then Ok (fst (egcd (S (Z.to_nat p)) a p) mod p) else Abort.

(** NTL::interpolate(f, a, b): Newton's incremental interpolation; state
    (res, prod), prod = product of (X - a_i) over the points done. *)
Definition interp_step (x y : Z) (st : poly * poly) : res (poly * poly) :=
  let '(r, prod) := st in
  do i <- inv_mod (peval prod x);
  let c := (i * (y - peval r x)) mod p in
  Ok (add_scaled c r prod, mul_lin prod x).
Fixpoint interp_loop (xs ys : list Z) (st : poly * poly) : res (poly * poly) :=
  match xs, ys with
  | x :: xs', y :: ys' => do st1 <- interp_step x y st; interp_loop xs' ys' st1
  | _, _ => Ok st
  end.
Definition interpolate (xs ys : list Z) : res poly :=
  if Nat.eqb (length xs) (length ys) then
    do st <- interp_loop xs ys ([], [1]); Ok (norm (fst st))
  else Abort.

(** NTL::MakeMonic *)
Definition make_monic (f : poly) : res poly :=
  match f with
  | [] => Ok []
  | _ => do i <- inv_mod (lead_coeff f); Ok (map (fun c => (i * c) mod p) f)
  end.

(** NTL::CanZass and NTL::berlekamp.  Both are randomised (NTL's generator):
    the [k]-th call of the program may list the factors of the same polynomial
    in another order than the others.  A non-monic argument is an error. *)
Notation factors := (list (poly * Z)).
Definition fact_call (fact : nat -> poly -> factors) (k : nat) (f : poly) : res factors :=
  if lead_coeff f =? 1 then Ok (fact k f) else Abort.

(** zzppoly.h:30-33 *)
Definition PFA_CANZASS : Z := 0.
Definition PFA_BERLEKAMP : Z := 1.
Variables canzass berlekamp : nat -> poly -> factors.
(** zzppoly.cpp:101-112 and 168-179 *)
Definition choose (pfa : Z) : nat -> poly -> factors :=
  if pfa =? PFA_BERLEKAMP then berlekamp else canzass.

(** zzppoly.h:38-45; [None] is a null pointer.  The benchmarks and nThreads
    have no influence on the results and are left out. *)
Record zzppoly := mkPolys {
  pl_n : nat;
  pl_padsize : Z;
  pl_polys : option (list poly);
  pl_factors : option (list factors);
  pl_roots : list Z
}.
(** zzppoly.cpp:14-20 *)
Definition new_polys (padsize : Z) : zzppoly := mkPolys 0 padsize None None [].

(** write through an array pointer *)
Definition pset {A} (a : option (list A)) (i : nat) (v : A) : res (list A) :=
  match a with None => UB NullDeref | Some l => aset l i v end.
Definition pget {A} (a : option (list A)) (i : nat) : res A :=
  match a with None => UB NullDeref | Some l => aget l i end.

(** zzppoly.cpp:57-62 *)
Definition makeMonic (o : zzppoly) : res zzppoly :=
  do ps <- for_up (pl_n o) 0 (fun j ps =>
      do f <- pget ps j; do f1 <- make_monic f; do l <- pset ps j f1; Ok (Some l)) (pl_polys o);
  Ok (mkPolys (pl_n o) (pl_padsize o) ps (pl_factors o) (pl_roots o)).

(** zzppoly.cpp:65-89; [ys] is the array y points to *)
Definition interpolate_all (o : zzppoly) (x : list Z) (ys : list (list Z)) (n : nat) (monicise : bool) : res zzppoly :=
  let ps0 := if Nat.eqb (pl_n o) n then pl_polys o else Some (repeat [] n) in
  do ps <- for_up n 0 (fun j ps =>
      do y <- aget ys j; do f <- interpolate x y; do l <- pset ps j f; Ok (Some l)) ps0;
  let o1 := mkPolys n (pl_padsize o) ps (pl_factors o) (pl_roots o) in
  if monicise then makeMonic o1 else Ok o1.

(** zzppoly.cpp:92-132; [k0] numbers the factoring calls *)
Definition factorise (k0 : nat) (o : zzppoly) (pfa : Z) : res zzppoly :=
  match pl_polys o with
  | None => Ok o
  | Some _ =>
      do fs <- for_up (pl_n o) 0 (fun j fs =>
          do f <- pget (pl_polys o) j;
          do d <- fact_call (choose pfa) (k0 + j) f; aset fs j d) (repeat [] (pl_n o));
      Ok (mkPolys (pl_n o) (pl_padsize o) (pl_polys o) (Some fs) (pl_roots o))
  end.

(** zzppoly.cpp:147-156 and 222-231.  The comparison is between size_t values;
    the shift count is converted to long. *)
Definition select_roots (padsize : Z) (fs : factors) (roots : list Z) : list Z :=
  fold_left (fun roots (gm : poly * Z) =>
    if deg (fst gm) =? 1 then
      let z := (- const_term (fst gm)) mod p in
      if padsize <=? countLeadingZeros z then roots ++ [ntl_shr z (s64 padsize)] else roots
    else roots) fs roots.

(** zzppoly.cpp:135-160; returns the object and the vector *)
Definition findIntersection0 (o : zzppoly) : res (zzppoly * list Z) :=
  match pl_factors o with
  | None => Ok (mkPolys (pl_n o) (pl_padsize o) (pl_polys o) None [], [])
  | Some fl =>
      do roots <- for_up (pl_n o) 0 (fun j roots =>
          do fs <- aget fl j; Ok (select_roots (pl_padsize o) fs roots)) [];
      Ok (mkPolys (pl_n o) (pl_padsize o) (pl_polys o) (Some fl) roots, roots)
  end.

(** zzppoly.cpp:181-232: the body of the loop over the polynomials; state
    (polys, factors, roots) *)
Definition find_step (k0 : nat) (padsize : Z) (x : list Z) (ys : list (list Z)) (pfa : Z) (j : nat)
    (st : option (list poly) * option (list factors) * list Z) : res (option (list poly) * option (list factors) * list Z) :=
  let '(ps, fs, roots) := st in
  do y <- aget ys j;
  do f <- interpolate x y;
  do ps1 <- pset ps j f;
  do f1 <- make_monic f;
  do ps2 <- pset (Some ps1) j f1;
  do _ <- pget fs j;
  do d <- fact_call (choose pfa) (k0 + j) f1;
  do fs1 <- pset fs j d;
  Ok (Some ps2, Some fs1, select_roots padsize d roots).
(** zzppoly.cpp:163-242 *)
Definition findIntersection (k0 : nat) (o : zzppoly) (x : list Z) (ys : list (list Z)) (n : nat) (pfa : Z) : res (zzppoly * list Z) :=
  let same := Nat.eqb (pl_n o) n in
  let ps0 := if same then pl_polys o else Some (repeat [] n) in
  let fs0 := if same then pl_factors o else Some (repeat [] n) in
  do (ps, fs, roots) <- for_up n 0 (find_step k0 (pl_padsize o) x ys pfa) (ps0, fs0, []);
  Ok (mkPolys n (pl_padsize o) ps fs roots, roots).
End P.
