(** What polyfact and bptest are supposed to do. *)
From Coq Require Import QArith.
From Verif Require Import Base Spec PRFSpec HashBucketsModel FilesModel FilesSpec ToolsModel.
Open Scope Z_scope.

(** the [index]-th value a generator over the integers modulo [p] delivers for a seed *)
Definition drawn (sha : list Z -> list Z) (p seed index : Z) : Z := prf_value sha seed (index mod 2 ^ 64) (num_bits p) mod p.
(** the product of (x - r) over the roots r *)
Definition product_of_differences (rs : list Z) (x : Z) : Z := fold_right (fun r acc => (x - r) * acc) 1 rs.

(** the figures of a list of measured times; [c]: the number the sum of the
    squared deviations is divided by *)
Definition average_of (xs : list Z) : Q := (inject_Z (sum_z xs) / inject_Z (Z.of_nat (length xs)))%Q.
Definition figures_right (xs : list Z) (c : Z) (f : figures) : Prop :=
  fg_total f = sum_z xs /\
  (fg_avg f == average_of xs)%Q /\
  In (fg_min f) xs /\ In (fg_max f) xs /\ (forall x, In x xs -> fg_min f <= x <= fg_max f) /\
  ((forall x, In x xs -> 0 <= x < 2 ^ 64) ->
   (fg_sd2 f == sum_q (map (fun x => (inject_Z x - average_of xs) * (inject_Z x - average_of xs)) xs) / inject_Z c)%Q).

(** options of polyfact *)
Definition opt_pbits (o : popt) : option Z := match o with Pb z => Some z | _ => None end.
Definition opt_pdegree (o : popt) : option Z := match o with Pd z => Some z | _ => None end.
Definition opt_pcount (o : popt) : option Z := match o with Pn z => Some z | _ => None end.
Definition quiet_asked (os : list popt) : bool := existsb (fun o => match o with Pq => true | _ => false end) os.
Definition pbad (o : popt) : Prop :=
  match o with Pb z | Pn z => z <= 0 | Pd z => z < 0 | Ph => True | Pq => False end.
Definition popt_long (o : popt) : Prop :=
  match o with Pb z | Pd z | Pn z => - 2 ^ 63 <= z < 2 ^ 63 | _ => True end.

(** options of bptest *)
Definition opt_bk (o : bopt) : option Z := match o with Bk z => Some z | _ => None end.
Definition opt_bl (o : bopt) : option Z := match o with Bl z => Some z | _ => None end.
Definition opt_bbits (o : bopt) : option Z := match o with Bp z => Some z | _ => None end.
Definition opt_bin (o : bopt) : option chars := match o with Bi f => Some f | _ => None end.
Definition opt_balgo (mh3 sha1 sha256 : halgo Z) (o : bopt) : option (halgo Z) :=
  match o with
  | Ba n => if list_eq_dec Z.eq_dec n [77; 72; 51] then Some mh3
            else if list_eq_dec Z.eq_dec n [83; 72; 65; 49] then Some sha1
            else if list_eq_dec Z.eq_dec n [83; 72; 65; 50; 53; 54] then Some sha256
            else None
  | _ => None
  end.
(** options that end it, and the exit code *)
Definition bbad (o : bopt) (code : Z) : Prop :=
  match o with
  | Ba n => n = [83; 72; 65; 53; 49; 50] /\ code = 2
  | Bj z => z < 0 /\ code = 1
  | Bk z | Bl z | Bp z => z <= 0 /\ code = 1
  | Bi _ => False
  | Bh => code = 1
  end.
Definition bopt_long (o : bopt) : Prop :=
  match o with Bj z | Bk z | Bl z | Bp z => - 2 ^ 63 <= z < 2 ^ 63 | _ => True end.
