(** What the number file, its writer and its reader are supposed to be. *)
From Coq Require Import QArith Qround Qabs.
From Verif Require Import Base Spec HashBucketsModel HashBucketsSpec FilesModel.
From Verif Require ShaSpec.
Open Scope Z_scope.

(** command lines: the last occurrence of an option counts *)
Definition last_of {A B} (f : A -> option B) (d : B) (l : list A) : B :=
  fold_left (fun acc a => match f a with Some b => b | None => acc end) l d.

(** the default file name, if none (or the empty one) was given *)
Definition file_or_default (f : chars) : chars := match f with [] => [122; 122; 46; 100; 97; 116] | _ => f end.

(** a number file: one decimal number per line: the width, how many numbers,
    the numbers; then an empty line *)
Definition is_number_file (b : Z) (vs : list Z) (text : chars) : Prop :=
  exists lines, Forall2 ShaSpec.decimal (b :: Z.of_nat (length vs) :: vs) lines /\
    text = concat (map (fun t => t ++ [10]) lines) ++ [10].

(** the same with any layout.  A word: the digits of a number; with a minus
    sign it is the negative, for an unsigned 64-bit variable modulo 2^64 *)
Definition numeral (v : Z) (t : chars) : Prop :=
  t <> [] /\ Forall (fun c => 48 <= c <= 57) t /\ ShaSpec.dec_value t = v.
Definition signed_word (v : Z) (t : chars) : Prop :=
  numeral v t \/ exists t', t = 45 :: t' /\ numeral (- v) t'.
Definition unsigned_word (v : Z) (t : chars) : Prop :=
  exists w t', numeral w t' /\ w < 2 ^ 64 /\
    ((t = t' \/ t = 43 :: t') /\ v = w \/ t = 45 :: t' /\ v = (- w) mod 2 ^ 64).
(** blank, tab, newline, vertical tab, form feed, carriage return *)
Definition blank (c : Z) : Prop := In c [32; 9; 10; 11; 12; 13].
Definition no_digit_first (s : chars) : Prop := match s with c :: _ => c < 48 \/ 57 < c | [] => True end.
(** words with blanks before them, then anything; no word goes on after its end *)
Inductive layout : list chars -> chars -> Prop :=
| Lay_end : forall tail, layout [] tail
| Lay_word : forall sp t ts rest, Forall blank sp -> layout ts rest -> no_digit_first rest ->
    layout (t :: ts) (sp ++ t ++ rest).
Definition is_number_text (b : Z) (vs : list Z) (text : chars) : Prop :=
  exists tb tn ts, layout (tb :: tn :: ts) text /\ unsigned_word b tb /\
    unsigned_word (Z.of_nat (length vs)) tn /\ Forall2 signed_word vs ts.

(** bptest reads the width as an integer of any size and sign, without a plus, and ignores it *)
Definition is_integer_text (b : Z) (vs : list Z) (text : chars) : Prop :=
  exists tb tn ts, layout (tb :: tn :: ts) text /\ signed_word b tb /\
    unsigned_word (Z.of_nat (length vs)) tn /\ Forall2 signed_word vs ts.
(** words with blanks before them, then [tail], with which no word goes on *)
Inductive words_then : list chars -> chars -> chars -> Prop :=
| Words_end : forall tail, words_then [] tail tail
| Words_word : forall sp t ts rest tail, Forall blank sp -> words_then ts tail rest -> no_digit_first rest ->
    words_then (t :: ts) tail (sp ++ t ++ rest).
(** text at which no integer can be read: only blanks, or blanks and then
    neither a digit nor a minus that a digit follows *)
Definition no_integer (tail : chars) : Prop :=
  exists sp s, tail = sp ++ s /\ Forall blank sp /\
    match s with c :: rest => (c < 48 \/ 57 < c) /\ (c = 45 -> no_digit_first rest) /\ ~ blank c | [] => True end.

(** text at which no number starts: neither a digit nor a blank, or a sign
    that no digit follows *)
Definition no_number (s : chars) : Prop :=
  match s with
  | c :: rest => ~ blank c /\ (c < 48 \/ 57 < c) /\ (c = 45 \/ c = 43 -> no_digit_first rest)
  | [] => False
  end.
(** a width that is no usable one: 0, or 2^63 and more *)
Definition bad_width (t : chars) : Prop :=
  (exists b, unsigned_word b t /\ (b = 0 \/ 2 ^ 63 <= b)) \/
  (exists w t', numeral w t' /\ 2 ^ 64 <= w /\ (t = t' \/ t = 43 :: t' \/ t = 45 :: t')).

(** mean and variance *)
Fixpoint sum_q (l : list Q) : Q := match l with [] => 0%Q | x :: t => (x + sum_q t)%Q end.
Definition mean (l : list Z) : Q := (inject_Z (sum_z l) / inject_Z (Z.of_nat (length l)))%Q.
Definition mean_of_squares (ds : list Q) : Q := (sum_q (map (fun d => d * d) ds) / inject_Z (Z.of_nat (length ds)))%Q.
Definition deviations (l : list Z) : list Q := map (fun x => Qabs (inject_Z x - mean l)) l.
Definition population_variance (l : list Z) : Q := mean_of_squares (deviations l).
(** the same with every deviation rounded down to an integer *)
Definition rounded_variance (l : list Z) : Q := mean_of_squares (map (fun d => inject_Z (Qfloor d)) (deviations l)).
Definition sizes {T} (h : hb T) : list Z := map (fun b => Z.of_nat (length (mv_items b))) (hb_buckets h).

(** options of zzrndgen *)
Definition opt_bits (o : zopt) : option Z := match o with Zb z => Some z | _ => None end.
Definition opt_count (o : zopt) : option Z := match o with Zn z => Some z | _ => None end.
Definition opt_out (o : zopt) : option chars := match o with Zo f => Some f | _ => None end.
(** options that end it *)
Definition zbad (o : zopt) : Prop := match o with Zb z => z <= 0 | Zh => True | _ => False end.
(** atol delivers a long *)
Definition zopt_long (o : zopt) : Prop :=
  match o with Zb z | Zn z => - 2 ^ 63 <= z < 2 ^ 63 | _ => True end.

(** options of hbtest *)
Definition opt_k (o : hopt) : option Z := match o with Hk z => Some z | _ => None end.
Definition opt_l (o : hopt) : option Z := match o with Hl z => Some z | _ => None end.
Definition opt_in (o : hopt) : option chars := match o with Hi f => Some f | _ => None end.
Definition opt_algo (mh3 sha1 sha256 : halgo Z) (o : hopt) : option (halgo Z) :=
  match o with
  | Ha n => if list_eq_dec Z.eq_dec n [77; 72; 51] then Some mh3
            else if list_eq_dec Z.eq_dec n [83; 72; 65; 49] then Some sha1
            else if list_eq_dec Z.eq_dec n [83; 72; 65; 50; 53; 54] then Some sha256
            else None
  | _ => None
  end.
(** options that end it, and the exit code *)
Definition hbad (o : hopt) (code : Z) : Prop :=
  (o = Hh /\ code = 1) \/ (o = Ha [83; 72; 65; 53; 49; 50] /\ code = 2).
