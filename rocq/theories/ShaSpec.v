(** Independent vocabulary for the hash objects. *)
From Verif Require Import Base ShaModel.

(** the two Crypto++ digests have the sizes their documentation states *)
Definition digest_sizes (dig : kind -> list Z -> list Z) : Prop :=
  forall m, length (dig KSha1 m) = 20%nat /\ length (dig KSha256 m) = 32%nat.

(** which digest a flavour stands for: SHA-256 for 256, SHA-1 for all others *)
Definition digest_of (dig : kind -> list Z -> list Z) (flavour : Z) (m : list Z) : list Z :=
  if flavour =? 256 then dig KSha256 m else dig KSha1 m.
Definition digest_len (flavour : Z) : Z := if flavour =? 256 then 32 else 20.

(** "the first [len] characters; everything if len is 0 or too large" *)
Definition cut (len : nat) (s : list Z) : list Z :=
  match len with O => s | _ => firstn len s end.

(** [t] is the decimal notation of [n]: digits only, no leading zero *)
Definition dec_value (t : list Z) : Z := fold_left (fun a c => 10 * a + (c - 48)) t 0.
Definition decimal (n : Z) (t : list Z) : Prop :=
  t <> [] /\ Forall (fun c => 48 <= c <= 57) t /\ dec_value t = n /\
  (hd 0 t = 48 -> t = [48]).

(** calls of hash() on the two classes that take values *)
Inductive call := CStr (s : list Z) (len : nat) | CZZp (n : Z) (len : nat).
Definition exec_call (dig : kind -> list Z -> list Z) (h : heap) (o : sha_obj) (c : call) : res (heap * ptr) :=
  match c with CStr s len => hash_string dig h o s len | CZZp n len => hash_zzp dig h o n len end.
Fixpoint exec_calls dig h o (cs : list call) : res (heap * list ptr) :=
  match cs with
  | [] => Ok (h, [])
  | c :: t => do (h1, p) <- exec_call dig h o c;
              do (h2, ps) <- exec_calls dig h1 o t; Ok (h2, p :: ps)
  end.
(** [m] is the text a call is about *)
Definition call_text (c : call) (m : list Z) : Prop :=
  match c with
  | CStr s len => m = cut len s
  | CZZp n len => exists t, decimal n t /\ m = cut len t
  end.
Definition call_ok (c : call) : Prop := match c with CStr _ _ => True | CZZp n _ => 0 <= n end.

(** storage: [h2] is [h1] with some further blocks, all of them deleted *)
Definition all_returned (h1 h2 : heap) : Prop := exists k, h2 = h1 ++ repeat Gone k.
(** histories of uses of one generator: requested bytes, hash input *)
Fixpoint gen_uses dig (h : heap) (g : gen_obj) (us : list (Z * list Z)) : res (heap * gen_obj) :=
  match us with
  | [] => Ok (h, g)
  | (n, i) :: t => do (h1, g1) <- gen_use dig h g n i; gen_uses dig h1 g1 t
  end.
(** a use the library makes: at least one byte, at least the 8 bytes of the index *)
Definition use_ok (u : Z * list Z) : Prop := 0 < fst u /\ (8 <= length (snd u))%nat.

(** histories of uses of a ZZPRF and of a ZZpPRF built from it *)
Inductive pair_op := UseA (n : Z) (i : list Z) | UseZ (n : Z) (i : list Z).
Fixpoint pair_ops dig (h : heap) (a : gen_obj) (z : zgen_obj) (ops : list pair_op)
    : res (heap * gen_obj * zgen_obj) :=
  match ops with
  | [] => Ok (h, a, z)
  | UseA n i :: t => do (h1, a1) <- gen_use dig h a n i; pair_ops dig h1 a1 z t
  | UseZ n i :: t => do (h1, g1) <- gen_use dig h (zg_prf z) n i;
                     pair_ops dig h1 a {| zg_base := zg_base z; zg_prf := g1 |} t
  end.

(** the life of one hash object: calls of hash(), each result copied out at
    once, and changes of the flavour *)
Inductive life_op := Call (c : call) | Flavour (fl : Z).
Fixpoint life dig (h : heap) (o : sha_obj) (ops : list life_op) : res (heap * sha_obj * list (list Z)) :=
  match ops with
  | [] => Ok (h, o, [])
  | Call c :: t => do (h1, p) <- exec_call dig h o c;
                   do d <- read_bytes h1 p (Z.to_nat (hashSize o));
                   do (h2, o2, ds) <- life dig h1 o t;
                   Ok (h2, o2, d :: ds)
  | Flavour fl :: t => do (h1, o1) <- setFlavour h o fl; life dig h1 o1 t
  end.
Fixpoint last_flavour (fl : Z) (ops : list life_op) : Z :=
  match ops with [] => fl | Call _ :: t => last_flavour fl t | Flavour f :: t => last_flavour f t end.
(** each digest is that of the flavour chosen last before the call *)
Fixpoint life_digests dig (fl : Z) (ops : list life_op) (ds : list (list Z)) : Prop :=
  match ops with
  | [] => ds = []
  | Call c :: t => exists m ds', call_text c m /\ ds = digest_of dig fl m :: ds' /\ life_digests dig fl t ds'
  | Flavour f :: t => life_digests dig f t ds
  end.

(** the value of a hexadecimal digit 0-9, A-F *)
Definition hex_value (c : Z) : Z := if c <=? 57 then c - 48 else c - 55.
