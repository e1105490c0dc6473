(** What is left of a call of setRawData that ran out of memory. *)
From Verif Require Import Base Spec HashBucketsModel HashBucketsSpec PRFModel PRFSpec EopsiModel EopsiSpec AllocModel AllocSpec BlindAllocModel.

(** the field elements the first [n] numbers of [raw], of [b] bits each,
    become *)
Definition loaded (p b : Z) (raw : list Z) (n : nat) : list Z :=
  map (fun v => padded (pad_width p b) v mod p) (firstn n raw).

(** some bucket of the table would get more elements than it may hold *)
Definition overflows (al : halgo Z) (t : hb Z) (zs : list Z) : Prop :=
  exists j R, contents t j R /\ (hb_maxload t < length R + length (belonging al (hb_k t) j zs))%nat.

(** the first [n] of the elements were added; the buckets are neither filled
    up nor marked *)
Definition stopped_adding (al : halgo Z) (t t1 : hb Z) (zs : list Z) (n : nat) : Prop :=
  forall j R, contents t j R -> contents t1 j (R ++ belonging al (hb_k t) j (firstn n zs)).
(** all the elements were added and the buckets before bucket [P] are filled
    up with random elements; [P] is filled up in part, later ones not at all *)
Definition stopped_filling (p : Z) (al : halgo Z) (t t1 : hb Z) (zs : list Z) (P : nat) : Prop :=
  forall j R, contents t j R -> exists f, let R1 := R ++ belonging al (hb_k t) j zs ++ f in
    contents t1 j R1 /\ Forall (fun v => 0 <= v < p) f /\
    ((j < P)%nat -> length R1 = hb_maxload t) /\ (j = P -> (length R1 < hb_maxload t)%nat) /\ ((P < j)%nat -> f = []).

(** the matrix blind() starts from: one zero for every point *)
Definition zeros (L D : nat) : list (list Z) := repeat (repeat 0 D) L.

(** clients made with an empty table, that then called setRawData any number
    of times, catching what was thrown *)
Definition client_reachable sha rand fuel p ok pol (al : halgo Z) (L h D : nat) (m : mem) (k : aclient) : Prop :=
  exists m0 m1 t secret pos pos' calls log,
    a_new ok pol m0 L h (Some al) = Done m1 t /\
    (forall raw n b, In (Some raw, n, b) calls -> (n <= length raw)%nat) /\
    a_calls sha rand fuel p ok pol m1 (mkAclient (new_core p L h D pos) secret None t (new_zpprf p pos') None) calls = (inl (m, k), log).
