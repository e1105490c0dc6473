(** What one intersection gives when every request for memory is granted. *)
From Verif Require Import Base HashBucketsModel PRFModel PolyModel EopsiModel AllocModel AllocSpec AskAllocModel.

Section S.
Variable sha : list Z -> list Z.
Variable rand : nat -> Z.
Variable fuel : nat.
Variable p : Z.
Variables canzass berlekamp : nat -> list Z -> list (list Z * Z).

(** the cloud, the helper and the requester compute; the cloud, the helper
    with its generator and the requester with what it found *)
Definition answer (cS : core) (r : request) : res (core * core * zpprf * option (core * list Z)) :=
  do (cS1, t) <- computeTOrQ sha rand fuel p cS (rq_key r) (entry (rq_dataA r)) (entry (rq_dataB r));
  do (cA1, zA1, q) <- delegationOutput sha rand fuel p (rq_helper r) (rq_zp r) (rq_secretA r) (rq_secretB r) (rq_key r);
  do y <- intersect sha rand fuel p canzass berlekamp (rq_requester r) (Some (rq_bits r)) (Some (entry t)) (Some (entry q)) (rq_facts r);
  Ok (cS1, cA1, zA1, y).

Fixpoint answers (cS : core) (l : list request) : res (core * list (option (list Z))) :=
  match l with
  | [] => Ok (cS, [])
  | r :: l1 =>
      do (cS1, _, _, y) <- answer cS r;
      do (cS2, ys) <- answers cS1 l1;
      Ok (cS2, option_map snd y :: ys)
  end.
End S.

(** arrays requested for one intersection *)
Definition arrays (r : request) : nat := if Nat.eqb (co_length (rq_requester r)) 0 then 7 else 9.
Definition arrays_all (l : list request) : nat := list_sum (map arrays l).

(** [r] does not return, and ends as [e] does *)
Definition ends {A} (r : res A) (e : res unit) : Prop :=
  match r, e with
  | Exit c, Exit d => c = d
  | UB v, UB w => v = w
  | Abort, Abort => True
  | NoFuel, NoFuel => True
  | _, _ => False
  end.
