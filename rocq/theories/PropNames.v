(** The parties of the simulator, part of C71. *)
From Coq Require Import String Ascii.
From Verif Require Import Base Spec WorldModel WorldSpec SimulModel.
From Coq Require Import Lia.

(** the characters of a C string *)
Definition text (t : string) : list Z := map (fun a => Z.of_nat (nat_of_ascii a)) (list_ascii_of_string t).

(** They are the ones called Alice, Bob and Cloud: three different names
    without NUL, as the protocol needs them; the secrets have three bytes, the
    last of which is not 0, so that what the protocol transmits is the secret
    (C52). *)
Theorem C71_names : id_alice = text "Alice" /\ id_bob = text "Bob" /\ id_cloud = text "Cloud" /\
  NoDup [id_alice; id_bob; id_cloud] /\ Forall nul_free [id_alice; id_bob; id_cloud] /\
  secret_alice = 2 ^ 17 /\ secret_bob = 2 ^ 16.
Proof.
  split; [reflexivity|]. split; [reflexivity|]. split; [reflexivity|]. split; [repeat constructor; cbn; intuition discriminate|].
  split; [repeat constructor; cbn; lia|]. split; reflexivity.
Qed.
Print Assumptions C71_names.
