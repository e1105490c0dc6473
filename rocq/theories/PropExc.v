(** C120: the exception classes. *)
From Coq Require Import Lia.
From Verif Require Import Base Lib ExcModel ExcSpec ExcProofs.
From Verif Require HashBucketsModel.

(** A constructor called with fatal = true writes the message and ends the
    process with the code inside the constructor; every other call leaves an
    object whose class, message, flag and code are the ones asked for (with the
    documented defaults; an OutOfBoundException without a message gets the
    standard one and always has code 1), and writes nothing. *)
Theorem C120_construction : forall x,
  (asked_fatal x = true -> make x = (Exit (asked_code x), fatal_text ++ asked_message x ++ [10])) /\
  (asked_fatal x = false -> exists e, make x = (Ok e, []) /\
     ex_class e = asked_class x /\ getMessage e = asked_message x /\ isFatal e = false /\ getExitCode e = asked_code x).
Proof.
  intros x. rewrite make_ok. split; intros ->; [reflexivity|].
  eexists; repeat split; reflexivity.
Qed.
Print Assumptions C120_construction.

(** For every history of constructions, setter calls, copies and assignments
    on existing objects in which no construction asks for fatality: nothing is
    written, the process goes on, and each getter returns what the last
    relevant call gave that object -- in particular setFatal(true) ends
    nothing, now or later; what() is the message up to its first NUL. *)
Theorem C120_history : forall l, named 0 l -> (forall o, In o l -> asks_fatal o = false) ->
  exists s, exec_ops [] l = (Ok s, []) /\ length s = count_objs l /\
    forall i e, nth_error s i = Some e ->
      message_after l i = Some (getMessage e) /\ fatal_after l i = Some (isFatal e) /\
      code_after l i = Some (getExitCode e) /\
      (exists rest, getMessage e = what e ++ rest /\ ~ In 0 (what e) /\ (rest = [] \/ exists r, rest = 0 :: r)).
Proof.
  intros l HN HF. destruct (exec_ok l []) as (s & E & HL).
  - exact HN.
  - apply forallb_forall. intros o Ho. now rewrite (HF o Ho).
  - exists s. split; [exact E|]. split; [exact HL|]. intros i e He.
    split; [eapply history_message; eauto|]. split; [eapply history_fatal; eauto|]. split; [eapply history_code; eauto|].
    unfold what, getMessage. induction (ex_message e) as [|c t (rest & H1 & H2 & H3)].
    + exists []. cbn. repeat split; auto.
    + cbn [c_str]. destruct (Z.eqb_spec c 0) as [->|Hc].
      * exists (0 :: t). cbn. repeat split; eauto.
      * exists rest. cbn [app]. rewrite <- H1. repeat split; auto. intros [H|H]; [now apply Hc | now apply H2].
Qed.
Print Assumptions C120_history.

(** The first construction of a history that asks for fatality ends the
    process there, with its own code and message, whatever follows. *)
Theorem C120_first_fatal : forall l x rest, named 0 l -> (forall o, In o l -> asks_fatal o = false) ->
  asked_fatal x = true ->
  exec_ops [] (l ++ ONew x :: rest) = (Exit (asked_code x), fatal_text ++ asked_message x ++ [10]).
Proof.
  intros l x rest HN HF Hx. destruct (exec_ok l []) as (s & E & HL).
  - exact HN.
  - apply forallb_forall. intros o Ho. now rewrite (HF o Ho).
  - rewrite exec_ops_app, E. cbn [exec_ops exec_op]. rewrite make_ok, Hx. reflexivity.
Qed.
Print Assumptions C120_first_fatal.

(** A fatal exception cannot be caught: thrown anywhere inside any nest of try
    blocks, with any handlers, it ends the process with its code. *)
Theorem C120_fatal_not_caught : forall fs x, asked_fatal x = true ->
  (forall b r h cur, In (FAfter b r) fs -> exists h', exec h cur b = (h', Done)) ->
  run (inside fs (SThrow x)) = Exited (asked_code x).
Proof.
  intros fs x Hx HB. unfold run. destruct (fatal_inside fs x Hx HB [] None) as [h ->]. reflexivity.
Qed.
Print Assumptions C120_fatal_not_caught.

(** The only way a program leaves with an exit code is a throw expression that
    asks for fatality: handlers that call setFatal(true) or setExitCode and
    rethrow do not. *)
Theorem C120_exit_only_from_fatal : forall s c, run s = Exited c ->
  exists x, In x (throws s) /\ asked_fatal x = true /\ asked_code x = c.
Proof.
  intros s c. unfold run. destruct (exec [] None s) as [h [|i|c1|]] eqn:E; try discriminate.
  intros H. injection H as ->. eapply exit_from; exact E.
Qed.
Print Assumptions C120_exit_only_from_fatal.

(** A non-fatal exception goes to the innermost handler that takes its class
    ([catch (Exception&)], [catch (std::exception&)] and [catch (...)] take all
    of them, the others only their own class); if there is none the program
    terminates. *)
Theorem C120_nearest_handler : forall x, asked_fatal x = false ->
  (forall outer p hd inner h h2 cur, takes p (asked_class x) ->
     Forall (fun ph => ~ takes (fst ph) (asked_class x)) inner ->
     (forall e, ex_class e = asked_class x -> getMessage e = asked_message x -> isFatal e = false ->
        getExitCode e = asked_code x -> exec (h ++ [e]) (Some (length h)) hd = (h2, Done)) ->
     exec h cur (inside (tries (outer ++ (p, hd) :: inner)) (SThrow x)) = (h2, Done)) /\
  (forall l, Forall (fun ph => ~ takes (fst ph) (asked_class x)) l ->
     run (inside (tries l) (SThrow x)) = Terminated).
Proof.
  intros x Hx. split.
  - intros outer p hd inner h h2 cur Hp Hi HH. eapply nearest_handles; [exact Hx| |].
    + apply nearest_some; assumption.
    + apply HH; reflexivity.
  - intros l Hl. unfold run. rewrite nearest_raises; [reflexivity|exact Hx|now apply nearest_none].
Qed.
Print Assumptions C120_nearest_handler.

(** the constructor used by the model of the hash table is this one *)
Lemma hash_table_exception : forall m f,
  fst (new_outofbound m f) =
    match HashBucketsModel.outofbound_ctor f with
    | Some c => Exit c
    | None => Ok (mkExc KOutOfBound (match m with [] => oob_default | _ => m end) false 1)
    end.
Proof. intros [|c t] [|]; reflexivity. Qed.

Example C120_nonvacuous :
  let oob := MkOutOfBound None None in
  let l := [ONew oob; ONew (MkProtocol (Some [72; 0; 73]) None (Some 7)); OSetFatal 0 true; OCopy 0;
            OSetExitCode 2 5; OAssign 1 2; OSetMessage 0 [65]] in
  named 0 l /\ (forall o, In o l -> asks_fatal o = false) /\
  message_after l 0 = Some [65] /\ message_after l 1 = Some standard_text /\ code_after l 1 = Some 5 /\
  fatal_after l 2 = Some true /\ code_after l 0 = Some 1 /\
  (* hashtable.hpp:79 inside eopsiparty.cpp:178-191: the handler is not reached *)
  run (inside [FTry (PClass KProtocol) SSkip; FAfter SSkip SSkip; FTry PAll SRethrow]
         (SThrow (MkOutOfBound (Some [66]) (Some true)))) = Exited 1 /\
  (* a protocol exception is caught by the same nest *)
  run (inside (tries [(PClass KProtocol, SSkip); (PClass KOutOfBound, SRethrow)])
         (SThrow (MkProtocol (Some [66]) None None))) = Done /\
  run (STry (SThrow oob) PStd (SSeq (SSet (fun e => setFatal e true)) SRethrow)) = Terminated.
Proof.
  cbn zeta. repeat split; cbn; try lia; try reflexivity.
  intros o H. repeat (destruct H as [<- | H]; [reflexivity|]). destruct H.
Qed.
