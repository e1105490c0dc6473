(** What the exception classes promise, stated without the model's
    constructors and setters. *)
From Coq Require Import String Ascii.
From Verif Require Import Base ExcModel.
Open Scope list_scope.
Open Scope Z_scope.

(** the character codes of a readable text *)
Definition text_of (s : string) : text := map (fun a => Z.of_nat (nat_of_ascii a)) (list_ascii_of_string s).
Definition fatal_text : text := text_of "Fatal exception uncaught. ".
Definition standard_text : text :=
  text_of "Did you try to insert or read an element out of allowed bound of some container?".

(** the arguments of an expression, with the documented defaults *)
Definition asked_fatal (x : expr) : bool :=
  match x with
  | MkException _ (Some f) _ | MkOutOfBound _ (Some f) | MkProtocol _ (Some f) _ => f
  | _ => false
  end.
(** OutOfBoundException has no code argument: it is 1 *)
Definition asked_code (x : expr) : Z :=
  match x with MkException _ _ (Some c) | MkProtocol _ _ (Some c) => c | _ => 1 end.
Definition asked_message (x : expr) : text :=
  match x with
  | MkException (Some m) _ _ | MkProtocol (Some m) _ _ => m
  | MkException None _ _ | MkProtocol None _ _ => []
  | MkOutOfBound (Some (c :: t)) _ => c :: t
  | MkOutOfBound _ _ => standard_text
  end.
Definition asked_class (x : expr) : cls :=
  match x with MkException _ _ _ => KException | MkOutOfBound _ _ => KOutOfBound | MkProtocol _ _ _ => KProtocol end.

(** *** the value an object shows after a history
    [msg_of l i] etc. are defined on the history alone: the last call that gave
    object [i] a message. Objects are numbered in the order of creation. *)
Definition creates (o : op) : bool := match o with ONew _ | OCopy _ => true | _ => false end.
Definition count_objs (l : list op) : nat := List.length (filter creates l).

Section Last.
Context {A : Type} (of_expr : expr -> A) (of_set : op -> option (nat * A)).
(** the history is read from its end; [rev_l] is the reversed history *)
Fixpoint last_rev (rev_l : list op) (i : nat) : option A :=
  match rev_l with
  | [] => None
  | o :: t =>
      match o with
      | ONew x => if Nat.eqb i (count_objs t) then Some (of_expr x) else last_rev t i
      | OCopy j => if Nat.eqb i (count_objs t) then last_rev t j else last_rev t i
      | OAssign d j => if Nat.eqb i d then last_rev t j else last_rev t i
      | _ =>
          match of_set o with
          | Some (d, a) => if Nat.eqb i d then Some a else last_rev t i
          | None => last_rev t i
          end
      end
  end.
End Last.
Definition message_after (l : list op) (i : nat) : option text :=
  last_rev asked_message (fun o => match o with OSetMessage d m => Some (d, m) | _ => None end) (rev l) i.
Definition fatal_after (l : list op) (i : nat) : option bool :=
  last_rev asked_fatal (fun o => match o with OSetFatal d f => Some (d, f) | _ => None end) (rev l) i.
Definition code_after (l : list op) (i : nat) : option Z :=
  last_rev asked_code (fun o => match o with OSetExitCode d c => Some (d, c) | _ => None end) (rev l) i.

(** every operation names objects that exist *)
Fixpoint named (n : nat) (l : list op) : Prop :=
  match l with
  | [] => True
  | o :: t =>
      match o with
      | ONew _ => named (S n) t
      | OCopy i => (i < n)%nat /\ named (S n) t
      | OSetMessage i _ | OSetFatal i _ | OSetExitCode i _ => (i < n)%nat /\ named n t
      | OAssign i j => (i < n)%nat /\ (j < n)%nat /\ named n t
      end
  end.

(** the history asks for a fatal exception somewhere *)
Definition asks_fatal (o : op) : bool := match o with ONew x => asked_fatal x | _ => false end.

(** *** try and catch
    the throw expressions of a program *)
Fixpoint throws (s : stmt) : list expr :=
  match s with
  | SThrow x => [x]
  | SSeq a b => throws a ++ throws b
  | STry a _ b => throws a ++ throws b
  | _ => []
  end.

(** a place in a program: statements executed before it on the way, and the
    try blocks (with any handlers) around it *)
Inductive frame := FAfter (before : stmt) (rest : stmt) | FTry (p : pattern) (handler : stmt).
Fixpoint inside (fs : list frame) (s : stmt) : stmt :=
  match fs with
  | [] => s
  | FAfter b r :: t => SSeq b (SSeq (inside t s) r)
  | FTry p hd :: t => STry (inside t s) p hd
  end.

(** catch (K&) takes exactly the objects of class K or derived from it *)
Definition is_a (k b : cls) : Prop := k = b \/ b = KException.
Definition takes (p : pattern) (k : cls) : Prop :=
  match p with PAll | PStd => True | PClass b => is_a k b end.
(** nested try blocks, one handler each, listed from the outside in, around a
    statement *)
Definition tries (l : list (pattern * stmt)) : list frame := map (fun ph => FTry (fst ph) (snd ph)) l.
