(** Model of the exception classes src/libeopsi/exception.{h,cpp},
    outofboundex.{h,cpp} and protocolex.h: the objects, their constructors,
    getters and setters, what goes to the error stream, and C++ throw / try /
    catch over these three classes.  Strings are lists of character codes. *)
From Verif Require Import Base.

Definition text := list Z.

Inductive cls := KException | KOutOfBound | KProtocol.

(** exception.h:23-25 (the class is the dynamic type of the object) *)
Record exc := mkExc { ex_class : cls; ex_message : text; ex_fatal : bool; ex_exitCode : Z }.

(** exception.cpp:25-27, 35-37, 45-47.  All three are virtual but no class of
    the library overrides them. *)
Definition setMessage (e : exc) (m : text) : exc := mkExc (ex_class e) m (ex_fatal e) (ex_exitCode e).
Definition setFatal (e : exc) (f : bool) : exc := mkExc (ex_class e) (ex_message e) f (ex_exitCode e).
Definition setExitCode (e : exc) (c : Z) : exc := mkExc (ex_class e) (ex_message e) (ex_fatal e) c.

(** exception.cpp:20-22, 30-32, 40-42 *)
Definition getMessage (e : exc) : text := ex_message e.
Definition isFatal (e : exc) : bool := ex_fatal e.
Definition getExitCode (e : exc) : Z := ex_exitCode e.

(** exception.cpp:50-52: a C string: it ends before the first NUL *)
Fixpoint c_str (m : text) : text :=
  match m with [] => [] | c :: t => if c =? 0 then [] else c :: c_str t end.
Definition what (e : exc) : text := c_str (ex_message e).

(** A constructor either leaves an object or ends the process; the second
    component is what was written to the error stream. *)
Definition made : Type := res exc * text.

(** the literal of exception.cpp:57 *)
Definition fatal_prefix : text :=
  [70;97;116;97;108;32;101;120;99;101;112;116;105;111;110;32;117;110;99;97;117;103;104;116;46;32].

(** exception.cpp:55-60 *)
Definition handleFatality (e : exc) : made :=
  if ex_fatal e then (Exit (ex_exitCode e), fatal_prefix ++ ex_message e ++ [10]) else (Ok e, []).

(** exception.cpp:11-17.  The members are not initialised before the three
    setters run and none of them is read before it is set. *)
Definition init_exception (k : cls) (message : text) (fatal : bool) (code : Z) : made :=
  let e := mkExc k [] false 0 in
  let e := setMessage e message in
  let e := setFatal e fatal in
  let e := setExitCode e code in
  handleFatality e.

Definition new_exception (message : text) (fatal : bool) (code : Z) : made :=
  init_exception KException message fatal code.

(** protocolex.h:20: everything is passed on to the base class *)
Definition new_protocol (message : text) (fatal : bool) (code : Z) : made :=
  init_exception KProtocol message fatal code.

(** the literal of outofboundex.cpp:13 *)
Definition oob_default : text :=
  [68;105;100;32;121;111;117;32;116;114;121;32;116;111;32;105;110;115;101;114;116;32;111;114;32;114;101;97;100;32;
   97;110;32;101;108;101;109;101;110;116;32;111;117;116;32;111;102;32;97;108;108;111;119;101;100;32;98;111;117;110;
   100;32;111;102;32;115;111;109;101;32;99;111;110;116;97;105;110;101;114;63].

(** outofboundex.cpp:11-20 *)
Definition new_outofbound (message : text) (fatal : bool) : made :=
  match init_exception KOutOfBound message false 1 with
  | (Ok e, out) =>
      let e := match message with [] => setMessage e oob_default | _ => setMessage e message end in
      let e := setFatal e fatal in
      let '(r, out2) := handleFatality e in (r, out ++ out2)
  | (r, out) => (r, out)
  end.

(** exception.h:42, outofboundex.h:29, protocolex.h:20: an expression that
    makes an exception, with the default arguments spelled out: message "",
    NON_FATAL, code 1 *)
Inductive expr :=
| MkException (message : option text) (fatal : option bool) (code : option Z)
| MkOutOfBound (message : option text) (fatal : option bool)
| MkProtocol (message : option text) (fatal : option bool) (code : option Z).

Definition dflt {A} (d : A) (o : option A) : A := match o with Some a => a | None => d end.

Definition make (x : expr) : made :=
  match x with
  | MkException m f c => new_exception (dflt [] m) (dflt false f) (dflt 1 c)
  | MkOutOfBound m f => new_outofbound (dflt [] m) (dflt false f)
  | MkProtocol m f c => new_protocol (dflt [] m) (dflt false f) (dflt 1 c)
  end.

(** *** programs that work on exception objects
    Objects live in a list and are named by their position; copying is the
    implicit, memberwise one (std::string copies its contents). *)
Inductive op :=
| ONew (x : expr)
| OSetMessage (i : nat) (m : text)
| OSetFatal (i : nat) (f : bool)
| OSetExitCode (i : nat) (c : Z)
| OCopy (i : nat)            (* copy constructor: a new object *)
| OAssign (i j : nat).       (* object i = object j (same static class) *)

Definition at_obj (s : list exc) (i : nat) (f : exc -> exc) : res (list exc) :=
  do e <- aget s i; aset s i (f e).

Definition exec_op (s : list exc) (o : op) : res (list exc) * text :=
  match o with
  | ONew x => let '(r, out) := make x in (do e <- r; Ok (s ++ [e]), out)
  | OSetMessage i m => (at_obj s i (fun e => setMessage e m), [])
  | OSetFatal i f => (at_obj s i (fun e => setFatal e f), [])
  | OSetExitCode i c => (at_obj s i (fun e => setExitCode e c), [])
  | OCopy i => (do e <- aget s i; Ok (s ++ [e]), [])
  | OAssign i j =>
      (* the dynamic class of object i stays what it is *)
      (do e <- aget s j;
       at_obj s i (fun d => mkExc (ex_class d) (ex_message e) (ex_fatal e) (ex_exitCode e)), [])
  end.

Fixpoint exec_ops (s : list exc) (l : list op) : res (list exc) * text :=
  match l with
  | [] => (Ok s, [])
  | o :: t =>
      match exec_op s o with
      | (Ok s', out) => let '(r, out2) := exec_ops s' t in (r, out ++ out2)
      | (r, out) => (r, out)
      end
  end.

(** *** throw, try and catch (the language, as the library uses it in
    eopsiparty.cpp:178-191, eopsiclient.cpp:153-158, eopsisimul.cpp:359-405)
    A handler is [catch (K& e)], [catch (std::exception& e)] or
    [catch (...)]; its body may rethrow, and may first call setters on [e]. *)
Inductive pattern := PClass (k : cls) | PStd | PAll.

(** class hierarchy: exception.h:20, outofboundex.h:20, protocolex.h:17 *)
Definition catches (p : pattern) (e : exc) : bool :=
  match p with
  | PStd | PAll => true
  | PClass KException => true
  | PClass KOutOfBound => match ex_class e with KOutOfBound => true | _ => false end
  | PClass KProtocol => match ex_class e with KProtocol => true | _ => false end
  end.

Inductive stmt :=
| SSkip
| SSeq (a b : stmt)
| SThrow (x : expr)
| SRethrow                                 (* throw; inside a handler *)
| SSet (f : exc -> exc)                    (* setters called on the caught object *)
| STry (body : stmt) (p : pattern) (handler : stmt).

(** How a statement ends; [Raised i] is an exception on its way to a handler;
    [Terminated] is std::terminate (a [throw;] with no exception being
    handled). *)
Inductive ending := Done | Raised (i : nat) | Exited (code : Z) | Terminated.

(** [h] holds the exception objects thrown so far, [cur] is the one being
    handled, if any: [throw;] throws that same object again. *)
Fixpoint exec (h : list exc) (cur : option nat) (s : stmt) : list exc * ending :=
  match s with
  | SSkip => (h, Done)
  | SSeq a b => match exec h cur a with (h1, Done) => exec h1 cur b | r => r end
  | SThrow x =>
      match fst (make x) with
      | Ok e => (h ++ [e], Raised (length h))
      | Exit c => (h, Exited c)
      | _ => (h, Terminated)
      end
  | SRethrow => match cur with Some i => (h, Raised i) | None => (h, Terminated) end
  | SSet f =>
      match cur with
      | Some i => match nth_error h i with Some e => (upd h i (f e), Done) | None => (h, Terminated) end
      | None => (h, Terminated)
      end
  | STry body p handler =>
      match exec h cur body with
      | (h1, Raised i) =>
          match nth_error h1 i with
          | Some e => if catches p e then exec h1 (Some i) handler else (h1, Raised i)
          | None => (h1, Terminated)
          end
      | r => r
      end
  end.

(** main's body: an exception that leaves it is std::terminate *)
Definition run (s : stmt) : ending :=
  match exec [] None s with (_, Raised _) => Terminated | (_, r) => r end.
