(* C108: one try to have a server do a unit of work, over a connection that may break at any point. *)
From Coq Require Import List NArith Bool.
From Verif Require Import Base SpecMsg Conn SpecReply SpecSession SpecCommit.
From Verif Require SpecServer.
Import ListNotations.
Open Scope list_scope.

(* The bytes given to Write while the connection went from c to d. *)
Definition given (c d : conn) : bytes :=
  concat (map (fun e => match e with Write _ b _ => b | _ => [] end) (rev (firstn (length (log d) - length (log c)) (log d)))).

(* Send(unit) on a connection of its own to a server that is in state s, and what happened:
   - of the bytes given to Write the first [reached] got to the server before the connection was gone, whole messages (what there was of one more is not looked at), and
     the server did what it does with them, which leaves it in state s';
   - it told the truth about each, but of its replies some bytes may be missing at the end;
   - Send returned rs and e. *)
Definition try_of (w32 propagates : bool) (unit : bytes) (s : session) (reached : nat) (rs : list response) (e : option cerr) (s' : session) : Prop :=
  exists deadline c c' handled tr ps missing,
    conn_send w32 deadline unit c = Ok ((rs, e), c') /\
    dstream (firstn reached (given c c')) = Some handled /\ SpecServer.serve propagates [] handled tr /\ s' = play tr s /\
    Forall2 (acknowledges w32) tr ps /\ unread c ++ missing = concat (map reply_bytes ps) /\ is_bytes (unread c).

(* The server after a connection is gone: a transaction in progress is rolled back. *)
Definition gone (s : session) : session := mksess None (durable s).

(* From the result of one try it is certain that nothing was done: the deadline could not be set, or a message up to the COMMIT has an error response, whatever error Send
   returned, or (which is seen only on the network) not all of the COMMIT got to the server: less than the unit without its last message, which has five bytes. *)
Definition surely_undone (unit : bytes) (position : nat) (reached : nat) (rs : list response) (e : option cerr) : Prop :=
  (exists x, e = Some (CDeadline x)) \/ (exists i x, (i <= position)%nat /\ nth_error rs i = Some (Some x)) \/ (reached + 5 < length unit)%nat.
(* It is certain that it was done: the COMMIT has a success response, and it is not the one Send adds when it fails to read. *)
Definition surely_done (position : nat) (rs : list response) (e : option cerr) : Prop :=
  nth_error rs position = Some None /\ (e = None \/ (S position < length rs)%nat).

(* Any number of tries one after the other, each on a new connection, each with a result that satisfies P. *)
Inductive tries (one : session -> nat -> list response -> option cerr -> session -> Prop) (P : nat -> list response -> option cerr -> Prop) : session -> session -> Prop :=
| no_more s : tries one P s s
| one_more s reached rs e s' s'' : one s reached rs e s' -> P reached rs e -> tries one P (gone s') s'' -> tries one P s s''.
