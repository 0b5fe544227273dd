(* Specification: what a server sends back (SpecReply), with the names of the .proto files. *)
From Coq Require Import String List NArith ZArith Bool.
From Coq Require Import List.
From Verif Require Import Base SpecUnit Conn SpecReply SpecSchema SpecProto SpecNames.
Import ListNotations.
Open Scope string_scope.
Open Scope list_scope.
Open Scope N_scope.

(* The message a frame holds. *)
Definition holds (f : N * bytes) (m : string) : Prop := message_name (fst f) server_messages = Some m.

(* A Mysqlx.Error with the contents e; without severity it is an ERROR. *)
Definition error_fields (v : pval) (e : server_error) : Prop :=
  exists given, v = PMessage (given ++ [("code", number (code e)); ("sql_state", PBytes (sql_state e)); ("msg", PBytes (text e))]) /\
    (given = [] /\ severity e = 0 \/
     given = [("severity", PEnum "ERROR")] /\ severity e = 0 \/
     given = [("severity", PEnum "FATAL")] /\ severity e = 1 \/
     given = [("severity", PUnknownEnum (severity e))] /\ 2 <= severity e).

(* A frame that ends a reply, with success or with the error e. *)
Definition reports_named (f : N * bytes) (r : response) : Prop :=
  match r with
  | None => exists m, holds f m /\ In m ["Mysqlx.Ok"; "Mysqlx.Session.AuthenticateOk"; "Mysqlx.Sql.StmtExecuteOk"]
  | Some e => holds f "Mysqlx.Error" /\ exists v, decode true "Mysqlx.Error" (snd f) = Some v /\ error_fields v e
  end.

(* A frame that asks to go on authenticating with d. *)
Definition challenge_named (f : N * bytes) (d : bytes) : Prop :=
  holds f "Mysqlx.Session.AuthenticateContinue" /\
  decode true "Mysqlx.Session.AuthenticateContinue" (snd f) = Some (PMessage [("auth_data", PBytes d)]).

(* Any other frame; column meta data must be well formed. *)
Definition interim_named (f : N * bytes) : Prop :=
  (forall m, holds f m -> ~ In m ["Mysqlx.Ok"; "Mysqlx.Error"; "Mysqlx.Session.AuthenticateOk"; "Mysqlx.Session.AuthenticateContinue"; "Mysqlx.Sql.StmtExecuteOk"]) /\
  (holds f "Mysqlx.Resultset.ColumnMetaData" -> exists v, decode true "Mysqlx.Resultset.ColumnMetaData" (snd f) = Some v).

(* A complete reply, as in SpecReply.answers and challenges. *)
Definition answers_named (w32 : bool) (p : reply) (r : response) : Prop :=
  Forall interim_named (interims p) /\ reports_named (final p) r /\ Forall (fits w32) (interims p ++ [final p]).
Definition challenges_named (w32 : bool) (p : reply) (d : bytes) : Prop :=
  Forall interim_named (interims p) /\ challenge_named (final p) d /\ Forall (fits w32) (interims p ++ [final p]).
