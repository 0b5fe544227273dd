(* Model of the options of /repo/netx/connector/connector.go, and of the text of the server's errors. *)
From Coq Require Import String List NArith Bool.
From Coq Require Import List.
From Verif Require Import Base GoSlice Text Conn AuthModel Connector.
Import ListNotations.
Open Scope N_scope.

Section Options.
(* *tls.Config, netx.Dialer and errors are opaque. *)
Context {tls_config error : Type}.

(* netx/connector/connector.go:23-33 Connector; the dialer has no option and always is new(net.Dialer). *)
Record connector := mkcn {
  c_network : bytes;
  c_address : bytes;
  c_tls : option tls_config;
  c_auth : mechanism;
  c_user : bytes;
  c_password : bytes;
  c_database : bytes }.

(* netx/connector/connector.go:101 Option. The fields are private: a function written outside of the
   package can only return nil or an error. *)
Inductive opt :=
| WithDatabase (database : bytes)
| WithAuthentication (auth : mechanism)
| WithUserPassword (user password : bytes)
| WithTLSConfig (c : option tls_config)
| Other (result : option error).

(* netx/connector/connector.go:103-135 *)
Definition apply (o : opt) (c : connector) : connector + error :=
  match o with
  | WithDatabase d => inl (mkcn (c_network c) (c_address c) (c_tls c) (c_auth c) (c_user c) (c_password c) d)
  | WithAuthentication a => inl (mkcn (c_network c) (c_address c) (c_tls c) a (c_user c) (c_password c) (c_database c))
  | WithUserPassword u p => inl (mkcn (c_network c) (c_address c) (c_tls c) (c_auth c) u p (c_database c))
  | WithTLSConfig t => inl (mkcn (c_network c) (c_address c) t (c_auth c) (c_user c) (c_password c) (c_database c))
  | Other None => inl c
  | Other (Some e) => inr e
  end.

(* netx/connector/connector.go:42-46 *)
Fixpoint apply_all (os : list opt) (c : connector) : connector + error :=
  match os with
  | [] => inl c
  | o :: os =>
      match apply o c with
      | inl c => apply_all os c
      | inr e => inr e
      end
  end.

(* netx/connector/connector.go:35-48 New; [mysql41] is what mysql41.New() returns. *)
Definition new_connector (mysql41 : mechanism) (network address : bytes) (os : list opt) : connector + error :=
  apply_all os (mkcn network address None mysql41 [] [] []).

(* What New of the connector (connector.go:59-98, Connector.connector_new) uses of it; connector.go:51-53
   UserName, Password, Database. *)
Definition config_of (c : connector) : config :=
  {| with_tls := match c_tls c with Some _ => true | None => false end;
     authentication := c_auth c;
     credentials_of := {| user_name := c_user c; password := c_password c; database := c_database c |} |}.
End Options.
Arguments connector : clear implicits.
Arguments opt : clear implicits.

(* protobuf/mysqlx/mysqlx.pb.go, Error_Severity.String(): the name, or the number (of an int32) for others *)
Definition severity_text (s : N) : bytes :=
  if s =? 0 then s2b "ERROR" else if s =? 1 then s2b "FATAL" else
  if s <? 2 ^ 31 then dec s else s2b "-" ++ dec (2 ^ 32 - s).

(* netx/connection/errors.go:16-18 MySqlXError.Error: fmt.Sprintf("%s %d (%s): %s", ...) *)
Definition error_text (e : server_error) : bytes :=
  severity_text (severity e) ++ s2b " " ++ dec (code e) ++ s2b " (" ++ sql_state e ++ s2b "): " ++ text e.
