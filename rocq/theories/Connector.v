(* Model of /repo/netx/connector/connector.go. *)
From Coq Require Import String List NArith Arith.
From Coq Require Import List.
From Verif Require Import Base GoSlice MsgModel Conn AuthModel.
Import ListNotations.
Open Scope N_scope.

(* netx/connector/connector.go:23-33 Connector. network, address and dialer only decide what the dial
   gives, which is an argument of [connector_new]. *)
Record config := { with_tls : bool; authentication : mechanism; credentials_of : credentials }.

Inductive nerr := NDial | NHandshake | NConn (e : cerr).

(* netx/connection/errs/codes.go:49 *)
Definition ErAccessDeniedError : N := 1045.

(* What tls.Client(...).Handshake() gives (library code, not modelled): failure, or a connection whose
   plain text side is this reader and has these results of SetDeadline and Write. *)
Definition tls_session : Type := option (reader * list (option ioerr) * list (option ioerr)).

(* netx/connection/connection.go:37-40 Reset with the TLS connection: bufio.Reader.Reset drops what was buffered. *)
Definition conn_reset (c : conn) (r : reader) (ds ws : list (option ioerr)) : conn := mkc Tls r ds ws (log c).

Section Model.
Context `{E : Env}.

(* netx/connector/connector.go:84-97: Authenticate, the PLAIN fallback, Close. errors.As finds the
   *MySqlXError exactly when Authenticate returned the server's error. *)
Definition authenticate_or_close (deadline : option N) (cfg : config) (c : conn) : res (option nerr * conn) :=
  do (r, c) <- authenticate word32 deadline (credentials_of cfg) (authentication cfg) c;
  match r with
  | None => Ok (None, c)
  | Some e =>
      let denied := match e with CServer m => code m =? ErAccessDeniedError | _ => false end in
      if andb denied (is_secure c)
      then do (r2, c) <- authenticate word32 deadline (credentials_of cfg) plain c;
           match r2 with
           | None => Ok (None, c)
           | Some _ => Ok (Some (NConn e), close c)
           end
      else Ok (Some (NConn e), close c)
  end.

(* netx/connector/connector.go:59-98 New. [dial] is the dialled connection, if any. The result is the
   error, None for success, and the state of the dialled connection. CapabilitySet does not fail. *)
Definition connector_new (deadline : option N) (cfg : config) (dial : option conn) (handshake : tls_session) : res (option nerr * option conn) :=
  match dial with
  | None => Ok (Some NDial, None)
  | Some c =>
      if andb (match ckind c with Tcp => true | _ => false end) (with_tls cfg)
      then
        do (r, c) <- conn_send word32 deadline (capability_set (s2b "tls") true) c;
        match snd r with
        | Some e => Ok (Some (NConn e), Some c)
        | None =>
            match handshake with
            | None => Ok (Some NHandshake, Some (close (mkc Tls (rd c) (deadlines c) (writes c) (log c))))
            | Some (rd, ds, ws) =>
                do (r, c) <- authenticate_or_close deadline cfg (conn_reset c rd ds ws);
                Ok (r, Some c)
            end
        end
      else
        do (r, c) <- authenticate_or_close deadline cfg c;
        Ok (r, Some c)
  end.
End Model.
