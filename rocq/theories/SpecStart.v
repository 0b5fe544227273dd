(* Vocabulary for statements about connections from dialling on (C80, C81). *)
From Coq Require Import List NArith Bool.
From Verif Require Import Base GoSlice SpecValue SpecUnit Conn AuthModel Connector SpecReply System SpecSystem.
Import ListNotations.

(* One complete reply: it answers a request, or asks the client to continue authenticating. *)
Definition proper (w32 : bool) (p : reply) : Prop := (exists r, answers w32 p r) \/ (exists d, challenges w32 p d).

(* How many requests were written on a connection of this kind. *)
Definition same_kind (a b : kind) : bool := match a, b with Tcp, Tcp | Unix, Unix | Tls, Tls | OtherConn, OtherConn => true | _, _ => false end.
Definition requests_on (k : kind) (evs : list event) : nat :=
  length (filter (fun e => match e with Write k' _ None => same_kind k k' | _ => false end) evs).

(* The bytes the server sends on the connection that is finally used: inside TLS if TLS is wanted. *)
Definition server_sends (cfg : config) (c0 : conn) (handshake : tls_session) : bytes :=
  match handshake, ckind c0, with_tls cfg with
  | Some (r, _, _), Tcp, true => held r ++ concat (inbound r)
  | _, _, _ => unread c0
  end.

(* Connector.New returned c, on a server that sends one reply for each request and nothing else. *)
Definition started_in_sync (w32 : bool) (c : conn) : Prop := exists (E : Env) deadline cfg c0 handshake ps,
  word32 = w32 /\ log c0 = [] /\ connector_new deadline cfg (Some c0) handshake = Ok (None, Some c) /\
  server_sends cfg c0 handshake = concat (map reply_bytes ps) /\ Forall (proper w32) ps /\ (length ps <= requests_on (ckind c) (log c))%nat /\
  (* the mechanism's messages are frames of less than 4 GiB *)
  (exists p, start (authentication cfg) (credentials_of cfg) = Ok (frame (4%N, p)) /\ (1 + nlen p < 2 ^ 32)%N) /\
  (forall k d, continue (authentication cfg) = Some k -> exists p, k (credentials_of cfg) d = Ok (frame (5%N, p)) /\ (1 + nlen p < 2 ^ 32)%N) /\
  (* and the credentials are strings of together less than 1 GiB *)
  let cr := credentials_of cfg in go_string (database cr) /\ go_string (user_name cr) /\ go_string (password cr) /\
    (nlen (database cr) + nlen (user_name cr) + nlen (password cr) < 2 ^ 30)%N.

(* What SpecSystem.serves says, with New instead of an assumption about the connections. *)
Definition serves_from_start (w32 : bool) (said : nat -> list exchange) (a : action) : Prop :=
  match a with
  | Connected _ c => started_in_sync w32 c
  | a => serves w32 said a
  end.

(* Connector.New returned c, with a TLS configuration, for an address of TCP. *)
Definition wants_tls (c : conn) : Prop := exists (E : Env) deadline cfg c0 handshake,
  log c0 = [] /\ with_tls cfg = true /\ ckind c0 = Tcp /\ connector_new deadline cfg (Some c0) handshake = Ok (None, Some c).
