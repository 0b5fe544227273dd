(* C111: what an observer of a connection sees. *)
From Coq Require Import List NArith Bool.
From Verif Require Import Base Conn AuthModel Connector.
Import ListNotations.

(* Two accounts that differ in the password at most. *)
Definition same_account (c c' : credentials) : Prop := user_name c = user_name c' /\ database c = database c'.

(* What the connection does outside TLS: the calls on it in this kind, the latest first. *)
Definition in_clear (e : event) : bool := match e with SetDeadline k _ _ | Write k _ _ | Close k => match k with Tls => false | _ => true end end.
Definition seen_outside (c : conn) : list event := filter in_clear (log c).

(* What the connector authenticates over is open to observers: no unix socket, and no TLS. *)
Definition unprotected (cfg : config) (c0 : conn) : Prop := is_secure c0 = false /\ (ckind c0 = Tcp -> with_tls cfg = false).
