(* C105: what a call of Connector.New gives when nothing else runs: the model over slice values, with new buffers. *)
From Coq Require Import List NArith.
From Verif Require Import Base GoSlice Conn AuthModel Connector FineAuth.
Import ListNotations.

Section Spec.
Context `{E : Env}.
Variables sha1 sha256 : bytes -> bytes.

Definition config_of (x : connector) : config :=
  {| with_tls := uses_tls x;
     authentication := match uses_method x with
                       | MYSQL41 => mysql41 sha1 (repeat 0%N 128)
                       | SHA256_MEMORY => sha256_memory sha256 (repeat 0%N 128)
                       | PLAIN => plain
                       end;
     credentials_of := uses_credentials x |}.

(* The error and the state of the connection, or None if the call panics. *)
Definition new_alone (x : connector) (a : attempt) : option (option nerr * option conn) :=
  match connector_new (at_deadline a) (config_of x) (at_dial a) (at_handshake a) with Ok r => Some r | Panic => None end.

End Spec.
