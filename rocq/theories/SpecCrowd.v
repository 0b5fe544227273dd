(* C112: goroutines that share a connection. *)
From Coq Require Import List NArith Arith.
From Verif Require Import Base Conn SpecReply Crowd.
Import ListNotations.

(* A call of Send: the context's deadline, the requests with their replies, and the responses they are to get. *)
Definition send_of (u : option N * list exchange) : stage := Before (fst u) (request_bytes (snd u)).

(* A request of the kind a builder makes, with a reply that is no fatal error. *)
Definition usual (x : exchange) : Prop := ~ session_request (fst (asked x)) /\ match seen_as x with Some e => severity e <> 1%N | None => True end.

(* One Send after the other, in this order: goroutine i makes all steps of its Send before the next begins. n i: how many. *)
Definition in_turn (n : nat -> nat) (order : list nat) : list nat := concat (map (fun i => repeat i (n i)) order).
