(* C109: in which order servers act on the units of Sends. *)
From Coq Require Import List NArith Arith.
From Verif Require Import Base SpecWire SpecUnit SpecReply Flow SpecFlow Overlap.
Import ListNotations.

(* The messages of call i that a server acts on in this time, in this order. *)
Fixpoint handled (i : nat) (tl : list event) : list bytes :=
  match tl with
  | [] => []
  | Handled j m :: tl => if Nat.eqb i j then m :: handled i tl else handled i tl
  | _ :: tl => handled i tl
  end.

(* The messages of a unit. *)
Definition messages (xs : list exchange) : list bytes := map (fun x => frame (asked x)) xs.

(* A call: its requests, each with the reply the server gives, and the server. *)
Definition served (w32 : bool) (u : list exchange * server) : Prop :=
  Forall (exchange_ok w32) (fst u) /\ is_bytes (replies_bytes (fst u)) /\ SpecFlow.serves (snd u) (fst u).
Definition calls_of (us : list (list exchange * server)) : list (bytes * server) := map (fun u => (request_bytes (fst u), snd u)) us.
