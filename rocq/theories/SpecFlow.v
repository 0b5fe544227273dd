(* What may become of a Send over a network with bounded buffers. *)
From Coq Require Import List NArith Arith.
From Verif Require Import Base Conn SpecUnit SpecReply Flow.
Import ListNotations.

(* Whatever happens next, as long as something can happen: P will hold. *)
Inductive inevitably (next : action -> state -> option state) (P : state -> Prop) (s : state) : Prop :=
| In_now : P s -> inevitably next P s
| In_later : (exists a s', next a s = Some s') -> (forall a s', next a s = Some s' -> inevitably next P s') -> inevitably next P s.

(* Nothing can happen any more. *)
Definition stuck (next : action -> state -> option state) (s : state) : Prop := forall a, next a s = None.

Inductive reaches (next : action -> state -> option state) : state -> state -> Prop :=
| R_here s : reaches next s s
| R_step s a s' s'' : next a s = Some s' -> reaches next s' s'' -> reaches next s s''.

(* The server answers these requests in this way. *)
Definition serves (answer : server) (xs : list exchange) : Prop := forall before x after, xs = before ++ x :: after ->
  answer (map (fun y => frame (asked y)) (before ++ [x])) = reply_bytes (replied x).

(* At some point of the unit the replies so far are more than the network holds in one direction, and the requests to come are more than it holds
   in the other. *)
Definition jams (out_room in_room : nat) (xs : list exchange) : Prop := exists before x after, xs = before ++ x :: after /\
  in_room < length (replies_bytes (before ++ [x])) /\ out_room < length (request_bytes after).
