(* Specification: a server that tells the truth. *)
From Coq Require Import List NArith Bool.
From Verif Require Import Base SpecMsg Conn SpecReply.
From Verif Require SpecServer.
Import ListNotations.

(* The response a client should see for what the server did: success exactly if it executed the message. *)
Definition truth (t : msg * SpecServer.outcome) (r : response) : Prop := r = None <-> snd t = SpecServer.Executed.
(* The server's reply p to a message is a conforming one and tells the truth. *)
Definition acknowledges (w32 : bool) (t : msg * SpecServer.outcome) (p : reply) : Prop := exists r, answers w32 p r /\ truth t r.
