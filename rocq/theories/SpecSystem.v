(* Vocabulary for statements about a pool whose connections talk to a server. *)
From Coq Require Import List NArith Bool.
From Verif Require Import Base Conn SpecReply System.
From Verif Require Pool SpecPool.
Import ListNotations.

(* The requests of each Send and the reply the server has for each of them. A Send's unit is its
   requests, and while the Send is under way the server sends these replies, in order, in any
   segments; it may stop at any point. It sends nothing on its own before the first request. *)
Definition sends (said : nat -> list exchange) (s : system) : Prop :=
  forall i d b, nth_error (units s) i = Some (Some (d, b)) -> b = request_bytes (said i).
Definition serves (w32 : bool) (said : nat -> list exchange) (a : action) : Prop :=
  match a with
  | Exchange i chunks => Forall (exchange_ok w32) (said i) /\ exists more, concat chunks ++ more = replies_bytes (said i)
  | Connected _ c => unread c = []
  | _ => True
  end.

(* Responses to the first of these exchanges, and maybe an answer to the next one, or an empty one. *)
Definition responses_to_first (xs : list exchange) (rs : list response) : Prop :=
  exists ys zs r, xs = ys ++ zs /\ rs = map seen_as ys ++ r /\
    (r = [] \/ r = [None] \/ exists z zs', zs = z :: zs' /\ r = [seen_as z]).

(* What call i's conn.Send returned. *)
Definition got (s : system) (i : nat) (rs : list response) (e : option cerr) : Prop := In (i, (rs, e)) (results s).

(* The Writes made on a net.Conn, in order, with their results. *)
Definition attempts (c : conn) : list (bytes * option ioerr) :=
  flat_map (fun e => match e with Write _ b o => [(b, o)] | _ => [] end) (rev (log c)).

(* The calls whose Send succeeded on connection c, in order. *)
Definition users (c : nat) (h : list Pool.event) : list nat :=
  flat_map (fun e => match e with Pool.Used i c' true => if Nat.eqb c c' then [i] else [] | _ => [] end) h.

(* Call i's unit is b. *)
Definition unit_is (s : system) (i : nat) (b : bytes) : Prop := exists d, nth_error (units s) i = Some (Some (d, b)).
