(* Vocabulary for statements about a connection pool. *)
From Coq Require Import List Arith.
From Verif Require Import Pool.
Import ListNotations.

(* The states any number of concurrent calls can reach, in any interleaving. *)
Definition reachable (n : nat) (s : state) : Prop := exists acts, run acts (new_pool n) = Some s.

(* The connection call i works with, from receiving or creating it until it has put it back or closed it. *)
Definition holding (p : pc) : list nat :=
  match p with SSend c | SFail c | SReturn c | SDrop c | KDrop c => [c] | _ => [] end.
Definition holds (s : state) (i c : nat) : Prop := exists p b, nth_error (calls s) i = Some (p, b) /\ In c (holding p).
(* Call i is inside conn.Send of c. *)
Definition sending (s : state) (i c : nat) : Prop := exists b, nth_error (calls s) i = Some (SSend c, b).
Definition finished (s : state) : Prop := forall i p b, nth_error (calls s) i = Some (p, b) -> exists o, p = Returned o.

(* The history, oldest first. *)
Definition history (s : state) : list event := rev (log s).
Definition is_closed (s : state) (c : nat) : Prop := exists i, In (Closed i c) (history s).
Definition created (s : state) (c : nat) : Prop := exists i, In (Created i c) (history s).

Definition takes (h : list event) : list nat := flat_map (fun e => match e with Taken _ c => [c] | _ => [] end) h.
Definition puts (h : list event) : list nat := flat_map (fun e => match e with PutBack _ c => [c] | _ => [] end) h.
Definition closings (h : list event) : list nat := flat_map (fun e => match e with Closed _ c => [c] | _ => [] end) h.

(* The event hands c out, uses it, or makes it available again. *)
Definition touches (c : nat) (e : event) : Prop :=
  match e with Taken _ c' | Created _ c' | Used _ c' _ | PutBack _ c' | Closed _ c' => c' = c | NoneIdle _ => False end.

(* The exchanges call i had, in order: on which connection, and whether its Send succeeded. *)
Definition exchanges (i : nat) (h : list event) : list (nat * bool) :=
  flat_map (fun e => match e with Used j c ok => if i =? j then [(c, ok)] else [] | _ => [] end) h.
(* The connections call i got, idle ones and new ones. *)
Definition obtained (i : nat) (h : list event) : list nat :=
  flat_map (fun e => match e with Taken j c | Created j c => if i =? j then [c] else [] | _ => [] end) h.
