(* Vocabulary for statements about how many connections a pool needs. *)
From Coq Require Import List Arith.
From Verif Require Import Pool SpecPool.
Import ListNotations.

(* The calls that have not returned. *)
Definition returned (p : pc) : bool := match p with Returned _ => true | _ => false end.
Definition in_progress (s : state) : nat := length (filter (fun t => negb (returned (fst t))) (calls s)).

(* Never during these steps, which start with a new pool of size n, were more than m calls in progress. *)
Definition at_most (m n : nat) (acts : list action) : Prop :=
  forall before after s, acts = before ++ after -> run before (new_pool n) = Some s -> in_progress s <= m.

(* These are different connections that are open. *)
Definition open (s : state) (l : list nat) : Prop := NoDup l /\ forall c, In c l -> created s c /\ ~ is_closed s c.
(* These are different connections that were dialled at some time. *)
Definition dialled (s : state) (l : list nat) : Prop := NoDup l /\ forall c, In c l -> created s c.

(* The exchanges that failed. *)
Definition failures (h : list event) : nat := length (filter (fun e => match e with Used _ _ false => true | _ => false end) h).
