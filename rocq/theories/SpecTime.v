(* What it means that a call returns in time. *)
From Coq Require Import List NArith.
From Verif Require Import Base Conn Timed.
Open Scope N_scope.

(* What becomes of a call whose first k steps are given for every k. *)
Definition becomes {A} (f : nat -> outcome A) (x : outcome A) : Prop := x <> More /\ exists k0, forall k, (k0 <= k)%nat -> f k = x.
(* It goes on for ever without waiting for ever for one thing. *)
Definition never_ends {A} (f : nat -> outcome A) : Prop := forall k, f k = More.

(* It has returned (or panicked) by the time t. *)
Definition over_by {A} (t : N) (x : outcome A) : Prop :=
  match x with Back _ s | Panicked s => now s <= t | Waits | More => False end.
(* It has returned by the time t. *)
Definition returned_by {A} (t : N) (x : outcome A) : Prop :=
  match x with Back _ s => now s <= t | _ => False end.

(* How long count operations take from the given one on, if all of them end by themselves: each its time and a tick. *)
Fixpoint took (f : nat -> option N) (from count : nat) : N :=
  match count with
  | O => 0
  | S count => 1 + match f from with Some t => t | None => 0 end + took f (S from) count
  end.
