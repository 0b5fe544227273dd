(* Specification: units of work as messages, and what each contributes to a session. *)
From Coq Require Import String List NArith Bool.
From Coq Require Import List.
From Verif Require Import Base SpecMsg SpecProg SpecServer SpecSession.
Import ListNotations.
Open Scope list_scope.

(* A unit of work as the README describes it: the context of its expectation block, its Prepare messages, the statements that begin the
   transaction, and the messages of the transaction. *)
Record unit_parts := mkunit { u_context : N; u_prepared : list msg; u_opening : list bytes; u_inner : list msg }.
Definition u_messages (u : unit_parts) : list msg :=
  MExpectOpen (u_context u) [CNoError (s2b "1")] :: u_prepared u ++ map statement (u_opening u) ++ u_inner u ++ [statement (s2b "COMMIT"); MExpectClose].
(* Which of its messages is the COMMIT. *)
Definition u_commit (u : unit_parts) : nat := 1 + length (u_prepared u) + length (u_opening u) + length (u_inner u).

(* The changes c a unit contributes: the first of its changes, in order. *)
Definition first_changes (u : unit_parts) (c : list msg) : Prop := exists unmade, changes (u_inner u) = c ++ unmade.
