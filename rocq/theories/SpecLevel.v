(* At which isolation level the changes of a session are made
   (MySQL Reference Manual 13.3.7 SET TRANSACTION, 13.3.1 START TRANSACTION):
   - SET TRANSACTION ISOLATION LEVEL, without SESSION or GLOBAL, is for the next transaction only: it is used up by
     it, or by a statement that is a transaction of its own;
   - without it a transaction runs at the level of the session;
   - WITH CONSISTENT SNAPSHOT takes a snapshot only at REPEATABLE READ and is ignored, with a warning, at the others. *)
From Coq Require Import String List NArith Bool.
From Coq Require Import List.
From Verif Require Import Base SpecMsg SpecProg SpecServer SpecSession.
Import ListNotations.
Open Scope list_scope.

Inductive isolation := ReadUncommitted | ReadCommitted | RepeatableRead | Serializable.
(* How a change is made: as a transaction of its own, or in one that was started, reading from a snapshot or not. *)
Inductive how := Alone (l : isolation) | InTransaction (l : isolation) (snapshot : bool).

(* The numbers of the isolation levels that have a name in SQL: builder.go:16-23. *)
Definition named (level : N) : option isolation :=
  match level with 1 => Some ReadUncommitted | 2 => Some ReadCommitted | 3 => Some RepeatableRead | 4 => Some Serializable | _ => None end%N.

(* A session: its own level, the level set for the next transaction, the transaction in progress, and the changes made. *)
Record levels := mklevels { usual_level : isolation; for_next : option isolation; current : option (isolation * bool); made : list (msg * how) }.
Definition next_level (s : levels) : isolation := match for_next s with Some l => l | None => usual_level s end.

Definition says (m : msg) (s : string) : bool := match m with MStmtExecute q _ => is_one_of q [s2b s] | _ => false end.
Definition level_set_by (m : msg) : option isolation :=
  if says m "SET TRANSACTION ISOLATION LEVEL READ UNCOMMITTED" then Some ReadUncommitted
  else if says m "SET TRANSACTION ISOLATION LEVEL READ COMMITTED" then Some ReadCommitted
  else if says m "SET TRANSACTION ISOLATION LEVEL REPEATABLE READ" then Some RepeatableRead
  else if says m "SET TRANSACTION ISOLATION LEVEL SERIALIZABLE" then Some Serializable
  else None.
Definition repeatable (l : isolation) : bool := match l with RepeatableRead => true | _ => false end.

Definition watch1 (s : levels) (t : msg * outcome) : levels :=
  match snd t with
  | Executed =>
      match effect_of (fst t) with
      | SetsLevel => mklevels (usual_level s) (level_set_by (fst t)) (current s) (made s)
      | Begins => mklevels (usual_level s) None
                    (Some (next_level s, says (fst t) "START TRANSACTION WITH CONSISTENT SNAPSHOT" && repeatable (next_level s))) (made s)
      | Commits => mklevels (usual_level s) None None (made s)
      | Changes =>
          match current s with
          | Some (l, snapshot) => mklevels (usual_level s) (for_next s) (current s) (made s ++ [(fst t, InTransaction l snapshot)])
          | None => mklevels (usual_level s) None None (made s ++ [(fst t, Alone (next_level s))])
          end
      | Nothing => s
      end
  | Failed | Skipped => s
  end.
Definition watch (tr : list (msg * outcome)) (s : levels) : levels := fold_left watch1 tr s.
