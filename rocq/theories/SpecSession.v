(* What the messages of a connection do to the server's data, as far as transactions go
   (MySQL Reference Manual 13.3.1 START TRANSACTION and COMMIT, 13.3.3 Implicit Commit, 13.3.7 SET TRANSACTION):
   - without a transaction every change is durable at once;
   - in a transaction it becomes durable with the COMMIT, or with the next START TRANSACTION, which
     commits the transaction in progress first;
   - the transaction characteristics cannot be changed in a transaction (error 1568);
   - what is not durable when the session ends is lost.
   Messages that may end a transaction by other means (ROLLBACK, DDL statements) are outside of this specification. *)
From Coq Require Import String List NArith Bool.
From Coq Require Import List.
From Verif Require Import Base SpecMsg SpecProg SpecServer.
Import ListNotations.
Open Scope list_scope.

Inductive effect := Begins | Commits | SetsLevel | Changes | Nothing.

Definition is_one_of (s : bytes) (l : list bytes) : bool := if in_dec (list_eq_dec N.eq_dec) s l then true else false.
Definition effect_of (m : msg) : effect :=
  match m with
  | MStmtExecute s _ =>
      if is_one_of s [s2b "START TRANSACTION"; s2b "START TRANSACTION WITH CONSISTENT SNAPSHOT"] then Begins
      else if is_one_of s [s2b "COMMIT"] then Commits
      else if is_one_of s [s2b "SET TRANSACTION ISOLATION LEVEL READ UNCOMMITTED"; s2b "SET TRANSACTION ISOLATION LEVEL READ COMMITTED";
                           s2b "SET TRANSACTION ISOLATION LEVEL REPEATABLE READ"; s2b "SET TRANSACTION ISOLATION LEVEL SERIALIZABLE"] then SetsLevel
      else Changes (* any other statement is taken to change data *)
  | MInsert _ _ _ _ | MUpdate _ _ _ _ | MDelete _ _ _ | MExecute _ _ => Changes
  | _ => Nothing
  end.
(* The message does not manage transactions. *)
Definition plain (m : msg) : Prop := effect_of m = Changes \/ effect_of m = Nothing.
(* Those of the messages that change data. *)
Definition changes (ms : list msg) : list msg := filter (fun m => match effect_of m with Changes => true | _ => false end) ms.

(* The changes of the transaction in progress, if there is one, and the durable changes of the session. *)
Record session := mksess { in_progress : option (list msg); durable : list msg }.
Definition pending (s : session) : list msg := match in_progress s with Some p => p | None => [] end.

Definition play1 (s : session) (t : msg * outcome) : session :=
  match snd t with
  | Executed =>
      match effect_of (fst t) with
      | Begins => mksess (Some []) (durable s ++ pending s)
      | Commits => mksess None (durable s ++ pending s)
      | Changes =>
          match in_progress s with
          | Some p => mksess (Some (p ++ [fst t])) (durable s)
          | None => mksess None (durable s ++ [fst t])
          end
      | SetsLevel | Nothing => s
      end
  | Failed | Skipped => s
  end.
Definition play (tr : list (msg * outcome)) (s : session) : session := fold_left play1 tr s.

(* The server may do this: it rejects changes of transaction characteristics in a transaction. *)
Definition lawful (s : session) (tr : list (msg * outcome)) : Prop :=
  forall tr1 m tr2, tr = tr1 ++ (m, Executed) :: tr2 -> effect_of m = SetsLevel -> in_progress (play tr1 s) = None.
