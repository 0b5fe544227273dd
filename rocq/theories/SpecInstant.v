(* C110: what becomes of the data when servers act on units of work in the order of a timeline. *)
From Coq Require Import String List NArith Arith Bool.
From Coq Require Import List.
From Verif Require Import Base GoSlice SpecMsg MsgModel Builder SpecProg SpecServer SpecSession SpecReply SpecUnit SpecCommit Flow Overlap SpecOverlap.
From Verif Require ThmTx.
Import ListNotations.
Open Scope list_scope.

(* The data, which all sessions share, and the sessions: call i has session i.
   read: how many of its messages the session has dealt with; transaction: the changes of its transaction in progress; stored: the durable changes, in order;
   committed: the calls whose COMMIT has been executed, in the order of that. *)
Record database := mkdb { read : nat -> nat; transaction : nat -> option (list msg); stored : list msg; committed : list nat }.
Definition fresh : database := mkdb (fun _ => 0%nat) (fun _ => None) [] [].

Definition put {A} (i : nat) (x : A) (f : nat -> A) : nat -> A := fun j => if Nat.eqb j i then x else f j.
Definition commits (t : msg * outcome) : bool := match effect_of (fst t), snd t with Commits, Executed => true | _, _ => false end.

(* does i: what the server does with the messages of call i, one after the other. Each does to the data what it does in SpecSession. *)
Definition happens (does : nat -> list (msg * outcome)) (db : database) (e : event) : database :=
  match e with
  | Handled i _ =>
      match nth_error (does i) (read db i) with
      | Some t =>
          let s := play1 (mksess (transaction db i) (stored db)) t in
          mkdb (put i (S (read db i)) (read db)) (put i (in_progress s) (transaction db)) (durable s) (committed db ++ if commits t then [i] else [])
      | None => db
      end
  | Began _ | Ended _ _ _ => db
  end.
Definition data_after (does : nat -> list (msg * outcome)) (tl : list event) : database := fold_left (happens does) tl fresh.

(* A call that sends a unit of work (README.md: expectation block, prepared statements, Tx) whose body has no statements that manage transactions; what the server does with it is
   what a server may do, and its replies tell the truth. *)
Definition works_on `{Env} (propagates : bool) (u : list exchange * server) (tr : list (msg * outcome)) : Prop :=
  served word32 u /\ dstream (request_bytes (fst u)) = Some (map fst tr) /\ serve propagates [] (map fst tr) tr /\ Forall2 (fun t x => truth t (seen_as x)) tr (fst u) /\
  exists b context cs level body, empty b /\ Forall ThmTx.prepares cs /\ prog_ok word32 (ThmTx.unit_of_work context cs level body) /\
    delivers b (ThmTx.unit_of_work context cs level body) (request_bytes (fst u)) /\ (nlen (request_bytes (fst u)) < 2 ^ 32)%N /\
    forall ms ids out, prog_msgs body ms ids out -> Forall plain ms /\ (propagates = true \/ Forall ordinary ms).
