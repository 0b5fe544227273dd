(* The prepared statements of a MySQL session (mysqlx_prepare.proto): the client gives them numbers. *)
From Coq Require Import String List NArith Bool.
From Coq Require Import List.
From Verif Require Import Base SpecMsg SpecServer.
Import ListNotations.
Open Scope N_scope.

(* The texts of the statements that are prepared. They outlive the unit of work: the table belongs to the session. *)
Definition table := N -> option bytes.
Definition put (id : N) (s : option bytes) (t : table) : table := fun i => if i =? id then s else t i.

Definition about_statements (m : msg) : bool := match m with MPrepare _ _ | MExecute _ _ | MDeallocate _ => true | _ => false end.

(* One message. Only what is prepared can be executed; deallocating fails only for what is not prepared.
   forgets: a Prepare that fails removes the statement that had the number before. *)
Inductive changes_table (forgets : bool) : msg * outcome -> table -> table -> Prop :=
| T_prepare id s t : changes_table forgets (MPrepare id s, Executed) t (put id (Some s) t)
| T_prepare_failed id s t : changes_table forgets (MPrepare id s, Failed) t (if forgets then put id None t else t)
| T_execute id args t s : t id = Some s -> changes_table forgets (MExecute id args, Executed) t t
| T_execute_failed id args t : changes_table forgets (MExecute id args, Failed) t t
| T_deallocate id t s : t id = Some s -> changes_table forgets (MDeallocate id, Executed) t (put id None t)
| T_deallocate_failed id t : t id = None -> changes_table forgets (MDeallocate id, Failed) t t
| T_other m o t : about_statements m = false -> changes_table forgets (m, o) t t
| T_skipped m t : changes_table forgets (m, Skipped) t t.
Inductive changes_tables (forgets : bool) : list (msg * outcome) -> table -> table -> Prop :=
| TS_nil t : changes_tables forgets [] t t
| TS_cons x tr t t1 t' : changes_table forgets x t t1 -> changes_tables forgets tr t1 t' -> changes_tables forgets (x :: tr) t t'.

(* The last thing the messages do with the number id is to prepare text. *)
Definition last_prepared (ms : list msg) (id : N) (text : bytes) : Prop :=
  exists a b, ms = a ++ MPrepare id text :: b /\ (forall s, ~ In (MPrepare id s) b) /\ ~ In (MDeallocate id) b.
