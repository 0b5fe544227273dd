(* What a MySQL session remembers of the ids of the rows it inserts: LAST_INSERT_ID() and user variables. *)
From Coq Require Import String List NArith Bool.
From Coq Require Import List.
From Verif Require Import Base SpecMsg Values Builder SpecProg SpecServer.
Import ListNotations.
Open Scope list_scope.

Record memory := mkmem { last_id : N; variable : bytes -> option N }.
Definition bytes_eqb (a b : bytes) : bool := if list_eq_dec N.eq_dec a b then true else false.
Definition assign (v : bytes) (n : N) (s : memory) : memory := mkmem (last_id s) (fun w => if bytes_eqb v w then Some n else variable s w).

(* One message. SET id = LAST_INSERT_ID() copies the last id. Any other message may change the last id
   (to the id of the row, if it inserts one), and those variables it touches. A message that fails does not
   touch variables. *)
Inductive remembers (touches : msg -> bytes -> Prop) : msg * outcome -> memory -> memory -> Prop :=
| R_set id s : remembers touches (set_last_id id, Executed) s (assign id (last_id s) s)
| R_executed m s s' : (forall id, m <> set_last_id id) -> (forall v, ~ touches m v -> variable s' v = variable s v) -> remembers touches (m, Executed) s s'
| R_failed m s n : remembers touches (m, Failed) s (mkmem n (variable s))
| R_skipped m s : remembers touches (m, Skipped) s s.
Inductive remembers_all (touches : msg -> bytes -> Prop) : list (msg * outcome) -> memory -> memory -> Prop :=
| RA_nil s : remembers_all touches [] s s
| RA_cons t tr s s1 s' : remembers touches t s s1 -> remembers_all touches tr s1 s' -> remembers_all touches (t :: tr) s s'.

(* The calls a program may make (InsertRow apart), whatever variables InsertRow gives it. *)
Inductive may_make : prog -> call -> Prop :=
| K_here d c next : may_make (PCall d c next) c
| K_next d c next c' : may_make next c' -> may_make (PCall d c next) c'
| K_row d name cols row next id c : may_make (next (Some (EVariable id))) c -> may_make (PInsertRow d name cols row next) c
| K_body d k body next c : may_make body c -> may_make (PBlock d k body next) c
| K_after d k body next out c : may_make (next out) c -> may_make (PBlock d k body next) c.
(* None of them is the statement InsertRow would use to set id. *)
Definition no_clash (pr : prog) (id : bytes) : Prop := forall c m, may_make pr c -> call_denotes c m -> m <> set_last_id id.
