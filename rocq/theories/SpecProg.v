(* Specification: the messages a program of builder calls stands for. *)
From Coq Require Import String List NArith ZArith Bool.
From Coq Require Import List.
From Verif Require Import Base GoSlice SpecWire SpecMsg Text Values SpecValue MsgModel Builder.
Import ListNotations.
Open Scope N_scope.

(* mysqlx_crud.proto: DataModel.TABLE *)
Definition table_model : N := 2.

(* The rows / sets the callback of InsertF / UpdateF adds. *)
Fixpoint rows_of (ops : list iop) : list (list gvalue) :=
  match ops with
  | [] => []
  | IRow row :: ops => row :: rows_of ops
  | IOuter _ :: ops => rows_of ops
  end.
Fixpoint sets_of (ops : list uop) : list (bytes * gvalue) :=
  match ops with
  | [] => []
  | USet name v :: ops => (name, v) :: sets_of ops
  | UOuter _ :: ops => sets_of ops
  end.

Inductive criteria_denotes : option exprfun -> option expr -> Prop :=
| Cr_none : criteria_denotes None None
| Cr_some f e : fun_denotes f e -> criteria_denotes (Some f) (Some e).

Definition set_denotes (kv : bytes * gvalue) (se : bytes * expr) : Prop :=
  fst kv = fst se /\ expr_denotes (snd kv) (snd se).

(* One builder call is one message. (Delete does not say that it addresses a table.) *)
Inductive call_denotes : call -> msg -> Prop :=
| D_stmt stmt args ss : Forall2 any_denotes args ss -> call_denotes (CStmtExecute stmt args) (MStmtExecute stmt ss)
| D_prepare id stmt : call_denotes (CPrepare id stmt) (MPrepare id stmt)
| D_execute id args ss : Forall2 any_denotes args ss -> call_denotes (CExecute id args) (MExecute id ss)
| D_deallocate id : call_denotes (CDeallocate id) (MDeallocate id)
| D_insert name cols rows ess :
    Forall (fun row => length row = length cols) rows -> Forall2 (Forall2 expr_denotes) rows ess ->
    call_denotes (CInsert name cols rows) (MInsert name (Some table_model) cols ess)
| D_insert_f name cols ops cberr ess : Forall2 (Forall2 expr_denotes) (rows_of ops) ess ->
    call_denotes (CInsertF name cols ops cberr) (MInsert name (Some table_model) cols ess)
| D_update name cr set c sets : criteria_denotes cr c -> Forall2 set_denotes set sets ->
    call_denotes (CUpdate name cr set) (MUpdate name (Some table_model) c sets)
| D_update_f name cr ops cberr c sets : criteria_denotes cr c -> Forall2 set_denotes (sets_of ops) sets ->
    call_denotes (CUpdateF name cr ops cberr) (MUpdate name (Some table_model) c sets)
| D_delete name cr c : criteria_denotes cr c -> call_denotes (CDelete name cr) (MDelete name None c).

(* What Go's types guarantee about the arguments of a call, plus: no known defect (SpecValue). *)
Definition values_ok (w32 : bool) (vs : list gvalue) : Prop :=
  Forall (fun v => well_formed w32 v /\ no_known_defect w32 v) vs.
Definition fun_ok (w32 : bool) (f : exprfun) : Prop := well_formed_fun w32 f /\ no_known_defect_fun w32 f.
Definition sets_ok (w32 : bool) (set : list (bytes * gvalue)) : Prop :=
  Forall (fun kv => go_string (fst kv)) set /\ values_ok w32 (map snd set).

Definition call_ok (w32 : bool) (c : call) : Prop :=
  match c with
  | CStmtExecute stmt args => go_string stmt /\ values_ok w32 args
  | CPrepare id stmt => id < 2 ^ 32 /\ go_string stmt
  | CExecute id args => id < 2 ^ 32 /\ values_ok w32 args
  | CDeallocate id => id < 2 ^ 32
  | CInsert name cols rows => go_string name /\ Forall go_string cols /\ Forall (values_ok w32) rows
  | CInsertF name cols ops _ => go_string name /\ Forall go_string cols /\ Forall (values_ok w32) (rows_of ops)
  | CUpdate name cr set => go_string name /\ opt (fun_ok w32) cr /\ sets_ok w32 set
  | CUpdateF name cr ops _ => go_string name /\ opt (fun_ok w32) cr /\ sets_ok w32 (sets_of ops)
  | CDelete name cr => go_string name /\ opt (fun_ok w32) cr
  end.

(* Nothing run during the call panics of itself: values without panics, no use of outer builders. *)
Definition iop_quiet (o : iop) : Prop := match o with IRow row => Forall panic_free row | IOuter _ => False end.
Definition uop_quiet (o : uop) : Prop := match o with USet _ v => panic_free v | UOuter _ => False end.
Definition call_quiet (c : call) : Prop :=
  match c with
  | CStmtExecute _ args | CExecute _ args => Forall panic_free args
  | CPrepare _ _ | CDeallocate _ => True
  | CInsert _ _ rows => Forall (Forall panic_free) rows
  | CInsertF _ _ ops _ => Forall iop_quiet ops
  | CUpdate _ cr set => opt panic_free_fun cr /\ Forall (fun kv => panic_free (snd kv)) set
  | CUpdateF _ cr ops _ => opt panic_free_fun cr /\ Forall uop_quiet ops
  | CDelete _ cr => opt panic_free_fun cr
  end.

(* The call is one the API accepts: supported values, rows as long as the column list (checked by
   Insert only), and no use of outer builders. *)
Definition iop_accepted (o : iop) : Prop := match o with IRow row => Forall expr_accepted row | IOuter _ => False end.
Definition uop_accepted (o : uop) : Prop := match o with USet _ v => expr_accepted v | UOuter _ => False end.
Definition call_accepted (c : call) : Prop :=
  match c with
  | CStmtExecute _ args | CExecute _ args => Forall arg_accepted args
  | CPrepare _ _ | CDeallocate _ => True
  | CInsert _ cols rows => Forall (fun row => length row = length cols /\ Forall expr_accepted row) rows
  | CInsertF _ _ ops _ => Forall iop_accepted ops
  | CUpdate _ cr set => opt fun_accepted cr /\ Forall (fun kv => expr_accepted (snd kv)) set
  | CUpdateF _ cr ops _ => opt fun_accepted cr /\ Forall uop_accepted ops
  | CDelete _ cr => opt fun_accepted cr
  end.

(* A bound for the size of the call's message. *)
Definition name_weight (s : bytes) : N := 512 + nlen s.
Definition row_weight (row : list gvalue) : N := 512 + total_weight weight row.
Definition set_weight (kv : bytes * gvalue) : N := 512 + nlen (fst kv) + weight (snd kv).
Definition criteria_weight (cr : option exprfun) : N := match cr with None => 0 | Some f => fun_weight f end.
Definition call_weight (c : call) : N :=
  match c with
  | CStmtExecute stmt args => name_weight stmt + total_weight weight args
  | CPrepare _ stmt => name_weight stmt
  | CExecute _ args => 512 + total_weight weight args
  | CDeallocate _ => 512
  | CInsert name cols rows => name_weight name + total_weight name_weight cols + total_weight row_weight rows
  | CInsertF name cols ops _ => name_weight name + total_weight name_weight cols + total_weight row_weight (rows_of ops)
  | CUpdate name cr set => name_weight name + criteria_weight cr + total_weight set_weight set
  | CUpdateF name cr ops _ => name_weight name + criteria_weight cr + total_weight set_weight (sets_of ops)
  | CDelete name cr => name_weight name + criteria_weight cr
  end.

(* ---- blocks and programs ---- *)

(* Tx: the documented statements of the six isolation levels. *)
Definition tx_opening (level : N) : option (list bytes) :=
  match level with
  | 0 => Some [s2b "START TRANSACTION"]
  | 1 => Some [s2b "SET TRANSACTION ISOLATION LEVEL READ UNCOMMITTED"; s2b "START TRANSACTION"]
  | 2 => Some [s2b "SET TRANSACTION ISOLATION LEVEL READ COMMITTED"; s2b "START TRANSACTION"]
  | 3 => Some [s2b "SET TRANSACTION ISOLATION LEVEL REPEATABLE READ"; s2b "START TRANSACTION"]
  | 4 => Some [s2b "SET TRANSACTION ISOLATION LEVEL SERIALIZABLE"; s2b "START TRANSACTION"]
  | 5 => Some [s2b "START TRANSACTION WITH CONSISTENT SNAPSHOT"]
  | _ => None
  end.
Definition statement (s : bytes) : msg := MStmtExecute s [].

(* The condition "no error" with value "1" of mysqlx_expect.proto. *)
Definition no_error_1 : cond := CNoError (s2b "1").

Definition opening (k : block) : option (list msg) :=
  match k with
  | KTx level => option_map (map statement) (tx_opening level)
  | KExpectFailOnError context => Some [MExpectOpen context [no_error_1]]
  end.
Definition closing (k : block) : msg :=
  match k with
  | KTx _ => statement (s2b "COMMIT")
  | KExpectFailOnError _ => MExpectClose
  end.

Definition set_last_id (id : bytes) : msg := statement (s2b "SET " ++ id ++ s2b " = LAST_INSERT_ID()").

(* prog_msgs pr ms ids out: a program that uses only the builder of the running callback stands
   for the messages ms, naming ids as the variables of its InsertRow calls, in order; out is what
   its callback hands out. *)
Inductive prog_msgs : prog -> list msg -> list bytes -> list (option exprfun) -> Prop :=
| M_ret cberr out : prog_msgs (Ret cberr out) [] [] out
| M_call c next m ms ids out : call_denotes c m -> prog_msgs next ms ids out -> prog_msgs (PCall 0 c next) (m :: ms) ids out
| M_insert_row name cols row next id es ms ids out :
    Forall2 expr_denotes row es ->
    prog_msgs (next (Some (EVariable id))) ms ids out ->
    prog_msgs (PInsertRow 0 name cols row next)
      (MInsert name (Some table_model) cols [es] :: set_last_id id :: ms) (id :: ids) out
| M_block k body next open ms1 ids1 out1 ms2 ids2 out :
    opening k = Some open -> prog_msgs body ms1 ids1 out1 -> prog_msgs (next out1) ms2 ids2 out ->
    prog_msgs (PBlock 0 k body next) (open ++ ms1 ++ [closing k] ++ ms2) (ids1 ++ ids2) out.

(* An expression function that InsertRow may have returned. *)
Definition row_result (o : option exprfun) : Prop :=
  match o with
  | None => True
  | Some f => exists id, f = EVariable id /\ go_string id /\ nlen id <= 123
  end.

(* Every call in the program has well-formed arguments, whatever InsertRow returns. Expectation
   contexts are the two constants of the API. *)
Fixpoint prog_ok (w32 : bool) (pr : prog) : Prop :=
  match pr with
  | Ret _ out => Forall row_result out
  | PCall _ c next => call_ok w32 c /\ prog_ok w32 next
  | PInsertRow _ name cols row next =>
      go_string name /\ Forall go_string cols /\ values_ok w32 row /\
      forall o, row_result o -> prog_ok w32 (next o)
  | PBlock _ k body next =>
      match k with KTx _ => True | KExpectFailOnError context => context < 2 end /\
      prog_ok w32 body /\ forall out, Forall row_result out -> prog_ok w32 (next out)
  end.

(* ---- which programs run without panicking, and without error ---- *)

(* The program uses only the builder its running callback was given, whatever InsertRow returns. *)
Fixpoint inner_only (pr : prog) : Prop :=
  match pr with
  | Ret _ _ => True
  | PCall lvl _ next => lvl = O /\ inner_only next
  | PInsertRow lvl _ _ _ next => lvl = O /\ forall o, inner_only (next o)
  | PBlock lvl _ body next => lvl = O /\ inner_only body /\ forall out, inner_only (next out)
  end.

(* What InsertRow returns when the builder has no error. *)
Definition row_variable (o : option exprfun) : Prop :=
  exists id, o = Some (EVariable id) /\ go_string id /\ nlen id <= 123.

(* Every call, row and block the program makes, as long as no error occurs, is as described. *)
Fixpoint prog_all (C : call -> Prop) (R : bytes -> list bytes -> list gvalue -> Prop) (K : block -> Prop) (pr : prog) : Prop :=
  match pr with
  | Ret _ out => Forall row_variable out
  | PCall _ c next => C c /\ prog_all C R K next
  | PInsertRow _ name cols row next => R name cols row /\ forall o, row_variable o -> prog_all C R K (next o)
  | PBlock _ k body next => K k /\ prog_all C R K body /\ forall out, Forall row_variable out -> prog_all C R K (next out)
  end.

(* No message of 2^61 bytes (a Go slice is never that long). *)
Definition row_size (name : bytes) (cols : list bytes) (row : list gvalue) : N :=
  name_weight name + total_weight name_weight cols + row_weight row.
Definition call_fits (c : call) : Prop := call_weight c < 2 ^ 61.
Definition row_fits (name : bytes) (cols : list bytes) (row : list gvalue) : Prop := row_size name cols row < 2 ^ 61.

Definition prog_quiet : prog -> Prop :=
  prog_all (fun c => call_quiet c /\ call_fits c) (fun name cols row => Forall panic_free row /\ row_fits name cols row) (fun _ => True).
Definition prog_accepted : prog -> Prop :=
  prog_all (fun c => call_accepted c /\ call_fits c) (fun name cols row => Forall expr_accepted row /\ row_fits name cols row)
    (fun k => opening k <> None).
