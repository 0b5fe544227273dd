(* Specification: data and SQL. Which statement texts a unit of work may contain, and what it means
   that two programs differ in their data only. *)
From Coq Require Import String List NArith ZArith Bool.
From Coq Require Import List.
From Verif Require Import Base GoSlice SpecWire SpecMsg Text Values SpecValue MsgModel Builder SpecProg.
Import ListNotations.
Open Scope N_scope.
Open Scope list_scope.

(* ---- where the texts come from ---- *)

(* The program may make a call of the kind P, for some results of its InsertRow calls. *)
Inductive may (P : call -> Prop) : prog -> Prop :=
| May_here lvl c next : P c -> may P (PCall lvl c next)
| May_after_call lvl c next : may P next -> may P (PCall lvl c next)
| May_after_row lvl name cols row next o : may P (next o) -> may P (PInsertRow lvl name cols row next)
| May_inside lvl k body next : may P body -> may P (PBlock lvl k body next)
| May_after_block lvl k body next out : may P (next out) -> may P (PBlock lvl k body next).

(* The texts of Tx. *)
Definition tx_texts : list bytes := map s2b
  ["SET TRANSACTION ISOLATION LEVEL READ UNCOMMITTED"; "SET TRANSACTION ISOLATION LEVEL READ COMMITTED";
   "SET TRANSACTION ISOLATION LEVEL REPEATABLE READ"; "SET TRANSACTION ISOLATION LEVEL SERIALIZABLE";
   "START TRANSACTION"; "START TRANSACTION WITH CONSISTENT SNAPSHOT"; "COMMIT"]%string.

(* The text of InsertRow, with some number. *)
Definition row_text (stmt : bytes) : Prop :=
  exists number, number <> [] /\ Forall (fun b => 48 <= b <= 57) number /\
    stmt = s2b "SET @id$" ++ number ++ s2b " = LAST_INSERT_ID()".

(* A statement to be executed is one the program passed to StmtExecute, or one of Tx or InsertRow;
   a statement to be prepared is one the program passed to Prepare. *)
Definition text_from (pr : prog) (m : msg) : Prop :=
  match m with
  | MStmtExecute stmt args =>
      may (fun c => exists args', c = CStmtExecute stmt args') pr \/ args = [] /\ (In stmt tx_texts \/ row_text stmt)
  | MPrepare id stmt => may (eq (CPrepare id stmt)) pr
  | _ => True
  end.

(* ---- programs that differ in their data only ---- *)

(* Plain Go data: anything but expressions, behind any number of pointers. A type with its own
   AppendExpr is data if it encodes itself as a literal. *)
Fixpoint plain_data (v : gvalue) : Prop :=
  match v with
  | VFunc _ => False
  | VPtr _ v => plain_data v
  | VUser _ (Some u) => exists s, appends_expr u (XLiteral s)
  | VUser _ None => False
  | _ => True
  end.

(* R pairs the variables of InsertRow in the one program with those in the other. *)
Definition renaming := list (bytes * bytes).

(* The same expression, but for its data. *)
Inductive same_value (R : renaming) : gvalue -> gvalue -> Prop :=
| SV_data v v' : plain_data v -> plain_data v' -> same_value R v v'
| SV_ptr i v i' v' : same_value R v v' -> same_value R (VPtr i v) (VPtr i' v')
| SV_func f f' : same_fun R f f' -> same_value R (VFunc (Some f)) (VFunc (Some f'))
| SV_user a u a' : same_value R (VUser a (Some u)) (VUser a' (Some u))
with same_fun (R : renaming) : exprfun -> exprfun -> Prop :=
| SF_column name : same_fun R (EColumn name) (EColumn name)
| SF_placeholder n : same_fun R (EPlaceholder n) (EPlaceholder n)
| SF_variable name : same_fun R (EVariable name) (EVariable name)
| SF_row i i' : In (i, i') R -> same_fun R (EVariable i) (EVariable i')
| SF_operator name ps ps' : Forall2 (same_value R) ps ps' -> same_fun R (EOperator name ps) (EOperator name ps')
| SF_call name ps ps' : Forall2 (same_value R) ps ps' -> same_fun R (ECall name ps) (ECall name ps')
| SF_user u : same_fun R (EUserFn u) (EUserFn u).

Inductive same_criteria (R : renaming) : option exprfun -> option exprfun -> Prop :=
| SC_none : same_criteria R None None
| SC_some f f' : same_fun R f f' -> same_criteria R (Some f) (Some f').
Definition same_set (R : renaming) (a b : bytes * gvalue) : Prop := fst a = fst b /\ same_value R (snd a) (snd b).

(* The same call, but for its data: as many arguments, of any kind. *)
Inductive same_call (R : renaming) : call -> call -> Prop :=
| SA_stmt stmt args args' : length args = length args' -> same_call R (CStmtExecute stmt args) (CStmtExecute stmt args')
| SA_prepare id stmt : same_call R (CPrepare id stmt) (CPrepare id stmt)
| SA_execute id args args' : length args = length args' -> same_call R (CExecute id args) (CExecute id args')
| SA_deallocate id : same_call R (CDeallocate id) (CDeallocate id)
| SA_insert name cols rows rows' : Forall2 (Forall2 (same_value R)) rows rows' -> same_call R (CInsert name cols rows) (CInsert name cols rows')
| SA_insert_f name cols ops ops' e e' : Forall2 (Forall2 (same_value R)) (rows_of ops) (rows_of ops') ->
    same_call R (CInsertF name cols ops e) (CInsertF name cols ops' e')
| SA_update name cr cr' set set' : same_criteria R cr cr' -> Forall2 (same_set R) set set' -> same_call R (CUpdate name cr set) (CUpdate name cr' set')
| SA_update_f name cr cr' ops ops' e e' : same_criteria R cr cr' -> Forall2 (same_set R) (sets_of ops) (sets_of ops') ->
    same_call R (CUpdateF name cr ops e) (CUpdateF name cr' ops' e')
| SA_delete name cr cr' : same_criteria R cr cr' -> same_call R (CDelete name cr) (CDelete name cr').

Inductive same_result (R : renaming) : option exprfun -> option exprfun -> Prop :=
| SR_none : same_result R None None
| SR_some f f' : same_fun R f f' -> same_result R (Some f) (Some f').

(* The same program, but for the data: what comes after an InsertRow may use the variable it gave. *)
Inductive same_prog (R : renaming) : prog -> prog -> Prop :=
| SP_ret e e' out out' : Forall2 (same_result R) out out' -> same_prog R (Ret e out) (Ret e' out')
| SP_call c c' next next' : same_call R c c' -> same_prog R next next' -> same_prog R (PCall 0 c next) (PCall 0 c' next')
| SP_row name cols row row' next next' : Forall2 (same_value R) row row' ->
    (forall i i', same_prog ((i, i') :: R) (next (Some (EVariable i))) (next' (Some (EVariable i')))) ->
    same_prog R (PInsertRow 0 name cols row next) (PInsertRow 0 name cols row' next')
| SP_block k body body' next next' : same_prog R body body' ->
    (forall R' out out', incl R R' -> Forall2 (same_result R') out out' -> same_prog R' (next out) (next' out')) ->
    same_prog R (PBlock 0 k body next) (PBlock 0 k body' next').

(* ---- messages that differ in their data only ---- *)

Inductive same_expr (R : renaming) : expr -> expr -> Prop :=
| SE_literal s s' : same_expr R (XLiteral s) (XLiteral s')
| SE_same e : same_expr R e e
| SE_row i i' : In (i, i') R -> same_expr R (XVariable i) (XVariable i')
| SE_operator name es es' : Forall2 (same_expr R) es es' -> same_expr R (XOperator name es) (XOperator name es')
| SE_call name es es' : Forall2 (same_expr R) es es' -> same_expr R (XCall name es) (XCall name es').

Inductive same_filter (R : renaming) : option expr -> option expr -> Prop :=
| SI_none : same_filter R None None
| SI_some e e' : same_expr R e e' -> same_filter R (Some e) (Some e').

(* The same message, but for its scalars and the numbers of InsertRow's variables. *)
Inductive same_msg (R : renaming) : msg -> msg -> Prop :=
| SM_stmt stmt ss ss' : length ss = length ss' -> same_msg R (MStmtExecute stmt ss) (MStmtExecute stmt ss')
| SM_row i i' : In (i, i') R -> same_msg R (set_last_id i) (set_last_id i')
| SM_prepare id stmt : same_msg R (MPrepare id stmt) (MPrepare id stmt)
| SM_execute id ss ss' : length ss = length ss' -> same_msg R (MExecute id ss) (MExecute id ss')
| SM_deallocate id : same_msg R (MDeallocate id) (MDeallocate id)
| SM_insert t dm cols ess ess' : Forall2 (Forall2 (same_expr R)) ess ess' -> same_msg R (MInsert t dm cols ess) (MInsert t dm cols ess')
| SM_update t dm c c' sets sets' : same_filter R c c' ->
    Forall2 (fun a b => fst a = fst b /\ same_expr R (snd a) (snd b)) sets sets' -> same_msg R (MUpdate t dm c sets) (MUpdate t dm c' sets')
| SM_delete t dm c c' : same_filter R c c' -> same_msg R (MDelete t dm c) (MDelete t dm c')
| SM_open op cs : same_msg R (MExpectOpen op cs) (MExpectOpen op cs)
| SM_close : same_msg R MExpectClose MExpectClose.
