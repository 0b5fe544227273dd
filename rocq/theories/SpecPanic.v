(* Specification: which calls panic, and which steps of a program do. *)
From Coq Require Import String List NArith ZArith Bool.
From Coq Require Import List.
From Verif Require Import Base GoSlice SpecWire SpecMsg Text Values SpecValue MsgModel Builder SpecProg SpecUnit SpecError.
Import ListNotations.
Open Scope N_scope.

(* User code that panics; that fails with e and returns at least the slice it was given; that fails
   with e and returns nil instead of a slice. Whatever it is given. *)
Definition crashes (u : ufun) : Prop := forall p tag, u p tag = Panic.
Definition reports (u : ufun) (e : err) : Prop := forall p tag, exists q, u p tag = Ok (q, Some e) /\ (len p <= len q)%nat.
Definition loses (u : ufun) (e : err) : Prop := forall p tag, u p tag = Ok (nil_slice, Some e).

(* Statement arguments that panic: user code that does, also behind pointers, and nil pointers to
   types with an AppendAny method (it has a value receiver). *)
Inductive arg_panics : gvalue -> Prop :=
| AP_nilptr m : arg_panics (VNilPtr true m)
| AP_user u m : crashes u -> arg_panics (VUser (Some u) m)
| AP_ptr i v : arg_panics v -> arg_panics (VPtr i v).

(* Expressions that panic: nil functions, nil pointers to types with an AppendExpr method, user code
   that does, and operators and function calls whose first faulty parameter does. *)
Inductive expr_panics : gvalue -> Prop :=
| XP_nilfunc : expr_panics (VFunc None)
| XP_nilptr a : expr_panics (VNilPtr a true)
| XP_user a u : crashes u -> expr_panics (VUser a (Some u))
| XP_ptr_user a u : crashes u -> expr_panics (VPtr false (VUser a (Some u)))
| XP_func f : fun_panics f -> expr_panics (VFunc (Some f))
with fun_panics : exprfun -> Prop :=
| FP_user u : crashes u -> fun_panics (EUserFn u)
| FP_operator name before x after : Forall expr_accepted before -> expr_panics x -> fun_panics (EOperator name (before ++ x :: after))
| FP_call name before x after : Forall expr_accepted before -> expr_panics x -> fun_panics (ECall name (before ++ x :: after)).

(* Expressions that fail without giving back the slice: because of user code that does, which may be
   the first faulty parameter. *)
Inductive expr_loses : gvalue -> Prop :=
| XL_user a u e : loses u e -> expr_loses (VUser a (Some u))
| XL_ptr_user a u e : loses u e -> expr_loses (VPtr false (VUser a (Some u)))
| XL_func f : fun_loses f -> expr_loses (VFunc (Some f))
with fun_loses : exprfun -> Prop :=
| FL_user u e : loses u e -> fun_loses (EUserFn u)
| FL_operator name before x after : Forall expr_accepted before -> expr_loses x -> fun_loses (EOperator name (before ++ x :: after))
| FL_call name before x after : Forall expr_accepted before -> expr_loses x -> fun_loses (ECall name (before ++ x :: after)).

(* The first faulty column panics / loses the slice. *)
Inductive row_panics : list gvalue -> Prop :=
| RP before x after : Forall expr_accepted before -> expr_panics x -> row_panics (before ++ x :: after).
Inductive row_loses : list gvalue -> Prop :=
| RL before x after : Forall expr_accepted before -> expr_loses x -> row_loses (before ++ x :: after).

(* Calls that panic: the first faulty part does; the callback of InsertF or UpdateF uses an
   enclosing builder; or the first faulty part of an InsertF, UpdateF or Delete loses the slice. *)
Inductive call_panics : call -> Prop :=
| CP_stmt stmt before x after : Forall arg_accepted before -> arg_panics x -> call_panics (CStmtExecute stmt (before ++ x :: after))
| CP_execute id before x after : Forall arg_accepted before -> arg_panics x -> call_panics (CExecute id (before ++ x :: after))
| CP_insert name cols before row after :
    Forall (fun row => length row = length cols /\ Forall expr_accepted row) before -> length row = length cols -> row_panics row ->
    call_panics (CInsert name cols (before ++ row :: after))
| CP_insert_f name cols before row after cberr : Forall iop_accepted before -> row_panics row \/ row_loses row ->
    call_panics (CInsertF name cols (before ++ IRow row :: after) cberr)
| CP_insert_f_outer name cols ops lvl cberr : In (IOuter lvl) ops -> call_panics (CInsertF name cols ops cberr)
| CP_update_criteria name f set : fun_panics f -> call_panics (CUpdate name (Some f) set)
| CP_update name cr before k x after : opt fun_accepted cr -> Forall (fun kv => expr_accepted (snd kv)) before -> expr_panics x ->
    call_panics (CUpdate name cr (before ++ (k, x) :: after))
| CP_update_f_criteria name f ops cberr : fun_panics f \/ fun_loses f -> call_panics (CUpdateF name (Some f) ops cberr)
| CP_update_f name cr before k x after cberr : opt fun_accepted cr -> Forall uop_accepted before -> expr_panics x \/ expr_loses x ->
    call_panics (CUpdateF name cr (before ++ USet k x :: after) cberr)
| CP_update_f_outer name cr ops lvl cberr : In (UOuter lvl) ops -> call_panics (CUpdateF name cr ops cberr)
| CP_delete name f : fun_panics f \/ fun_loses f -> call_panics (CDelete name (Some f)).

(* The program's next step panics on the builder of the running callback, whose error is e. *)
Inductive step_panics (e : option err) : prog -> Prop :=
| SP_call_outer lvl c next : step_panics e (PCall (S lvl) c next)
| SP_row_outer lvl name cols row next : step_panics e (PInsertRow (S lvl) name cols row next)
| SP_block_outer lvl k body next : step_panics e (PBlock (S lvl) k body next)
| SP_call c next : e = None -> call_panics c -> step_panics e (PCall 0 c next)
| SP_row name cols row next : e = None -> row_panics row -> step_panics e (PInsertRow 0 name cols row next).

(* The program's next step is on the builder of the running callback, does not panic, and reports e. *)
Inductive step_reports (e : err) : prog -> Prop :=
| SR_call c next : call_error c e -> ~ call_panics c -> step_reports e (PCall 0 c next)
| SR_row name cols row next : row_error row e -> ~ row_panics row -> step_reports e (PInsertRow 0 name cols row next)
| SR_level level body next : tx_opening level = None -> e = EIsolation -> step_reports e (PBlock 0 (KTx level) body next).

(* User code that always does the same: appends the encoding of one value, fails with one error
   (returning at least what it was given, or nil), or panics. *)
Definition decides_any (u : ufun) : Prop := (exists s, appends_any u s) \/ (exists e, raises u e) \/ crashes u.
Definition decides_expr (u : ufun) : Prop :=
  (exists x, appends_expr u x) \/ (exists e, reports u e) \/ (exists e, loses u e) \/ crashes u.
Fixpoint decided (v : gvalue) : Prop :=
  match v with
  | VFunc (Some f) => decided_fun f
  | VPtr _ v => decided v
  | VUser a e => opt decides_any a /\ opt decides_expr e
  | _ => True
  end
with decided_fun (f : exprfun) : Prop :=
  match f with
  | EOperator _ ps | ECall _ ps => all decided ps
  | EUserFn u => decides_expr u
  | _ => True
  end.
Definition call_decided (c : call) : Prop :=
  match c with
  | CStmtExecute _ args | CExecute _ args => Forall decided args
  | CPrepare _ _ | CDeallocate _ => True
  | CInsert _ _ rows => Forall (Forall decided) rows
  | CInsertF _ _ ops _ => Forall (Forall decided) (rows_of ops)
  | CUpdate _ cr set => opt decided_fun cr /\ Forall (fun kv => decided (snd kv)) set
  | CUpdateF _ cr ops _ => opt decided_fun cr /\ Forall (fun kv => decided (snd kv)) (sets_of ops)
  | CDelete _ cr => opt decided_fun cr
  end.
Definition prog_decided : prog -> Prop :=
  prog_all (fun c => call_decided c /\ call_fits c) (fun name cols row => Forall decided row /\ row_fits name cols row) (fun _ => True).
