(* Specification: which error a call reports, and which call of a program reports the first one. *)
From Coq Require Import String List NArith ZArith Bool.
From Coq Require Import List.
From Verif Require Import Base GoSlice SpecWire SpecMsg Text Values SpecValue MsgModel Builder SpecProg SpecUnit.
Import ListNotations.
Open Scope N_scope.

(* User code that reports e, whatever it is given. *)
Definition raises (u : ufun) (e : err) : Prop := forall p tag, exists q, u p tag = Ok (q, Some e).

(* The error of a statement argument: unsupported type, or what the value's own method reports. *)
Inductive arg_error : gvalue -> err -> Prop :=
| AE_other m : arg_error (VUser None m) EUnsupported
| AE_func f : arg_error (VFunc f) EUnsupported
| AE_user u m e : raises u e -> arg_error (VUser (Some u) m) e
| AE_ptr_nil i : arg_error (VPtr i VNil) EUnsupported
| AE_ptr i v e : arg_error v e -> arg_error (VPtr i v) e.

(* The type has an AppendExpr method. *)
Definition has_expr_method (v : gvalue) : Prop :=
  match v with VUser _ (Some _) => True | _ => is_wrapper v end.

(* The error of an expression: unsupported type, what user code reports, or the position of the
   first faulty parameter with its error. *)
Inductive expr_error : gvalue -> err -> Prop :=
| XE_other a : expr_error (VUser a None) EUnsupported
| XE_user a u e : raises u e -> expr_error (VUser a (Some u)) e
| XE_nilptr a : expr_error (VNilPtr a false) EUnsupported
| XE_ptr i v : i = true \/ ~ has_expr_method v -> expr_error (VPtr i v) EUnsupported
| XE_ptr_user a u e : raises u e -> expr_error (VPtr false (VUser a (Some u))) e
| XE_func f e : fun_error f e -> expr_error (VFunc (Some f)) e
with fun_error : exprfun -> err -> Prop :=
| XF_user u e : raises u e -> fun_error (EUserFn u) e
| XF_operator name before x after e : Forall expr_accepted before -> expr_error x e ->
    fun_error (EOperator name (before ++ x :: after)) (EParam (length before) e)
| XF_call name before x after e : Forall expr_accepted before -> expr_error x e ->
    fun_error (ECall name (before ++ x :: after)) (EParam (length before) e).

(* The error of a row: the first faulty column. *)
Inductive row_error : list gvalue -> err -> Prop :=
| RE before x after e : Forall expr_accepted before -> expr_error x e ->
    row_error (before ++ x :: after) (EColumnErr (length before) e).

(* The error of a call: that of its first faulty part. *)
Inductive call_error : call -> err -> Prop :=
| CE_stmt stmt before x after e : Forall arg_accepted before -> arg_error x e ->
    call_error (CStmtExecute stmt (before ++ x :: after)) e
| CE_execute id before x after e : Forall arg_accepted before -> arg_error x e ->
    call_error (CExecute id (before ++ x :: after)) e
| CE_insert name cols before row after e :
    Forall (fun row => length row = length cols /\ Forall expr_accepted row) before ->
    length row = length cols -> row_error row e ->
    call_error (CInsert name cols (before ++ row :: after)) e
| CE_insert_length name cols before row after :
    Forall (fun row => length row = length cols /\ Forall expr_accepted row) before ->
    length row <> length cols ->
    call_error (CInsert name cols (before ++ row :: after)) (ERowLen (length before) (length cols) (length row))
| CE_insert_f name cols before row after cberr e : Forall iop_accepted before -> row_error row e ->
    call_error (CInsertF name cols (before ++ IRow row :: after) cberr) e
| CE_update_criteria name f set e : fun_error f e -> call_error (CUpdate name (Some f) set) e
| CE_update name cr before k x after e : opt fun_accepted cr -> Forall (fun kv => expr_accepted (snd kv)) before -> expr_error x e ->
    call_error (CUpdate name cr (before ++ (k, x) :: after)) e
| CE_update_f_criteria name f ops cberr e : fun_error f e -> call_error (CUpdateF name (Some f) ops cberr) e
| CE_update_f name cr before k x after cberr e : opt fun_accepted cr -> Forall uop_accepted before -> expr_error x e ->
    call_error (CUpdateF name cr (before ++ USet k x :: after) cberr) e
| CE_delete name f e : fun_error f e -> call_error (CDelete name (Some f)) e.

(* The program's next step is on the builder of the running callback and reports e. *)
Inductive step_error (w32 : bool) (e : err) : prog -> Prop :=
| SE_call c next : call_ok w32 c -> call_fits c -> call_quiet c -> call_error c e -> step_error w32 e (PCall 0 c next)
| SE_row name cols row next : go_string name -> Forall go_string cols -> values_ok w32 row -> row_fits name cols row ->
    Forall panic_free row -> row_error row e -> step_error w32 e (PInsertRow 0 name cols row next)
| SE_level level body next : tx_opening level = None -> e = EIsolation -> step_error w32 e (PBlock 0 (KTx level) body next).

(* The program's next step uses a builder that encloses the running callback. *)
Inductive step_outer : prog -> Prop :=
| SO_call lvl c next : step_outer (PCall (S lvl) c next)
| SO_row lvl name cols row next : step_outer (PInsertRow (S lvl) name cols row next)
| SO_block lvl k body next : step_outer (PBlock (S lvl) k body next)
| SO_insert_f name cols ops cberr lvl next : In (IOuter lvl) ops -> step_outer (PCall 0 (CInsertF name cols ops cberr) next)
| SO_update_f name cr ops cberr lvl next : In (UOuter lvl) ops -> step_outer (PCall 0 (CUpdateF name cr ops cberr) next).

(* Every step is accepted, whatever names InsertRow returns, up to one with T: at top level, inside
   a callback, or after callbacks that returned. *)
Inductive reaches (w32 : bool) (T : prog -> Prop) : prog -> Prop :=
| R_here pr : T pr -> reaches w32 T pr
| R_after_call c next : call_ok w32 c -> call_accepted c -> call_fits c -> reaches w32 T next -> reaches w32 T (PCall 0 c next)
| R_after_row name cols row next : go_string name -> Forall go_string cols -> values_ok w32 row ->
    Forall expr_accepted row -> row_fits name cols row ->
    (forall o, row_variable o -> reaches w32 T (next o)) -> reaches w32 T (PInsertRow 0 name cols row next)
| R_inside k body next : opening k <> None -> match k with KTx _ => True | KExpectFailOnError context => context < 2 end ->
    reaches w32 T body -> reaches w32 T (PBlock 0 k body next)
| R_after_block k body next : opening k <> None -> match k with KTx _ => True | KExpectFailOnError context => context < 2 end ->
    prog_ok w32 body -> inner_only body -> prog_accepted body ->
    (forall out, Forall row_variable out -> reaches w32 T (next out)) -> reaches w32 T (PBlock 0 k body next).

(* User code that does one thing or the other: appends the encoding of one value, or reports one error. *)
Definition answers {A} (decode : bytes -> option A) (u : ufun) : Prop := (exists x, appends decode u x) \/ exists e, raises u e.
Fixpoint settled (v : gvalue) : Prop :=
  match v with
  | VFunc (Some f) => settled_fun f
  | VPtr _ v => settled v
  | VUser a e => opt (answers dany) a /\ opt (answers dexpr) e
  | _ => True
  end
with settled_fun (f : exprfun) : Prop :=
  match f with
  | EOperator _ ps | ECall _ ps => all settled ps
  | EUserFn u => answers dexpr u
  | _ => True
  end.
Definition call_settled (c : call) : Prop :=
  match c with
  | CStmtExecute _ args | CExecute _ args => Forall settled args
  | CPrepare _ _ | CDeallocate _ => True
  | CInsert _ _ rows => Forall (Forall settled) rows
  | CInsertF _ _ ops _ => Forall (Forall settled) (rows_of ops)
  | CUpdate _ cr set => opt settled_fun cr /\ Forall (fun kv => settled (snd kv)) set
  | CUpdateF _ cr ops _ => opt settled_fun cr /\ Forall (fun kv => settled (snd kv)) (sets_of ops)
  | CDelete _ cr => opt settled_fun cr
  end.

(* While pr runs on the builders st (innermost first), the program t is about to run on st'. *)
Inductive during `{Env} : prog -> list builder -> prog -> list builder -> Prop :=
| D_now pr st : during pr st pr st
| D_after_call lvl c next st b b' t st' : nth_error st lvl = Some b ->
    exec_call (set_nth (map disabled st) lvl true) c b = Ok b' -> during next (set_nth st lvl b') t st' ->
    during (PCall lvl c next) st t st'
| D_after_row lvl name cols row next st b b' o t st' : nth_error st lvl = Some b ->
    b_insert_row name cols row b = Ok (b', o) -> during (next o) (set_nth st lvl b') t st' ->
    during (PInsertRow lvl name cols row next) st t st'
| D_inside lvl k body next st b b1 t st' : nth_error st lvl = Some b -> block_begin k b = Ok (b1, true) ->
    during body (mkb (buf b1) (berr b1) false :: set_nth st lvl (mkb (buf b1) (berr b1) true)) t st' ->
    during (PBlock lvl k body next) st t st'
| D_after_block lvl k body next st b b1 child st2 out b2 t st' : nth_error st lvl = Some b -> block_begin k b = Ok (b1, true) ->
    run body (mkb (buf b1) (berr b1) false :: set_nth st lvl (mkb (buf b1) (berr b1) true)) = Ok (child :: st2, out) ->
    block_end k (mkb (buf child) (berr child) false) = Ok b2 -> during (next out) (set_nth st2 lvl b2) t st' ->
    during (PBlock lvl k body next) st t st'
| D_not_entered lvl k body next st b b1 t st' : nth_error st lvl = Some b -> block_begin k b = Ok (b1, false) ->
    during (next []) (set_nth st lvl b1) t st' -> during (PBlock lvl k body next) st t st'.

(* Programs without panics of their own, with settled user code, and with no message of 2^61 bytes. *)
Definition prog_settled : prog -> Prop :=
  prog_all (fun c => call_quiet c /\ call_settled c /\ call_fits c)
    (fun name cols row => Forall panic_free row /\ Forall settled row /\ row_fits name cols row) (fun _ => True).
