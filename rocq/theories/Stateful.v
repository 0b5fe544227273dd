(* Builder calls whose arguments have encoders of their own with state: AppendAny and AppendExpr methods and AppendExprFuncs that count, read from a source,
   or do something else to the world each time they are called. In Values.ufun an encoder is a function of the slice and the tag only. *)
From Coq Require Import String List NArith ZArith Arith.
From Coq Require Import List.
From Verif Require Import Base GoSlice Varint Text Values AnyModel ExprModel MsgModel Builder.
Import ListNotations.

Section World.
(* Everything the encoders read and change. *)
Variable W : Type.

(* An encoder of the user: what it returns, and the world after it; it may have changed the world and then panicked. *)
Definition sfun := W -> slice -> N -> res (slice * option err) * W.

(* As Values.gvalue; SVal is a value without an encoder of the user inside. *)
Inductive svalue :=
| SVal (v : gvalue)
| SPtr (iface : bool) (v : svalue)
| SUser (any_method expr_method : option sfun)
| SFunc (f : sexpr)
(* As Values.exprfun *)
with sexpr :=
| SFun (f : exprfun)
| SOperator (name : bytes) (params : list svalue)
| SCall (name : bytes) (params : list svalue)
| SUserFn (f : sfun).

Inductive siop := SRow (row : list svalue) | SIOuter (lvl : nat).
Inductive suop := SSet (name : bytes) (value : svalue) | SUOuter (lvl : nat).

(* As Builder.call, for the calls that take values. *)
Inductive scall :=
| SStmtExecute (stmt : bytes) (args : list svalue)
| SExecute (id : N) (args : list svalue)
| SInsert (name : bytes) (columns : list bytes) (rows : list (list svalue))
| SInsertF (name : bytes) (columns : list bytes) (ops : list siop) (cberr : option err)
| SUpdate (name : bytes) (criteria : option sexpr) (set : list (bytes * svalue))
| SUpdateF (name : bytes) (criteria : option sexpr) (ops : list suop) (cberr : option err)
| SDelete (name : bytes) (criteria : option sexpr)
| SOther (c : call).

(* A computation: its result, the world after it, and the encoders it called, each with the world it was called in. *)
Definition M (A : Type) := W -> res A * W * list (sfun * W).
Definition mret {A} (a : A) : M A := fun w => (Ok a, w, []).
Definition mpanic {A} : M A := fun w => (Panic, w, []).
Definition lift {A} (r : res A) : M A := fun w => (r, w, []).
Definition mbind {A B} (m : M A) (f : A -> M B) : M B := fun w =>
  match m w with
  | (Ok a, w, l) => match f a w with (r, w, l') => (r, w, l ++ l') end
  | (Panic, w, l) => (Panic, w, l)
  end.
Definition call_user (f : sfun) (p : slice) (tag : N) : M (slice * option err) := fun w =>
  match f w p tag with (r, w') => (r, w', [(f, w)]) end.

Notation "'let*' x := m 'in' f" := (mbind m (fun x => f)) (at level 200, x pattern, m at level 100, f at level 200).

Context `{E : Env}.

Definition mokm (m : res slice) : M (slice * option err) := lift (okm m).

(* As AnyModel.any_method, ExprModel.expr_method *)
Definition s_any_method (v : svalue) : option (slice -> N -> M (slice * option err)) :=
  match v with
  | SVal v => option_map (fun m p tag => lift (m p tag)) (any_method v)
  | SUser m _ => option_map call_user m
  | _ => None
  end.
Definition s_expr_method (v : svalue) : option (slice -> N -> M (slice * option err)) :=
  match v with
  | SVal v => option_map (fun m p tag => lift (m p tag)) (expr_method v)
  | SUser _ m => option_map call_user m
  | _ => None
  end.

(* The typeSwitch loop of xproto/any.go:350-410 *)
Fixpoint s_type_switch (v : svalue) (p : slice) (tag : N) : M (slice * option err) :=
  match v with
  | SVal v => lift (type_switch v p tag)
  | SPtr iface v' =>
      match (if iface then None else s_any_method v') with
      | Some m => m p tag
      | None => s_type_switch v' p tag
      end
  | _ =>
      match s_any_method v with
      | Some m => m p tag
      | None => mret (nil_slice, Some EUnsupported)
      end
  end.

(* xproto/any.go:346-411 appendAny *)
Definition s_append_any (v : svalue) (p : slice) (tag : N) : M (slice * option err) :=
  match v with
  | SVal v => lift (append_any v p tag)
  | _ => s_type_switch v p tag
  end.

(* xproto/expr.go:319-325, 359-365; xproto/insert.go:64-70 *)
Definition s_each {A} (f : A -> slice -> M (slice * option err)) (wrap : nat -> err -> err) :
    nat -> list A -> slice -> M (slice * option err) :=
  fix each j xs p :=
  match xs with
  | [] => mret (p, None)
  | x :: xs =>
      let* (p, e) := f x p in
      match e with
      | Some e => mret (p, Some (wrap j e))
      | None => each (S j) xs p
      end
  end.

(* xproto/expr.go:264-311 appendExpr *)
Fixpoint s_append_expr (v : svalue) (p : slice) (tag : N) {struct v} : M (slice * option err) :=
  match v with
  | SVal v => lift (append_expr v p tag)
  | SFunc f => s_run_fun f p tag
  | SPtr iface v' =>
      match (if iface then None else s_expr_method v') with
      | Some m => m p tag
      | None => mret (p, Some EUnsupported)
      end
  | SUser _ m =>
      match m with
      | Some f => call_user f p tag
      | None => mret (p, Some EUnsupported)
      end
  end
(* xproto/expr.go:317-345 AppendExprOperator, 351-391 AppendExprFunctionCall *)
with s_run_fun (f : sexpr) (p : slice) (tag : N) {struct f} : M (slice * option err) :=
  match f with
  | SFun f => lift (run_fun f p tag)
  | SUserFn u => call_user u p tag
  | SOperator name params =>
      let i := len p in
      let* (p, e) := s_each (fun v p => s_append_expr v p tagOperatorParam) EParam 0 params p in
      match e with
      | Some e => mret (p, Some e)
      | None => mokm (operator_header p i tag name)
      end
  | SCall name params =>
      let i := len p in
      let* (p, e) := s_each (fun v p => s_append_expr v p tagFunctionCallParam) EParam 0 params p in
      match e with
      | Some e => mret (p, Some e)
      | None => mokm (call_header p i tag name)
      end
  end.

Definition s_append_args (tag : N) (args : list svalue) (p : slice) : M (slice * option err) :=
  s_each (fun v p => s_append_any v p tag) (fun _ e => e) 0 args p.

(* if f != nil { p, err = f(p, tag) } *)
Definition s_criteria (criteria : option sexpr) (p : slice) (tag : N) : M (slice * option err) :=
  match criteria with
  | None => mret (p, None)
  | Some f => s_run_fun f p tag
  end.

(* xproto/xproto.go:27-45 StmtExecute *)
Definition s_stmt_execute (p : slice) (stmt : bytes) (args : list svalue) : M (slice * option err) :=
  let x := nlen stmt in
  let n := len p in
  let p := append p [0; 0; 0; 0; SQL_STMT_EXECUTE; hdr tagStmtExecuteStmt wireBytes;
              b80 x; b80 (N.shiftr x 7); b80 (N.shiftr x 14); b80 (N.shiftr x 21); b80 (N.shiftr x 28);
              b80 (N.shiftr x 35); b80 (N.shiftr x 42); b80 (N.shiftr x 49); b80 (N.shiftr x 56); 1]%N in
  let i := (len p + size_varint x - 10)%nat in
  let* p := lift (mask_truncate p i) in
  let p := append p stmt in
  let* (p, e) := s_append_args tagStmtExecuteArgs args p in
  match e with
  | Some e => mret (p, Some e)
  | None => mokm (patch_length p n)
  end.

(* xproto/prepare.go:46-66 Execute *)
Definition s_msg_execute (p : slice) (id : N) (args : list svalue) : M (slice * option err) :=
  let n := len p in
  let p := append p [0; 0; 0; 0; PREPARE_EXECUTE; hdr tagExecuteStmtId wireVarint;
              b80 id; b80 (N.shiftr id 7); b80 (N.shiftr id 14); b80 (N.shiftr id 21); byte (N.shiftr id 28)]%N in
  let i := (len p - 5 + size_varint id)%nat in
  let* p := lift (mask_truncate p i) in
  let* (p, e) := s_append_args tagExecuteArgs args p in
  match e with
  | Some e => mret (p, Some e)
  | None => mokm (patch_length p n)
  end.

(* xproto/xproto.go:47-76 Delete *)
Definition s_msg_delete (p : slice) (name : bytes) (criteria : option sexpr) : M (slice * option err) :=
  let s := len p in
  let n := length name in
  let n1 := (1 + sizev n + n)%nat in
  let b := len p in
  let p := for_append p (4 + 1 + 1 + sizev n1 + n1) in
  let* (p, k) := lift (put_uvarint p (b + 6) (N.of_nat n1)) in
  let i := (b + (6 + k))%nat in
  let* p := lift (put p (b + 4) [CRUD_DELETE]) in
  let* p := lift (put p (b + 5) [hdr tagDeleteCollection wireBytes]) in
  let* p := lift (put p i [hdr tagCollectionName wireBytes]) in
  let i := (i + 1)%nat in
  let* (p, k) := lift (put_uvarint p i (N.of_nat n)) in
  let i := (i + k)%nat in
  let* p := lift (copy_at p i name) in
  let* (p, e) := s_criteria criteria p tagDeleteCriteria in
  let* p := lift (patch_length p s) in
  mret (p, e).

(* xproto/insert.go:59-77 AppendInsertRow *)
Definition s_append_insert_row (p : slice) (row : list svalue) : M (slice * option err) :=
  let p := append p [hdr tagInsertRow wireBytes; 0; 0]%N in
  let i := len p in
  let* (p, e) := s_each (fun v p => s_append_expr v p tagTypedRowField) EColumnErr 0 row p in
  match e with
  | Some e => mret (p, Some e)
  | None =>
      let n := (len p - i)%nat in
      let* p := lift (if (sizev n =? 2)%nat then Ok p else
                 do h <- reslice p (i + sizev n - 2);
                 do t <- from p i;
                 Ok (append h t)) in
      let* (p, _) := lift (put_uvarint p (i - 2) (N.of_nat n)) in
      mret (p, None)
  end.

(* xproto/update.go:20-38 Update: msg_update without criteria, then the criteria *)
Definition s_msg_update (p : slice) (name : bytes) (criteria : option sexpr) : M (slice * option err) :=
  let* (p, _) := lift (msg_update p name None) in
  s_criteria criteria p tagUpdateCriteria.

(* xproto/update.go:40-78 AppendUpdateSet *)
Definition s_append_update_set (p : slice) (name : bytes) (value : svalue) : M (slice * option err) :=
  let i := len p in
  let* (p, e) := s_append_expr value p tagUpdateOperationValue in
  match e with
  | Some e => mret (p, Some e)
  | None => mokm (set_header p i name)
  end.

(* builder.go:119-128, the loop over the rows of Insert *)
Fixpoint s_insert_rows (ncols i : nat) (rows : list (list svalue)) (p : slice) : M (slice * option err) :=
  match rows with
  | [] => mret (p, None)
  | row :: rows =>
      if (length row =? ncols)%nat then
        let* (p, e) := s_append_insert_row p row in
        match e with
        | Some e => mret (p, Some e)
        | None => s_insert_rows ncols (S i) rows p
        end
      else mret (p, Some (ERowLen i ncols (length row)))
  end.

(* builder.go:116-129, Insert after the checks *)
Definition s_do_insert (name : bytes) (columns : list bytes) (rows : list (list svalue)) (p : slice) : M (slice * option err) :=
  let n := len p in
  let* p := lift (msg_insert p name columns) in
  let* (p, e) := s_insert_rows (length columns) 0 rows p in
  match e with
  | Some e => mret (p, Some e)
  | None => mokm (patch_length p n)
  end.

(* builder.go:169-174, the loop of Update over the map *)
Fixpoint s_update_sets (set : list (bytes * svalue)) (p : slice) : M (slice * option err) :=
  match set with
  | [] => mret (p, None)
  | (k, v) :: set =>
      let* (p, e) := s_append_update_set p k v in
      match e with
      | Some e => mret (p, Some e)
      | None => s_update_sets set p
      end
  end.

(* builder.go:163-175, Update after the checks *)
Definition s_do_update (name : bytes) (criteria : option sexpr) (set : list (bytes * svalue)) (p : slice) : M (slice * option err) :=
  let n := len p in
  let* (p, e) := s_msg_update p name criteria in
  match e with
  | Some e => mret (p, Some e)
  | None =>
      let* (p, e) := s_update_sets set p in
      match e with
      | Some e => mret (p, Some e)
      | None => mokm (patch_length p n)
      end
  end.

(* crud.go:14-18 Insert.Row, called by the callback of InsertF *)
Fixpoint s_run_iops (dis : list bool) (ops : list siop) (p : slice) (e : option err) : M (slice * option err) :=
  match ops with
  | [] => mret (p, e)
  | SRow row :: ops =>
      match e with
      | Some e => s_run_iops dis ops p (Some e)
      | None => let* (p, e) := s_append_insert_row p row in s_run_iops dis ops p e
      end
  | SIOuter lvl :: ops => let* _ := lift (use_outer dis lvl) in s_run_iops dis ops p e
  end.

(* crud.go:45-49 Update.Set, called by the callback of UpdateF *)
Fixpoint s_run_uops (dis : list bool) (ops : list suop) (p : slice) (e : option err) : M (slice * option err) :=
  match ops with
  | [] => mret (p, e)
  | SSet name v :: ops =>
      match e with
      | Some e => s_run_uops dis ops p (Some e)
      | None => let* (p, e) := s_append_update_set p name v in s_run_uops dis ops p e
      end
  | SUOuter lvl :: ops => let* _ := lift (use_outer dis lvl) in s_run_uops dis ops p e
  end.

(* crud.go:31-37 InsertF after the checks *)
Definition s_do_insert_f (dis : list bool) (name : bytes) (columns : list bytes) (ops : list siop) (p : slice) : M (slice * option err) :=
  let n := len p in
  let* p := lift (msg_insert p name columns) in
  let* (p, e) := s_run_iops dis ops p None in
  let* p := lift (patch_length p n) in
  mret (p, e).

(* crud.go:58-65 UpdateF after the checks *)
Definition s_do_update_f (dis : list bool) (name : bytes) (criteria : option sexpr) (ops : list suop) (p : slice) : M (slice * option err) :=
  let n := len p in
  let* (p, e) := s_msg_update p name criteria in
  let* (p, e) := s_run_uops dis ops p e in
  let* p := lift (patch_length p n) in
  mret (p, e).

(* Every method starts with: if b.disabled { panic }; if b.err != nil { return } *)
Definition s_guarded (b : builder) (m : slice -> M (slice * option err)) : M builder :=
  if disabled b then mpanic else
  match berr b with
  | Some _ => mret b
  | None => let* (p, e) := m (buf b) in mret (mkb p e (disabled b))
  end.

(* builder.go:65-188, crud.go:24-66: as Builder.exec_call *)
Definition s_exec_call (dis : list bool) (c : scall) (b : builder) : M builder :=
  match c with
  | SOther c => lift (exec_call dis c b)
  | _ =>
      s_guarded b (fun p =>
        match c with
        | SStmtExecute stmt args => s_stmt_execute p stmt args
        | SExecute id args => s_msg_execute p id args
        | SInsert name columns rows => s_do_insert name columns rows p
        | SInsertF name columns ops _ => s_do_insert_f dis name columns ops p
        | SUpdate name criteria set => s_do_update name criteria set p
        | SUpdateF name criteria ops _ => s_do_update_f dis name criteria ops p
        | SDelete name criteria => s_msg_delete p name criteria
        | SOther _ => mpanic
        end)
  end.

(* builder.go:132-154 InsertRow *)
Definition s_insert_row (name : bytes) (columns : list bytes) (row : list svalue) (b : builder) : M (builder * option exprfun) :=
  if disabled b then mpanic else
  match berr b with
  | Some _ => mret (b, None)
  | None =>
      let n := len (buf b) in
      let* p := lift (msg_insert (buf b) name columns) in
      let* (p, e) := s_append_insert_row p row in
      match e with
      | Some e => mret (mkb p (Some e) (disabled b), None)
      | None =>
          let* p := lift (patch_length p n) in
          let id := insert_id p in
          let* b' := lift (b_stmt_execute (s2b "SET " ++ id ++ s2b " = LAST_INSERT_ID()") [] (mkb p None (disabled b))) in
          mret (b', Some (EVariable id))
      end
  end.

End World.
