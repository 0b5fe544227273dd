(* Calls whose []byte arguments are slices of memory. MemModel.v takes an argument by its value; here it is a reference, as in
   Go, and is read when its bytes are copied into the message. Strings cannot change in Go and stay values. *)
From Coq Require Import String List NArith ZArith Arith.
From Coq Require Import List.
From Verif Require Import Base GoSlice Varint Text Values AnyModel ExprModel MsgModel Builder Mem MemModel.
Import ListNotations.

(* The types a []byte is passed as: []byte itself, and what xtorm.XML, JSON and Geometry make of it (expr.go:24-27, 50-53,
   76-78), which keep the slice they are given. *)
Inductive octets := OBytes | OXml | OJson | OGeometry.

Definition octets_type (k : octets) : N :=
  match k with OBytes => ContentTypePlain | OXml => ContentTypeXML | OJson => ContentTypeJSON | OGeometry => ContentTypeGeometry end.

(* A Go value: one with nothing to refer to, a non-nil slice of bytes, a non-nil pointer to a variable with a value (iface: the
   variable is an interface variable), or an AppendExprFunc. *)
Inductive rvalue :=
| RVal (v : gvalue)
| RRef (k : octets) (s : hslice)
| RPtr (iface : bool) (v : rvalue)
| RFunc (f : rfun)
(* The AppendExprFuncs with values inside, and any other. *)
with rfun :=
| RFun (f : exprfun)
| ROperator (name : bytes) (params : list rvalue)
| RCall (name : bytes) (params : list rvalue).

Inductive riop := RRow (row : list rvalue) | RIOuter (lvl : nat).
Inductive ruop := RSet (name : bytes) (value : rvalue) | RUOuter (lvl : nat).

(* The calls of Builder.call that take values. *)
Inductive rcall :=
| RStmtExecute (stmt : bytes) (args : list rvalue)
| RExecute (id : N) (args : list rvalue)
| RInsert (name : bytes) (columns : list bytes) (rows : list (list rvalue))
| RInsertF (name : bytes) (columns : list bytes) (ops : list riop) (cberr : option err)
| RUpdate (name : bytes) (criteria : option rfun) (set : list (bytes * rvalue))
| RUpdateF (name : bytes) (criteria : option rfun) (ops : list ruop) (cberr : option err)
| RDelete (name : bytes) (criteria : option rfun)
| ROther (c : call).

(* Programs, as Builder.prog. *)
Inductive rprog :=
| RRet (cberr : option err) (out : list (option exprfun))
| RPCall (lvl : nat) (c : rcall) (next : rprog)
| RPInsertRow (lvl : nat) (name : bytes) (columns : list bytes) (row : list rvalue) (next : option exprfun -> rprog)
| RPBlock (lvl : nat) (k : block) (body : rprog) (next : list (option exprfun) -> rprog).

Section Model.
Context `{E : Env}.

(* copy(s[i:], t) *)
Definition h_copy_from (s : hslice) (i : nat) (t : hslice) : H nat :=
  let* xs := h_read t in h_copy s i xs.

(* xproto/any.go:142-182 AppendAnyBytes on a non-nil slice *)
Definition h_append_any_bytes_from (p : hslice) (tag : N) (bs : hslice) (contentType : N) : H hslice :=
  let n := hlen bs in
  let n0 := (1 + sizev n + n)%nat in
  let n0 := if (contentType =? ContentTypePlain)%N then n0 else (n0 + (1 + size_varint contentType))%nat in
  let n1 := (3 + sizev n0 + n0)%nat in
  let n2 := (3 + sizev n1 + n1)%nat in
  let* (p, b) := h_for_append p (1 + sizev n2 + n2) in
  let* i := h_put_uvarint b 1 (N.of_nat n2) in
  let* _ := h_put b 0 [hdr tag wireBytes] in
  let* b := h_from b (1 + i) in
  (* Any *)
  let* i := h_put_uvarint b 3 (N.of_nat n1) in
  let* _ := h_put b 0 [hdr tagAnyType wireVarint] in
  let* _ := h_put b 1 [Any_SCALAR] in
  let* _ := h_put b 2 [hdr tagAnyScalar wireBytes] in
  let* b := h_from b (3 + i) in
  (* Scalar *)
  let* i := h_put_uvarint b 3 (N.of_nat n0) in
  let* _ := h_put b 0 [hdr tagScalarType wireVarint] in
  let* _ := h_put b 1 [Scalar_V_OCTETS] in
  let* _ := h_put b 2 [hdr tagScalarOctets wireBytes] in
  let* b := h_from b (3 + i) in
  (* Scalar_Octets *)
  let* b := (if (contentType =? ContentTypePlain)%N then hret b else
      let* i := h_put_uvarint b 1 contentType in
      let* _ := h_put b 0 [hdr tagOctetContentType wireVarint] in
      h_from b (1 + i)) in
  let* i := h_put_uvarint b 1 (N.of_nat n) in
  let* _ := h_put b 0 [hdr tagOctetValue wireBytes] in
  let* _ := h_copy_from b (1 + i) bs in
  hret p.

(* xproto/expr.go:177-217 AppendExprBytes on a non-nil slice *)
Definition h_append_expr_bytes_from (p : hslice) (tag : N) (bs : hslice) (contentType : N) : H hslice :=
  let n := hlen bs in
  let n0 := (1 + sizev n + n)%nat in
  let n0 := if (contentType =? 0)%N then n0 else (n0 + (1 + size_varint contentType))%nat in
  let n1 := (3 + sizev n0 + n0)%nat in
  let n2 := (3 + sizev n1 + n1)%nat in
  let* (p, b) := h_for_append p (1 + sizev n2 + n2) in
  let* i := h_put_uvarint b 1 (N.of_nat n2) in
  let* _ := h_put b 0 [hdr tag wireBytes] in
  let* b := h_from b (1 + i) in
  (* Expr *)
  let* i := h_put_uvarint b 3 (N.of_nat n1) in
  let* _ := h_put b 0 [hdr tagExprType wireVarint] in
  let* _ := h_put b 1 [Expr_LITERAL] in
  let* _ := h_put b 2 [hdr tagExprLiteral wireBytes] in
  let* b := h_from b (3 + i) in
  (* Scalar *)
  let* i := h_put_uvarint b 3 (N.of_nat n0) in
  let* _ := h_put b 0 [hdr tagScalarType wireVarint] in
  let* _ := h_put b 1 [Scalar_V_OCTETS] in
  let* _ := h_put b 2 [hdr tagScalarOctets wireBytes] in
  let* b := h_from b (3 + i) in
  (* Scalar_Octets *)
  let* b := (if (contentType =? 0)%N then hret b else
      let* i := h_put_uvarint b 1 contentType in
      let* _ := h_put b 0 [hdr tagOctetContentType wireVarint] in
      h_from b (1 + i)) in
  let* i := h_put_uvarint b 1 (N.of_nat n) in
  let* _ := h_put b 0 [hdr tagOctetValue wireBytes] in
  let* _ := h_copy_from b (1 + i) bs in
  hret p.

(* The typeSwitch loop of xproto/any.go:350-410, with the AppendAny methods of expr.go:29-31, 55-57, 80-82, which a pointer to
   their type has too. A pointer is followed (xproto/any.go:395-405); an AppendExprFunc is not supported. *)
Fixpoint r_type_switch (v : rvalue) (p : hslice) (tag : N) : H (hslice * option err) :=
  match v with
  | RVal v => h_type_switch v p tag
  | RRef k s => h_okm (h_append_any_bytes_from p tag s (octets_type k))
  | RPtr iface (RVal v) => h_type_switch (VPtr iface v) p tag
  | RPtr _ v => r_type_switch v p tag
  | RFunc _ => hret (hnil, Some EUnsupported)
  end.

(* xproto/any.go:346-411 appendAny *)
Definition r_append_any (v : rvalue) (p : hslice) (tag : N) : H (hslice * option err) :=
  match v with
  | RVal v => h_append_any v p tag
  | _ => r_type_switch v p tag
  end.

(* xproto/expr.go:264-311 appendExpr, with the AppendExpr methods of expr.go:33-35, 59-61, 84-86, which a pointer to their
   type has too; any other pointer to what is here is not supported. *)
Fixpoint r_append_expr (v : rvalue) (p : hslice) (tag : N) {struct v} : H (hslice * option err) :=
  match v with
  | RVal v => h_append_expr v p tag
  | RRef k s => h_okm (h_append_expr_bytes_from p tag s (octets_type k))
  | RPtr iface (RVal v) => h_append_expr (VPtr iface v) p tag
  | RPtr false (RRef ((OXml | OJson | OGeometry) as k) s) => h_okm (h_append_expr_bytes_from p tag s (octets_type k))
  | RPtr _ _ => hret (p, Some EUnsupported)
  | RFunc f => r_run_fun f p tag
  end
(* xproto/expr.go:317-345 AppendExprOperator, 351-391 AppendExprFunctionCall *)
with r_run_fun (f : rfun) (p : hslice) (tag : N) {struct f} : H (hslice * option err) :=
  match f with
  | RFun f => h_run_fun f p tag
  | ROperator name params =>
      let i := hlen p in
      let* (p, e) := h_each (fun v p => r_append_expr v p tagOperatorParam) EParam 0 params p in
      match e with
      | Some e => hret (p, Some e)
      | None => h_okm (h_operator_header p i tag name)
      end
  | RCall name params =>
      let i := hlen p in
      let* (p, e) := h_each (fun v p => r_append_expr v p tagFunctionCallParam) EParam 0 params p in
      match e with
      | Some e => hret (p, Some e)
      | None => h_okm (h_call_header p i tag name)
      end
  end.

Definition r_append_args (tag : N) (args : list rvalue) (p : hslice) : H (hslice * option err) :=
  h_each (fun v p => r_append_any v p tag) (fun _ e => e) 0 args p.

(* xproto/xproto.go:27-45 StmtExecute *)
Definition r_stmt_execute (p : hslice) (stmt : bytes) (args : list rvalue) : H (hslice * option err) :=
  let x := nlen stmt in
  let n := hlen p in
  let* p := h_append p [0; 0; 0; 0; SQL_STMT_EXECUTE; hdr tagStmtExecuteStmt wireBytes;
              b80 x; b80 (N.shiftr x 7); b80 (N.shiftr x 14); b80 (N.shiftr x 21); b80 (N.shiftr x 28);
              b80 (N.shiftr x 35); b80 (N.shiftr x 42); b80 (N.shiftr x 49); b80 (N.shiftr x 56); 1]%N in
  let i := (hlen p + size_varint x - 10)%nat in
  let* p := h_mask_truncate p i in
  let* p := h_append p stmt in
  let* (p, e) := r_append_args tagStmtExecuteArgs args p in
  match e with
  | Some e => hret (p, Some e)
  | None => h_okm (h_patch_length p n)
  end.

(* xproto/prepare.go:46-66 Execute *)
Definition r_msg_execute (p : hslice) (id : N) (args : list rvalue) : H (hslice * option err) :=
  let n := hlen p in
  let* p := h_append p [0; 0; 0; 0; PREPARE_EXECUTE; hdr tagExecuteStmtId wireVarint;
              b80 id; b80 (N.shiftr id 7); b80 (N.shiftr id 14); b80 (N.shiftr id 21); byte (N.shiftr id 28)]%N in
  let i := (hlen p - 5 + size_varint id)%nat in
  let* p := h_mask_truncate p i in
  let* (p, e) := r_append_args tagExecuteArgs args p in
  match e with
  | Some e => hret (p, Some e)
  | None => h_okm (h_patch_length p n)
  end.

(* if f != nil { p, err = f(p, tag) } *)
Definition r_criteria (criteria : option rfun) (p : hslice) (tag : N) : H (hslice * option err) :=
  match criteria with
  | None => hret (p, None)
  | Some f => r_run_fun f p tag
  end.

(* xproto/xproto.go:47-76 Delete *)
Definition r_msg_delete (p : hslice) (name : bytes) (criteria : option rfun) : H (hslice * option err) :=
  let s := hlen p in
  let n := length name in
  let n1 := (1 + sizev n + n)%nat in
  let* (p, b) := h_for_append p (4 + 1 + 1 + sizev n1 + n1) in
  let* k := h_put_uvarint b 6 (N.of_nat n1) in
  let i := (6 + k)%nat in
  let* _ := h_put b 4 [CRUD_DELETE] in
  let* _ := h_put b 5 [hdr tagDeleteCollection wireBytes] in
  let* _ := h_put b i [hdr tagCollectionName wireBytes] in
  let i := (i + 1)%nat in
  let* k := h_put_uvarint b i (N.of_nat n) in
  let i := (i + k)%nat in
  let* _ := h_copy b i name in
  let* (p, e) := r_criteria criteria p tagDeleteCriteria in
  let* p := h_patch_length p s in
  hret (p, e).

(* xproto/insert.go:59-77 AppendInsertRow. As h_append_insert_row. *)
Definition r_append_insert_row (p : hslice) (row : list rvalue) : H (hslice * option err) :=
  let* p := h_append p [hdr tagInsertRow wireBytes; 0; 0]%N in
  let i := hlen p in
  let* (p, e) := h_each (fun v p => r_append_expr v p tagTypedRowField) EColumnErr 0 row p in
  match e with
  | Some e => hret (p, Some e)
  | None =>
      let n := (hlen p - i)%nat in
      let* p := (if (sizev n =? 2)%nat then hret p else
                   let* h := h_reslice p (i + sizev n - 2) in
                   let* t := h_from p i in
                   h_append_slice h t) in
      let* _ := h_put_uvarint p (i - 2) (N.of_nat n) in
      hret (p, None)
  end.

(* xproto/update.go:20-38 Update *)
Definition r_msg_update (p : hslice) (name : bytes) (criteria : option rfun) : H (hslice * option err) :=
  let n := length name in
  let n1 := (1 + sizev n + n)%nat in
  let* (p, b) := h_for_append p (4 + 1 + 3 + sizev n1 + n1) in
  let* k := h_put_uvarint b 6 (N.of_nat n1) in
  let i := (6 + k)%nat in
  let* _ := h_put b 4 [CRUD_UPDATE] in
  let* _ := h_put b 5 [hdr tagUpdateCollection wireBytes] in
  let* _ := h_put b i [hdr tagCollectionName wireBytes] in
  let i := (i + 1)%nat in
  let* k := h_put_uvarint b i (N.of_nat n) in
  let i := (i + k)%nat in
  let* c := h_copy b i name in
  let i := (i + c)%nat in
  let* _ := h_put b i [hdr tagUpdateDataModel wireVarint] in
  let i := (i + 1)%nat in
  let* _ := h_put b i [DataModel_TABLE] in
  r_criteria criteria p tagUpdateCriteria.

(* xproto/update.go:40-78 AppendUpdateSet *)
Definition r_append_update_set (p : hslice) (name : bytes) (value : rvalue) : H (hslice * option err) :=
  let i := hlen p in
  let* (p, e) := r_append_expr value p tagUpdateOperationValue in
  match e with
  | Some e => hret (p, Some e)
  | None => h_okm (h_set_header p i name)
  end.

(* builder.go:119-128, the loop over the rows of Insert *)
Fixpoint r_insert_rows (ncols i : nat) (rows : list (list rvalue)) (p : hslice) : H (hslice * option err) :=
  match rows with
  | [] => hret (p, None)
  | row :: rows =>
      if (length row =? ncols)%nat then
        let* (p, e) := r_append_insert_row p row in
        match e with
        | Some e => hret (p, Some e)
        | None => r_insert_rows ncols (S i) rows p
        end
      else hret (p, Some (ERowLen i ncols (length row)))
  end.

(* builder.go:116-129, Insert after the checks *)
Definition r_do_insert (name : bytes) (columns : list bytes) (rows : list (list rvalue)) (p : hslice) :
    H (hslice * option err) :=
  let n := hlen p in
  let* p := h_msg_insert p name columns in
  let* (p, e) := r_insert_rows (length columns) 0 rows p in
  match e with
  | Some e => hret (p, Some e)
  | None => h_okm (h_patch_length p n)
  end.

(* builder.go:169-174, the loop of Update over the map *)
Fixpoint r_update_sets (set : list (bytes * rvalue)) (p : hslice) : H (hslice * option err) :=
  match set with
  | [] => hret (p, None)
  | (k, v) :: set =>
      let* (p, e) := r_append_update_set p k v in
      match e with
      | Some e => hret (p, Some e)
      | None => r_update_sets set p
      end
  end.

(* builder.go:163-175, Update after the checks *)
Definition r_do_update (name : bytes) (criteria : option rfun) (set : list (bytes * rvalue)) (p : hslice) :
    H (hslice * option err) :=
  let n := hlen p in
  let* (p, e) := r_msg_update p name criteria in
  match e with
  | Some e => hret (p, Some e)
  | None =>
      let* (p, e) := r_update_sets set p in
      match e with
      | Some e => hret (p, Some e)
      | None => h_okm (h_patch_length p n)
      end
  end.

(* crud.go:14-18 Insert.Row, called by the callback of InsertF *)
Fixpoint r_run_iops (dis : list bool) (ops : list riop) (p : hslice) (e : option err) : H (hslice * option err) :=
  match ops with
  | [] => hret (p, e)
  | RRow row :: ops =>
      match e with
      | Some e => r_run_iops dis ops p (Some e)
      | None => let* (p, e) := r_append_insert_row p row in r_run_iops dis ops p e
      end
  | RIOuter lvl :: ops => let* _ := h_use_outer dis lvl in r_run_iops dis ops p e
  end.

(* crud.go:45-49 Update.Set, called by the callback of UpdateF *)
Fixpoint r_run_uops (dis : list bool) (ops : list ruop) (p : hslice) (e : option err) : H (hslice * option err) :=
  match ops with
  | [] => hret (p, e)
  | RSet name v :: ops =>
      match e with
      | Some e => r_run_uops dis ops p (Some e)
      | None => let* (p, e) := r_append_update_set p name v in r_run_uops dis ops p e
      end
  | RUOuter lvl :: ops => let* _ := h_use_outer dis lvl in r_run_uops dis ops p e
  end.

(* crud.go:31-37 InsertF after the checks *)
Definition r_do_insert_f (dis : list bool) (name : bytes) (columns : list bytes) (ops : list riop) (p : hslice) :
    H (hslice * option err) :=
  let n := hlen p in
  let* p := h_msg_insert p name columns in
  let* (p, e) := r_run_iops dis ops p None in
  let* p := h_patch_length p n in
  hret (p, e).

(* crud.go:58-65 UpdateF after the checks *)
Definition r_do_update_f (dis : list bool) (name : bytes) (criteria : option rfun) (ops : list ruop) (p : hslice) :
    H (hslice * option err) :=
  let n := hlen p in
  let* (p, e) := r_msg_update p name criteria in
  let* (p, e) := r_run_uops dis ops p e in
  let* p := h_patch_length p n in
  hret (p, e).

(* builder.go:65-188, crud.go:24-66 *)
Definition r_exec_call (dis : list bool) (c : rcall) (b : hbuilder) : H hbuilder :=
  match c with
  | ROther c => h_exec_call dis c b
  | _ =>
    h_guarded b (fun p =>
      match c with
      | RStmtExecute stmt args => r_stmt_execute p stmt args
      | RExecute id args => r_msg_execute p id args
      | RInsert name columns rows => r_do_insert name columns rows p
      | RInsertF name columns ops _ => r_do_insert_f dis name columns ops p
      | RUpdate name criteria set => r_do_update name criteria set p
      | RUpdateF name criteria ops _ => r_do_update_f dis name criteria ops p
      | RDelete name criteria => r_msg_delete p name criteria
      | ROther _ => hpanic (* not reached *)
      end)
  end.

(* builder.go:132-154 InsertRow *)
Definition r_b_insert_row (name : bytes) (columns : list bytes) (row : list rvalue) (b : hbuilder) :
    H (hbuilder * option exprfun) :=
  if hdisabled b then hpanic else
  match hberr b with
  | Some _ => hret (b, None)
  | None =>
      let n := hlen (hbuf b) in
      let* p := h_msg_insert (hbuf b) name columns in
      let* (p, e) := r_append_insert_row p row in
      match e with
      | Some e => hret (mkhb p (Some e) (hdisabled b), None)
      | None =>
          let* p := h_patch_length p n in
          let id := h_insert_id p in
          let* b' := h_b_stmt_execute (s2b "SET " ++ id ++ s2b " = LAST_INSERT_ID()") [] (mkhb p None (hdisabled b)) in
          hret (b', Some (EVariable id))
      end
  end.

(* Running a program, as h_run. *)
Fixpoint r_run (pr : rprog) (st : list hbuilder) : H (list hbuilder * list (option exprfun)) :=
  match pr with
  | RRet _ out => hret (st, out)
  | RPCall lvl c next =>
      match nth_error st lvl with
      | None => hpanic
      | Some b =>
          let* b' := r_exec_call (set_nth (map hdisabled st) lvl true) c b in
          r_run next (set_nth st lvl b')
      end
  | RPInsertRow lvl name columns row next =>
      match nth_error st lvl with
      | None => hpanic
      | Some b =>
          let* (b', f) := r_b_insert_row name columns row b in
          r_run (next f) (set_nth st lvl b')
      end
  | RPBlock lvl k body next =>
      match nth_error st lvl with
      | None => hpanic
      | Some b =>
          let* (b1, entered) := h_block_begin k b in
          if entered then
            let child := mkhb (hbuf b1) (hberr b1) false in
            let* (st2, out) := r_run body (child :: set_nth st lvl (mkhb (hbuf b1) (hberr b1) true)) in
            match st2 with
            | [] => hpanic
            | child :: st2 =>
                let* b2 := h_block_end k (mkhb (hbuf child) (hberr child) false) in
                r_run (next out) (set_nth st2 lvl b2)
            end
          else r_run (next []) (set_nth st lvl b1)
      end
  end.

End Model.
