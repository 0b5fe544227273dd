(* Calls whose []byte arguments are slices of memory, as in MemArg.v, as sequences of accesses to memory; and goroutines that make them. *)
From Coq Require Import String List NArith ZArith Arith.
From Coq Require Import List.
From Verif Require Import Base GoSlice Varint Text Values AnyModel ExprModel MsgModel Builder Mem MemModel MemArg MemPipes Fine FineModel FineRun.
Import ListNotations.

Section Model.
Context `{E : Env}.

(* copy(s[i:], t). Simplification: all is read before anything is written; the Go specification allows t to overlap s. *)
Definition g_copy_from (s : hslice) (i : nat) (t : hslice) : go nat :=
  let! xs := g_read t in g_copy s i xs.

(* xproto/any.go:142-182 AppendAnyBytes on a non-nil slice *)
Definition g_append_any_bytes_from (p : hslice) (tag : N) (bs : hslice) (contentType : N) : go hslice :=
  let n := hlen bs in
  let n0 := (1 + sizev n + n)%nat in
  let n0 := if (contentType =? ContentTypePlain)%N then n0 else (n0 + (1 + size_varint contentType))%nat in
  let n1 := (3 + sizev n0 + n0)%nat in
  let n2 := (3 + sizev n1 + n1)%nat in
  let! (p, b) := g_for_append p (1 + sizev n2 + n2) in
  let! i := g_put_uvarint b 1 (N.of_nat n2) in
  let! _ := g_put b 0 [hdr tag wireBytes] in
  let! b := g_from b (1 + i) in
  (* Any *)
  let! i := g_put_uvarint b 3 (N.of_nat n1) in
  let! _ := g_put b 0 [hdr tagAnyType wireVarint] in
  let! _ := g_put b 1 [Any_SCALAR] in
  let! _ := g_put b 2 [hdr tagAnyScalar wireBytes] in
  let! b := g_from b (3 + i) in
  (* Scalar *)
  let! i := g_put_uvarint b 3 (N.of_nat n0) in
  let! _ := g_put b 0 [hdr tagScalarType wireVarint] in
  let! _ := g_put b 1 [Scalar_V_OCTETS] in
  let! _ := g_put b 2 [hdr tagScalarOctets wireBytes] in
  let! b := g_from b (3 + i) in
  (* Scalar_Octets *)
  let! b := (if (contentType =? ContentTypePlain)%N then Return b else
      let! i := g_put_uvarint b 1 contentType in
      let! _ := g_put b 0 [hdr tagOctetContentType wireVarint] in
      g_from b (1 + i)) in
  let! i := g_put_uvarint b 1 (N.of_nat n) in
  let! _ := g_put b 0 [hdr tagOctetValue wireBytes] in
  let! _ := g_copy_from b (1 + i) bs in
  Return p.

(* xproto/expr.go:177-217 AppendExprBytes on a non-nil slice *)
Definition g_append_expr_bytes_from (p : hslice) (tag : N) (bs : hslice) (contentType : N) : go hslice :=
  let n := hlen bs in
  let n0 := (1 + sizev n + n)%nat in
  let n0 := if (contentType =? 0)%N then n0 else (n0 + (1 + size_varint contentType))%nat in
  let n1 := (3 + sizev n0 + n0)%nat in
  let n2 := (3 + sizev n1 + n1)%nat in
  let! (p, b) := g_for_append p (1 + sizev n2 + n2) in
  let! i := g_put_uvarint b 1 (N.of_nat n2) in
  let! _ := g_put b 0 [hdr tag wireBytes] in
  let! b := g_from b (1 + i) in
  (* Expr *)
  let! i := g_put_uvarint b 3 (N.of_nat n1) in
  let! _ := g_put b 0 [hdr tagExprType wireVarint] in
  let! _ := g_put b 1 [Expr_LITERAL] in
  let! _ := g_put b 2 [hdr tagExprLiteral wireBytes] in
  let! b := g_from b (3 + i) in
  (* Scalar *)
  let! i := g_put_uvarint b 3 (N.of_nat n0) in
  let! _ := g_put b 0 [hdr tagScalarType wireVarint] in
  let! _ := g_put b 1 [Scalar_V_OCTETS] in
  let! _ := g_put b 2 [hdr tagScalarOctets wireBytes] in
  let! b := g_from b (3 + i) in
  (* Scalar_Octets *)
  let! b := (if (contentType =? 0)%N then Return b else
      let! i := g_put_uvarint b 1 contentType in
      let! _ := g_put b 0 [hdr tagOctetContentType wireVarint] in
      g_from b (1 + i)) in
  let! i := g_put_uvarint b 1 (N.of_nat n) in
  let! _ := g_put b 0 [hdr tagOctetValue wireBytes] in
  let! _ := g_copy_from b (1 + i) bs in
  Return p.

(* The typeSwitch loop of xproto/any.go:350-410, with the AppendAny methods of expr.go:29-31, 55-57, 80-82, which a pointer to
   their type has too. A pointer is followed (xproto/any.go:395-405); an AppendExprFunc is not supported. *)
Fixpoint q_type_switch (v : rvalue) (p : hslice) (tag : N) : go (hslice * option err) :=
  match v with
  | RVal v => g_type_switch v p tag
  | RRef k s => g_okm (g_append_any_bytes_from p tag s (octets_type k))
  | RPtr iface (RVal v) => g_type_switch (VPtr iface v) p tag
  | RPtr _ v => q_type_switch v p tag
  | RFunc _ => Return (hnil, Some EUnsupported)
  end.

(* xproto/any.go:346-411 appendAny *)
Definition q_append_any (v : rvalue) (p : hslice) (tag : N) : go (hslice * option err) :=
  match v with
  | RVal v => g_append_any v p tag
  | _ => q_type_switch v p tag
  end.

(* xproto/expr.go:264-311 appendExpr, with the AppendExpr methods of expr.go:33-35, 59-61, 84-86, which a pointer to their
   type has too; any other pointer to what is here is not supported. *)
Fixpoint q_append_expr (v : rvalue) (p : hslice) (tag : N) {struct v} : go (hslice * option err) :=
  match v with
  | RVal v => g_append_expr v p tag
  | RRef k s => g_okm (g_append_expr_bytes_from p tag s (octets_type k))
  | RPtr iface (RVal v) => g_append_expr (VPtr iface v) p tag
  | RPtr false (RRef ((OXml | OJson | OGeometry) as k) s) => g_okm (g_append_expr_bytes_from p tag s (octets_type k))
  | RPtr _ _ => Return (p, Some EUnsupported)
  | RFunc f => q_run_fun f p tag
  end
(* xproto/expr.go:317-345 AppendExprOperator, 351-391 AppendExprFunctionCall *)
with q_run_fun (f : rfun) (p : hslice) (tag : N) {struct f} : go (hslice * option err) :=
  match f with
  | RFun f => g_run_fun f p tag
  | ROperator name params =>
      let i := hlen p in
      let! (p, e) := g_each (fun v p => q_append_expr v p tagOperatorParam) EParam 0 params p in
      match e with
      | Some e => Return (p, Some e)
      | None => g_okm (g_operator_header p i tag name)
      end
  | RCall name params =>
      let i := hlen p in
      let! (p, e) := g_each (fun v p => q_append_expr v p tagFunctionCallParam) EParam 0 params p in
      match e with
      | Some e => Return (p, Some e)
      | None => g_okm (g_call_header p i tag name)
      end
  end.

Definition q_append_args (tag : N) (args : list rvalue) (p : hslice) : go (hslice * option err) :=
  g_each (fun v p => q_append_any v p tag) (fun _ e => e) 0 args p.

(* xproto/xproto.go:27-45 StmtExecute *)
Definition q_stmt_execute (p : hslice) (stmt : bytes) (args : list rvalue) : go (hslice * option err) :=
  let x := nlen stmt in
  let n := hlen p in
  let! p := g_append p [0; 0; 0; 0; SQL_STMT_EXECUTE; hdr tagStmtExecuteStmt wireBytes;
              b80 x; b80 (N.shiftr x 7); b80 (N.shiftr x 14); b80 (N.shiftr x 21); b80 (N.shiftr x 28);
              b80 (N.shiftr x 35); b80 (N.shiftr x 42); b80 (N.shiftr x 49); b80 (N.shiftr x 56); 1]%N in
  let i := (hlen p + size_varint x - 10)%nat in
  let! p := g_mask_truncate p i in
  let! p := g_append p stmt in
  let! (p, e) := q_append_args tagStmtExecuteArgs args p in
  match e with
  | Some e => Return (p, Some e)
  | None => g_okm (g_patch_length p n)
  end.

(* xproto/prepare.go:46-66 Execute *)
Definition q_msg_execute (p : hslice) (id : N) (args : list rvalue) : go (hslice * option err) :=
  let n := hlen p in
  let! p := g_append p [0; 0; 0; 0; PREPARE_EXECUTE; hdr tagExecuteStmtId wireVarint;
              b80 id; b80 (N.shiftr id 7); b80 (N.shiftr id 14); b80 (N.shiftr id 21); byte (N.shiftr id 28)]%N in
  let i := (hlen p - 5 + size_varint id)%nat in
  let! p := g_mask_truncate p i in
  let! (p, e) := q_append_args tagExecuteArgs args p in
  match e with
  | Some e => Return (p, Some e)
  | None => g_okm (g_patch_length p n)
  end.

(* if f != nil { p, err = f(p, tag) } *)
Definition q_criteria (criteria : option rfun) (p : hslice) (tag : N) : go (hslice * option err) :=
  match criteria with
  | None => Return (p, None)
  | Some f => q_run_fun f p tag
  end.

(* xproto/xproto.go:47-76 Delete *)
Definition q_msg_delete (p : hslice) (name : bytes) (criteria : option rfun) : go (hslice * option err) :=
  let s := hlen p in
  let n := length name in
  let n1 := (1 + sizev n + n)%nat in
  let! (p, b) := g_for_append p (4 + 1 + 1 + sizev n1 + n1) in
  let! k := g_put_uvarint b 6 (N.of_nat n1) in
  let i := (6 + k)%nat in
  let! _ := g_put b 4 [CRUD_DELETE] in
  let! _ := g_put b 5 [hdr tagDeleteCollection wireBytes] in
  let! _ := g_put b i [hdr tagCollectionName wireBytes] in
  let i := (i + 1)%nat in
  let! k := g_put_uvarint b i (N.of_nat n) in
  let i := (i + k)%nat in
  let! _ := g_copy b i name in
  let! (p, e) := q_criteria criteria p tagDeleteCriteria in
  let! p := g_patch_length p s in
  Return (p, e).

(* xproto/insert.go:59-77 AppendInsertRow. As FineModel.g_append_insert_row. *)
Definition q_append_insert_row (p : hslice) (row : list rvalue) : go (hslice * option err) :=
  let! p := g_append p [hdr tagInsertRow wireBytes; 0; 0]%N in
  let i := hlen p in
  let! (p, e) := g_each (fun v p => q_append_expr v p tagTypedRowField) EColumnErr 0 row p in
  match e with
  | Some e => Return (p, Some e)
  | None =>
      let n := (hlen p - i)%nat in
      let! p := (if (sizev n =? 2)%nat then Return p else
                   let! h := g_reslice p (i + sizev n - 2) in
                   let! t := g_from p i in
                   g_append_slice h t) in
      let! _ := g_put_uvarint p (i - 2) (N.of_nat n) in
      Return (p, None)
  end.

(* xproto/update.go:20-38 Update *)
Definition q_msg_update (p : hslice) (name : bytes) (criteria : option rfun) : go (hslice * option err) :=
  let n := length name in
  let n1 := (1 + sizev n + n)%nat in
  let! (p, b) := g_for_append p (4 + 1 + 3 + sizev n1 + n1) in
  let! k := g_put_uvarint b 6 (N.of_nat n1) in
  let i := (6 + k)%nat in
  let! _ := g_put b 4 [CRUD_UPDATE] in
  let! _ := g_put b 5 [hdr tagUpdateCollection wireBytes] in
  let! _ := g_put b i [hdr tagCollectionName wireBytes] in
  let i := (i + 1)%nat in
  let! k := g_put_uvarint b i (N.of_nat n) in
  let i := (i + k)%nat in
  let! c := g_copy b i name in
  let i := (i + c)%nat in
  let! _ := g_put b i [hdr tagUpdateDataModel wireVarint] in
  let i := (i + 1)%nat in
  let! _ := g_put b i [DataModel_TABLE] in
  q_criteria criteria p tagUpdateCriteria.

(* xproto/update.go:40-78 AppendUpdateSet *)
Definition q_append_update_set (p : hslice) (name : bytes) (value : rvalue) : go (hslice * option err) :=
  let i := hlen p in
  let! (p, e) := q_append_expr value p tagUpdateOperationValue in
  match e with
  | Some e => Return (p, Some e)
  | None => g_okm (g_set_header p i name)
  end.

(* builder.go:119-128, the loop over the rows of Insert *)
Fixpoint q_insert_rows (ncols i : nat) (rows : list (list rvalue)) (p : hslice) : go (hslice * option err) :=
  match rows with
  | [] => Return (p, None)
  | row :: rows =>
      if (length row =? ncols)%nat then
        let! (p, e) := q_append_insert_row p row in
        match e with
        | Some e => Return (p, Some e)
        | None => q_insert_rows ncols (S i) rows p
        end
      else Return (p, Some (ERowLen i ncols (length row)))
  end.

(* builder.go:116-129, Insert after the checks *)
Definition q_do_insert (name : bytes) (columns : list bytes) (rows : list (list rvalue)) (p : hslice) :
    go (hslice * option err) :=
  let n := hlen p in
  let! p := g_msg_insert p name columns in
  let! (p, e) := q_insert_rows (length columns) 0 rows p in
  match e with
  | Some e => Return (p, Some e)
  | None => g_okm (g_patch_length p n)
  end.

(* builder.go:169-174, the loop of Update over the map *)
Fixpoint q_update_sets (set : list (bytes * rvalue)) (p : hslice) : go (hslice * option err) :=
  match set with
  | [] => Return (p, None)
  | (k, v) :: set =>
      let! (p, e) := q_append_update_set p k v in
      match e with
      | Some e => Return (p, Some e)
      | None => q_update_sets set p
      end
  end.

(* builder.go:163-175, Update after the checks *)
Definition q_do_update (name : bytes) (criteria : option rfun) (set : list (bytes * rvalue)) (p : hslice) :
    go (hslice * option err) :=
  let n := hlen p in
  let! (p, e) := q_msg_update p name criteria in
  match e with
  | Some e => Return (p, Some e)
  | None =>
      let! (p, e) := q_update_sets set p in
      match e with
      | Some e => Return (p, Some e)
      | None => g_okm (g_patch_length p n)
      end
  end.

(* crud.go:14-18 Insert.Row, called by the callback of InsertF *)
Fixpoint q_run_iops (dis : list bool) (ops : list riop) (p : hslice) (e : option err) : go (hslice * option err) :=
  match ops with
  | [] => Return (p, e)
  | RRow row :: ops =>
      match e with
      | Some e => q_run_iops dis ops p (Some e)
      | None => let! (p, e) := q_append_insert_row p row in q_run_iops dis ops p e
      end
  | RIOuter lvl :: ops => let! _ := g_use_outer dis lvl in q_run_iops dis ops p e
  end.

(* crud.go:45-49 Update.Set, called by the callback of UpdateF *)
Fixpoint q_run_uops (dis : list bool) (ops : list ruop) (p : hslice) (e : option err) : go (hslice * option err) :=
  match ops with
  | [] => Return (p, e)
  | RSet name v :: ops =>
      match e with
      | Some e => q_run_uops dis ops p (Some e)
      | None => let! (p, e) := q_append_update_set p name v in q_run_uops dis ops p e
      end
  | RUOuter lvl :: ops => let! _ := g_use_outer dis lvl in q_run_uops dis ops p e
  end.

(* crud.go:31-37 InsertF after the checks *)
Definition q_do_insert_f (dis : list bool) (name : bytes) (columns : list bytes) (ops : list riop) (p : hslice) :
    go (hslice * option err) :=
  let n := hlen p in
  let! p := g_msg_insert p name columns in
  let! (p, e) := q_run_iops dis ops p None in
  let! p := g_patch_length p n in
  Return (p, e).

(* crud.go:58-65 UpdateF after the checks *)
Definition q_do_update_f (dis : list bool) (name : bytes) (criteria : option rfun) (ops : list ruop) (p : hslice) :
    go (hslice * option err) :=
  let n := hlen p in
  let! (p, e) := q_msg_update p name criteria in
  let! (p, e) := q_run_uops dis ops p e in
  let! p := g_patch_length p n in
  Return (p, e).

(* builder.go:65-188, crud.go:24-66 *)
Definition q_exec_call (dis : list bool) (c : rcall) (b : hbuilder) : go hbuilder :=
  match c with
  | ROther c => g_exec_call dis c b
  | _ =>
    g_guarded b (fun p =>
      match c with
      | RStmtExecute stmt args => q_stmt_execute p stmt args
      | RExecute id args => q_msg_execute p id args
      | RInsert name columns rows => q_do_insert name columns rows p
      | RInsertF name columns ops _ => q_do_insert_f dis name columns ops p
      | RUpdate name criteria set => q_do_update name criteria set p
      | RUpdateF name criteria ops _ => q_do_update_f dis name criteria ops p
      | RDelete name criteria => q_msg_delete p name criteria
      | ROther _ => Stop (* not reached *)
      end)
  end.

(* builder.go:132-154 InsertRow *)
Definition q_b_insert_row (name : bytes) (columns : list bytes) (row : list rvalue) (b : hbuilder) :
    go (hbuilder * option exprfun) :=
  if hdisabled b then Stop else
  match hberr b with
  | Some _ => Return (b, None)
  | None =>
      let n := hlen (hbuf b) in
      let! p := g_msg_insert (hbuf b) name columns in
      let! (p, e) := q_append_insert_row p row in
      match e with
      | Some e => Return (mkhb p (Some e) (hdisabled b), None)
      | None =>
          let! p := g_patch_length p n in
          let id := h_insert_id p in
          let! b' := g_b_stmt_execute (s2b "SET " ++ id ++ s2b " = LAST_INSERT_ID()") [] (mkhb p None (hdisabled b)) in
          Return (b', Some (EVariable id))
      end
  end.

(* Running a program, as FineModel.g_run. *)
Fixpoint q_run (pr : rprog) (st : list hbuilder) : go (list hbuilder * list (option exprfun)) :=
  match pr with
  | RRet _ out => Return (st, out)
  | RPCall lvl c next =>
      match nth_error st lvl with
      | None => Stop
      | Some b =>
          let! b' := q_exec_call (set_nth (map hdisabled st) lvl true) c b in
          q_run next (set_nth st lvl b')
      end
  | RPInsertRow lvl name columns row next =>
      match nth_error st lvl with
      | None => Stop
      | Some b =>
          let! (b', f) := q_b_insert_row name columns row b in
          q_run (next f) (set_nth st lvl b')
      end
  | RPBlock lvl k body next =>
      match nth_error st lvl with
      | None => Stop
      | Some b =>
          let! (b1, entered) := g_block_begin k b in
          if entered then
            let child := mkhb (hbuf b1) (hberr b1) false in
            let! (st2, out) := q_run body (child :: set_nth st lvl (mkhb (hbuf b1) (hberr b1) true)) in
            match st2 with
            | [] => Stop
            | child :: st2 =>
                let! b2 := g_block_end k (mkhb (hbuf child) (hberr child) false) in
                q_run (next out) (set_nth st2 lvl b2)
            end
          else q_run (next []) (set_nth st lvl b1)
      end
  end.

(* One use of a goroutine's pipe, as FineRun.g_act, or of its program with []byte arguments in memory. *)
Inductive ract := RAct (a : act) | RUse (pr : rprog).

Definition q_act (b : option hbuilder) (a : ract) : go (option hbuilder * seen) :=
  match a with
  | RAct a => g_act b a
  | RUse pr =>
    match b with
    | None => Return (None, SGone)
    | Some b =>
        let! r := try (let! (st, out) := q_run pr [b] in
                       match st with b :: _ => Return (b, SUse (Some out)) | [] => Stop end) in
        match r with
        | Some (b, s) => Return (Some b, s)
        | None => Return (None, SUse None)
        end
    end
  end.

Fixpoint q_life (b : option hbuilder) (acts : list ract) : go (list seen) :=
  match acts with
  | [] => Return []
  | a :: acts => let! (b, s) := q_act b a in let! l := q_life b acts in Return (s :: l)
  end.

(* Goroutine i starts with memory m, in which the arguments are, and does acts i. *)
Definition starts_with (m : mem) (acts : nat -> list ract) : state (list seen) := mks m (fun i => q_life None (acts i)).

End Model.
