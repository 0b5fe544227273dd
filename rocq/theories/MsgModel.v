(* Model of /repo/xproto/xproto.go, insert.go, update.go, prepare.go, expect.go, authentication.go. *)
From Coq Require Import List NArith ZArith Arith Ascii String.
From Coq Require Import List.
From Verif Require Import Base GoSlice Varint Text Values AnyModel ExprModel.
Import ListNotations.
Open Scope N_scope.

(* protobuf/mysqlx ClientMessages_Type *)
Definition CON_CAPABILITIES_SET : N := 2.
Definition SESS_AUTHENTICATE_START : N := 4.
Definition SESS_AUTHENTICATE_CONTINUE : N := 5.
Definition SESS_RESET : N := 6.
Definition SQL_STMT_EXECUTE : N := 12.
Definition CRUD_INSERT : N := 18.
Definition CRUD_UPDATE : N := 19.
Definition CRUD_DELETE : N := 20.
Definition EXPECT_OPEN : N := 24.
Definition EXPECT_CLOSE : N := 25.
Definition PREPARE_PREPARE : N := 40.
Definition PREPARE_EXECUTE : N := 41.
Definition PREPARE_DEALLOCATE : N := 42.

(* protobuf/mysqlx_crud DataModel_TABLE, UpdateOperation_SET; mysqlx_prepare OneOfMessage_STMT;
   mysqlx_expect Condition keys *)
Definition DataModel_TABLE : N := 2.
Definition UpdateOperation_SET : N := 1.
Definition Prepare_OneOfMessage_STMT : N := 5.
Definition EXPECT_NO_ERROR : N := 1.
Definition EXPECT_FIELD_EXIST : N := 2.

(* field tags: xproto/xproto.go:20-25, 48-56; insert.go:11-25; update.go:9-18, 42-51; prepare.go:12-18, 47-50, 70-72;
   expect.go:12-19; authentication.go:49-52, 63-65 *)
Definition tagResetKeepOpen : N := 1.
Definition tagStmtExecuteStmt : N := 1.
Definition tagStmtExecuteArgs : N := 2.
Definition tagDeleteCollection : N := 1.
Definition tagDeleteCriteria : N := 3.
Definition tagCollectionName : N := 1.
Definition tagInsertCollection : N := 1.
Definition tagInsertDataModel : N := 2.
Definition tagInsertProjection : N := 3.
Definition tagInsertRow : N := 4.
Definition tagColumnName : N := 1.
Definition tagTypedRowField : N := 1.
Definition tagUpdateCollection : N := 2.
Definition tagUpdateDataModel : N := 3.
Definition tagUpdateCriteria : N := 4.
Definition tagUpdateUpdateOperation : N := 7.
Definition tagUpdateOperationSource : N := 1.
Definition tagUpdateOperationOperation : N := 2.
Definition tagUpdateOperationValue : N := 3.
Definition tagPrepareStmtId : N := 1.
Definition tagPrepareStmt : N := 2.
Definition tagPrepareOneOfType : N := 1.
Definition tagPrepareOneOfExecute : N := 6.
Definition tagExecuteStmtId : N := 1.
Definition tagExecuteArgs : N := 2.
Definition tagDeallocateStmtId : N := 1.
Definition tagOpenConditionKey : N := 1.
Definition tagOpenConditionValue : N := 2.
Definition tagExpectOpenOp : N := 1.
Definition tagExpectOpenCond : N := 2.
Definition tagAuthenticateStartMechName : N := 1.
Definition tagAuthenticateStartAuthData : N := 2.
Definition tagAuthenticateContinueAuthData : N := 1.

(* The four bytes binary.LittleEndian.PutUint32(_, uint32(x)) writes. *)
Definition le32 (x : N) : bytes :=
  [byte x; byte (N.shiftr x 8); byte (N.shiftr x 16); byte (N.shiftr x 24)].

Section Model.
Context `{E : Env}.

(* binary.LittleEndian.PutUint32(p[n:], uint32(len(p)-n-4)) *)
Definition patch_length (p : slice) (n : nat) : res slice :=
  put p n (le32 (N.of_nat (len p - n - 4))).

(* xproto/xproto.go:10-18 Reset *)
Definition msg_reset (p : slice) (keepOpen : bool) : slice :=
  if keepOpen
  then append p [3; 0; 0; 0; SESS_RESET; hdr tagResetKeepOpen wireVarint; 1]
  else append p [1; 0; 0; 0; SESS_RESET].

(* for _, arg := range args { p, err = appendAny(p, tag, arg); if err != nil { return p, err } } *)
Definition append_args (tag : N) (args : list gvalue) (p : slice) : res (slice * option err) :=
  each (fun v p => append_any v p tag) (fun _ e => e) 0 args p.

(* xproto/xproto.go:27-45 StmtExecute *)
Definition stmt_execute (p : slice) (stmt : bytes) (args : list gvalue) : res (slice * option err) :=
  let x := nlen stmt in
  let n := len p in
  let p := append p [0; 0; 0; 0; SQL_STMT_EXECUTE; hdr tagStmtExecuteStmt wireBytes;
              b80 x; b80 (N.shiftr x 7); b80 (N.shiftr x 14); b80 (N.shiftr x 21); b80 (N.shiftr x 28);
              b80 (N.shiftr x 35); b80 (N.shiftr x 42); b80 (N.shiftr x 49); b80 (N.shiftr x 56); 1] in
  let i := (len p + size_varint x - 10)%nat in
  do p <- mask_truncate p i;
  let p := append p stmt in
  do (p, e) <- append_args tagStmtExecuteArgs args p;
  match e with
  | Some e => Ok (p, Some e)
  | None => okm (patch_length p n)
  end.

(* xproto/xproto.go:47-76 Delete. b is an offset into p. criteria: None is a nil func. *)
Definition msg_delete (p : slice) (name : bytes) (criteria : option exprfun) : res (slice * option err) :=
  let s := len p in
  let n := length name in
  let n1 := (1 + sizev n + n)%nat in
  let b := len p in
  let p := for_append p (4 + 1 + 1 + sizev n1 + n1) in
  do (p, k) <- put_uvarint p (b + 6) (N.of_nat n1);
  let i := (b + (6 + k))%nat in
  do p <- put p (b + 4) [CRUD_DELETE];
  do p <- put p (b + 5) [hdr tagDeleteCollection wireBytes];
  do p <- put p i [hdr tagCollectionName wireBytes];
  let i := (i + 1)%nat in
  do (p, k) <- put_uvarint p i (N.of_nat n);
  let i := (i + k)%nat in
  do p <- copy_at p i name;
  do (p, e) <- match criteria with
               | None => Ok (p, None)
               | Some f => run_fun f p tagDeleteCriteria
               end;
  do p <- patch_length p s;
  Ok (p, e).

(* xproto/insert.go:43-55, the loop over the column names *)
Fixpoint insert_columns (names : list bytes) (p : slice) : res slice :=
  match names with
  | [] => Ok p
  | name :: names =>
      let n := length name in
      let n0 := (1 + sizev n + n)%nat in
      let b := len p in
      let p := for_append p (1 + sizev n0 + n0) in
      do p <- put p b [hdr tagInsertProjection wireBytes];
      do (p, k) <- put_uvarint p (b + 1) (N.of_nat n0);
      let j := (b + (1 + k))%nat in
      do p <- put p j [hdr tagColumnName wireBytes];
      let j := (j + 1)%nat in
      do (p, k) <- put_uvarint p j (N.of_nat n);
      let j := (j + k)%nat in
      do p <- copy_at p j name;
      insert_columns names p
  end.

(* xproto/insert.go:27-57 Insert. The first four bytes (frame length) stay unwritten. *)
Definition msg_insert (p : slice) (tableName : bytes) (names : list bytes) : res slice :=
  let n := length tableName in
  let n0 := (1 + sizev n + n)%nat in
  let b := len p in
  let p := for_append p (5 + 3 + sizev n0 + n0) in
  do p <- put p (b + 4) [CRUD_INSERT];
  do p <- put p (b + 5) [hdr tagInsertCollection wireBytes];
  do (p, k) <- put_uvarint p (b + 6) (N.of_nat n0);
  let i := (b + (6 + k))%nat in
  do p <- put p i [hdr tagCollectionName wireBytes];
  let i := (i + 1)%nat in
  do (p, k) <- put_uvarint p i (N.of_nat n);
  let i := (i + k)%nat in
  let c := Nat.min (len p - i) (length tableName) in
  do p <- copy_at p i tableName;
  let i := (i + c)%nat in
  do p <- put p i [hdr tagInsertDataModel wireVarint];
  let i := (i + 1)%nat in
  do p <- put p i [DataModel_TABLE];
  insert_columns names p.

(* xproto/insert.go:59-77 AppendInsertRow.
   Simplification: len p - i is 0 rather than negative if user code returned, without an error, a
   slice shorter than the one it was given; the theorems assume it does not. *)
Definition append_insert_row (p : slice) (row : list gvalue) : res (slice * option err) :=
  let p := append p [hdr tagInsertRow wireBytes; 0; 0] in
  let i := len p in
  do (p, e) <- each (fun v p => append_expr v p tagTypedRowField) EColumnErr 0 row p;
  match e with
  | Some e => Ok (p, Some e)
  | None =>
      let n := (len p - i)%nat in
      do p <- (if (sizev n =? 2)%nat then Ok p else
                 do h <- reslice p (i + sizev n - 2);
                 do t <- from p i;
                 Ok (append h t));
      do (p, _) <- put_uvarint p (i - 2) (N.of_nat n);
      Ok (p, None)
  end.

(* xproto/update.go:20-38 Update. The first four bytes (frame length) stay unwritten. *)
Definition msg_update (p : slice) (name : bytes) (criteria : option exprfun) : res (slice * option err) :=
  let n := length name in
  let n1 := (1 + sizev n + n)%nat in
  let b := len p in
  let p := for_append p (4 + 1 + 3 + sizev n1 + n1) in
  do (p, k) <- put_uvarint p (b + 6) (N.of_nat n1);
  let i := (b + (6 + k))%nat in
  do p <- put p (b + 4) [CRUD_UPDATE];
  do p <- put p (b + 5) [hdr tagUpdateCollection wireBytes];
  do p <- put p i [hdr tagCollectionName wireBytes];
  let i := (i + 1)%nat in
  do (p, k) <- put_uvarint p i (N.of_nat n);
  let i := (i + k)%nat in
  let c := Nat.min (len p - i) (length name) in
  do p <- copy_at p i name;
  let i := (i + c)%nat in
  do p <- put p i [hdr tagUpdateDataModel wireVarint];
  let i := (i + 1)%nat in
  do p <- put p i [DataModel_TABLE];
  match criteria with
  | None => Ok (p, None)
  | Some f => run_fun f p tagUpdateCriteria
  end.

(* xproto/update.go:58-77, the part of AppendUpdateSet after the value has been appended. len p - i
   as in append_insert_row. *)
Definition set_header (p : slice) (i : nat) (name : bytes) : res slice :=
  let nV := (len p - i)%nat in
  let n := length name in
  let n1 := (1 + sizev n + n)%nat in
  let n2 := (3 + sizev n1 + n1 + nV)%nat in
  do p <- insert p i (1 + sizev n2 + n2 - nV);
  do p <- put p i [hdr tagUpdateUpdateOperation wireBytes];
  let i := (i + 1)%nat in
  do (p, k) <- put_uvarint p i (N.of_nat n2);
  let i := (i + k)%nat in
  do p <- put p i [hdr tagUpdateOperationSource wireBytes];
  let i := (i + 1)%nat in
  do (p, k) <- put_uvarint p i (N.of_nat n1);
  let i := (i + k)%nat in
  do p <- put p i [hdr tagColumnIdentifierName wireBytes];
  let i := (i + 1)%nat in
  do (p, k) <- put_uvarint p i (N.of_nat n);
  let i := (i + k)%nat in
  let c := Nat.min (len p - i) (length name) in
  do p <- copy_at p i name;
  let i := (i + c)%nat in
  do p <- put p i [hdr tagUpdateOperationOperation wireVarint];
  let i := (i + 1)%nat in
  put p i [UpdateOperation_SET].

(* xproto/update.go:40-78 AppendUpdateSet *)
Definition append_update_set (p : slice) (name : bytes) (value : gvalue) : res (slice * option err) :=
  let i := len p in
  do (p, e) <- append_expr value p tagUpdateOperationValue;
  match e with
  | Some e => Ok (p, Some e)
  | None => okm (set_header p i name)
  end.

(* xproto/prepare.go:11-43 Prepare *)
Definition msg_prepare (p : slice) (id : N) (stmt : bytes) : res slice :=
  let n := length stmt in
  let n0 := (1 + sizev n + n)%nat in
  let n1 := (3 + sizev n0 + n0)%nat in
  let n2 := (2 + size_varint id + sizev n1 + n1)%nat in
  let b := len p in
  let p := for_append p (4 + 1 + n2) in
  do (p, k) <- put_uvarint p (b + 6) id;
  let i := (b + (6 + k))%nat in
  do p <- put p b (le32 (N.of_nat (1 + n2)));
  do p <- put p (b + 4) [PREPARE_PREPARE];
  do p <- put p (b + 5) [hdr tagPrepareStmtId wireVarint];
  do p <- put p i [hdr tagPrepareStmt wireBytes];
  let i := (i + 1)%nat in
  do (p, k) <- put_uvarint p i (N.of_nat n1);
  let i := (i + k)%nat in
  do p <- put p i [hdr tagPrepareOneOfType wireVarint];
  do p <- put p (i + 1) [Prepare_OneOfMessage_STMT];
  do p <- put p (i + 2) [hdr tagPrepareOneOfExecute wireBytes];
  let i := (i + 3)%nat in
  do (p, k) <- put_uvarint p i (N.of_nat n0);
  let i := (i + k)%nat in
  do p <- put p i [hdr tagStmtExecuteStmt wireBytes];
  let i := (i + 1)%nat in
  do (p, k) <- put_uvarint p i (N.of_nat n);
  let i := (i + k)%nat in
  copy_at p i stmt.

(* xproto/prepare.go:46-66 Execute *)
Definition msg_execute (p : slice) (id : N) (args : list gvalue) : res (slice * option err) :=
  let n := len p in
  let p := append p [0; 0; 0; 0; PREPARE_EXECUTE; hdr tagExecuteStmtId wireVarint;
              b80 id; b80 (N.shiftr id 7); b80 (N.shiftr id 14); b80 (N.shiftr id 21); byte (N.shiftr id 28)] in
  let i := (len p - 5 + size_varint id)%nat in
  do p <- mask_truncate p i;
  do (p, e) <- append_args tagExecuteArgs args p;
  match e with
  | Some e => Ok (p, Some e)
  | None => okm (patch_length p n)
  end.

(* xproto/prepare.go:69-79 Deallocate *)
Definition msg_deallocate (p : slice) (id : N) : res slice :=
  let n := size_varint id in
  let p := append p [byte (2 + byte (N.of_nat n)); 0; 0; 0; PREPARE_DEALLOCATE; hdr tagDeallocateStmtId wireVarint;
              b80 id; b80 (N.shiftr id 7); b80 (N.shiftr id 14); b80 (N.shiftr id 21); byte (N.shiftr id 28)] in
  mask_truncate p (n + (len p - 5)).

(* xproto/expect.go:10, 33-53: the two kinds of OpenCondition the package provides *)
Inductive open_condition := ONoError (value : bool) | OFieldExists (field : bytes).

Definition append_condition (c : open_condition) (p : slice) : res slice :=
  match c with
  (* xproto/expect.go:21-25 openConditionExpectNoErrorTrue *)
  | ONoError true => Ok (append p [hdr tagExpectOpenCond wireBytes; 5; hdr tagOpenConditionKey wireVarint; EXPECT_NO_ERROR;
                           hdr tagOpenConditionValue wireBytes; 1; 49])
  (* xproto/expect.go:27-31 openConditionExpectNoErrorFalse *)
  | ONoError false => Ok (append p [hdr tagExpectOpenCond wireBytes; 5; hdr tagOpenConditionKey wireVarint; EXPECT_NO_ERROR;
                           hdr tagOpenConditionValue wireBytes; 1; 48])
  (* xproto/expect.go:40-53 OpenConditionExpectFieldExists *)
  | OFieldExists field =>
      let n := nlen field in
      let n0 := 3 + N.of_nat (size_varint n) + n in
      let p := append p [hdr tagExpectOpenCond wireBytes; b80 n0; b80 (N.shiftr n0 7); b80 (N.shiftr n0 14);
                  b80 (N.shiftr n0 21); byte (N.shiftr n0 28)] in
      let i := (len p - 5 + size_varint n0)%nat in
      do p <- mask_truncate p i;
      let p := append p [hdr tagOpenConditionKey wireVarint; EXPECT_FIELD_EXIST; hdr tagOpenConditionValue wireBytes;
                  b80 n; b80 (N.shiftr n 7); b80 (N.shiftr n 14); b80 (N.shiftr n 21); byte (N.shiftr n 28)] in
      let i := (len p - 5 + size_varint n)%nat in
      do p <- mask_truncate p i;
      Ok (append p field)
  end.

Fixpoint append_conditions (cs : list open_condition) (p : slice) : res slice :=
  match cs with
  | [] => Ok p
  | c :: cs => do p <- append_condition c p; append_conditions cs p
  end.

(* xproto/expect.go:62-71 ExpectOpen *)
Definition expect_open (p : slice) (op : N) (conditions : list open_condition) : res slice :=
  let i := len p in
  let p := append p [0; 0; 0; 0; EXPECT_OPEN; hdr tagExpectOpenOp wireVarint; byte op] in
  do p <- append_conditions conditions p;
  patch_length p i.

(* xproto/expect.go:73-75 ExpectClose *)
Definition expect_close (p : slice) : slice := append p [1; 0; 0; 0; EXPECT_CLOSE].

(* xproto/authentication.go:48-60 AuthenticateStart; p[len(p):] is the empty slice over p's spare memory *)
Definition authenticate_start (p : slice) (mechName authData : bytes) : res slice :=
  let p := append (mk [] (spare p)) [0; 0; 0; 0; SESS_AUTHENTICATE_START] in
  do p <- append_wire_bytes p tagAuthenticateStartMechName mechName;
  do p <- (if (0 <? length authData)%nat then append_wire_bytes p tagAuthenticateStartAuthData authData else Ok p);
  put p 0 (le32 (N.of_nat (len p - 4))).

(* xproto/authentication.go:62-70 AuthenticateContinue *)
Definition authenticate_continue (p : slice) (authData : bytes) : res slice :=
  let p := append (mk [] (spare p)) [0; 0; 0; 0; SESS_AUTHENTICATE_CONTINUE] in
  do p <- append_wire_bytes p tagAuthenticateContinueAuthData authData;
  put p 0 (le32 (N.of_nat (len p - 4))).

(* Marshalling by github.com/golang/protobuf (library code, modelled from the wire format):
   a length delimited field. *)
Definition lib_len_field (num : N) (v : bytes) : bytes := hdr num 2 :: uvarint (nlen v) ++ v.

(* xproto/authentication.go:22-46 CapabilitySet. proto.Marshal writes the fields in field number order. The pointers of
   anyType, scalarType (authentication.go:14-20) and toPointer32 (protobuf.go:26-33) are modelled by what they point to. *)
Definition capability_set (name : bytes) (enable : bool) : bytes :=
  let scalar := [hdr tagScalarType wireVarint; Scalar_V_BOOL; hdr tagScalarBool wireVarint; encode_bool enable] in
  let any := [hdr tagAnyType wireVarint; Any_SCALAR] ++ lib_len_field tagAnyScalar scalar in
  let capability := lib_len_field 1 name ++ lib_len_field 2 any in
  let capabilities := lib_len_field 1 capability in
  let cs := lib_len_field 1 capabilities in
  le32 (nlen cs + 1) ++ [CON_CAPABILITIES_SET] ++ cs.

End Model.
