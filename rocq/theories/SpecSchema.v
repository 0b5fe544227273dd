(* Specification: the messages and enumerations of /repo/protobuf/*.proto, generated from these files: every message, field (in
   the order of the file), label, type and number, every value of every enumeration, and the message that goes with each
   message type (option client_message_id / server_message_id). *)
From Coq Require Import String List NArith.
Import ListNotations.
Open Scope string_scope.
Open Scope N_scope.

Inductive label := Required | Optional | Repeated.
Inductive ptype :=
| Uint32 | Uint64 | Sint64 | Boolean | Double | Float
| Text   (* string *)
| Blob   (* bytes *)
| Enum (name : string)
| Message (name : string).

Record field := mkfield { flabel : label; ftype : ptype; fname : string; fnumber : N }.

Definition messages : list (string * list field) := [
  (* mysqlx.proto *)
  ("Mysqlx.ClientMessages", []);
  ("Mysqlx.ServerMessages", []);
  ("Mysqlx.Ok", [
     mkfield Optional Text "msg" 1]);
  ("Mysqlx.Error", [
     mkfield Optional (Enum "Mysqlx.Error.Severity") "severity" 1;
     mkfield Required Uint32 "code" 2;
     mkfield Required Text "sql_state" 4;
     mkfield Required Text "msg" 3]);
  (* mysqlx_connection.proto *)
  ("Mysqlx.Connection.Capability", [
     mkfield Required Text "name" 1;
     mkfield Required (Message "Mysqlx.Datatypes.Any") "value" 2]);
  ("Mysqlx.Connection.Capabilities", [
     mkfield Repeated (Message "Mysqlx.Connection.Capability") "capabilities" 1]);
  ("Mysqlx.Connection.CapabilitiesGet", []);
  ("Mysqlx.Connection.CapabilitiesSet", [
     mkfield Required (Message "Mysqlx.Connection.Capabilities") "capabilities" 1]);
  ("Mysqlx.Connection.Close", []);
  ("Mysqlx.Connection.Compression", [
     mkfield Optional Uint64 "uncompressed_size" 1;
     mkfield Optional (Enum "Mysqlx.ServerMessages.Type") "server_messages" 2;
     mkfield Optional (Enum "Mysqlx.ClientMessages.Type") "client_messages" 3;
     mkfield Required Blob "payload" 4]);
  (* mysqlx_crud.proto *)
  ("Mysqlx.Crud.Column", [
     mkfield Optional Text "name" 1;
     mkfield Optional Text "alias" 2;
     mkfield Repeated (Message "Mysqlx.Expr.DocumentPathItem") "document_path" 3]);
  ("Mysqlx.Crud.Projection", [
     mkfield Required (Message "Mysqlx.Expr.Expr") "source" 1;
     mkfield Optional Text "alias" 2]);
  ("Mysqlx.Crud.Collection", [
     mkfield Required Text "name" 1;
     mkfield Optional Text "schema" 2]);
  ("Mysqlx.Crud.Limit", [
     mkfield Required Uint64 "row_count" 1;
     mkfield Optional Uint64 "offset" 2]);
  ("Mysqlx.Crud.LimitExpr", [
     mkfield Required (Message "Mysqlx.Expr.Expr") "row_count" 1;
     mkfield Optional (Message "Mysqlx.Expr.Expr") "offset" 2]);
  ("Mysqlx.Crud.Order", [
     mkfield Required (Message "Mysqlx.Expr.Expr") "expr" 1;
     mkfield Optional (Enum "Mysqlx.Crud.Order.Direction") "direction" 2]);
  ("Mysqlx.Crud.UpdateOperation", [
     mkfield Required (Message "Mysqlx.Expr.ColumnIdentifier") "source" 1;
     mkfield Required (Enum "Mysqlx.Crud.UpdateOperation.UpdateType") "operation" 2;
     mkfield Optional (Message "Mysqlx.Expr.Expr") "value" 3]);
  ("Mysqlx.Crud.Find", [
     mkfield Required (Message "Mysqlx.Crud.Collection") "collection" 2;
     mkfield Optional (Enum "Mysqlx.Crud.DataModel") "data_model" 3;
     mkfield Repeated (Message "Mysqlx.Crud.Projection") "projection" 4;
     mkfield Repeated (Message "Mysqlx.Datatypes.Scalar") "args" 11;
     mkfield Optional (Message "Mysqlx.Expr.Expr") "criteria" 5;
     mkfield Optional (Message "Mysqlx.Crud.Limit") "limit" 6;
     mkfield Repeated (Message "Mysqlx.Crud.Order") "order" 7;
     mkfield Repeated (Message "Mysqlx.Expr.Expr") "grouping" 8;
     mkfield Optional (Message "Mysqlx.Expr.Expr") "grouping_criteria" 9;
     mkfield Optional (Enum "Mysqlx.Crud.Find.RowLock") "locking" 12;
     mkfield Optional (Enum "Mysqlx.Crud.Find.RowLockOptions") "locking_options" 13;
     mkfield Optional (Message "Mysqlx.Crud.LimitExpr") "limit_expr" 14]);
  ("Mysqlx.Crud.Insert", [
     mkfield Required (Message "Mysqlx.Crud.Collection") "collection" 1;
     mkfield Optional (Enum "Mysqlx.Crud.DataModel") "data_model" 2;
     mkfield Repeated (Message "Mysqlx.Crud.Column") "projection" 3;
     mkfield Repeated (Message "Mysqlx.Crud.Insert.TypedRow") "row" 4;
     mkfield Repeated (Message "Mysqlx.Datatypes.Scalar") "args" 5;
     mkfield Optional Boolean "upsert" 6]);
  ("Mysqlx.Crud.Insert.TypedRow", [
     mkfield Repeated (Message "Mysqlx.Expr.Expr") "field" 1]);
  ("Mysqlx.Crud.Update", [
     mkfield Required (Message "Mysqlx.Crud.Collection") "collection" 2;
     mkfield Optional (Enum "Mysqlx.Crud.DataModel") "data_model" 3;
     mkfield Optional (Message "Mysqlx.Expr.Expr") "criteria" 4;
     mkfield Optional (Message "Mysqlx.Crud.Limit") "limit" 5;
     mkfield Repeated (Message "Mysqlx.Crud.Order") "order" 6;
     mkfield Repeated (Message "Mysqlx.Crud.UpdateOperation") "operation" 7;
     mkfield Repeated (Message "Mysqlx.Datatypes.Scalar") "args" 8;
     mkfield Optional (Message "Mysqlx.Crud.LimitExpr") "limit_expr" 9]);
  ("Mysqlx.Crud.Delete", [
     mkfield Required (Message "Mysqlx.Crud.Collection") "collection" 1;
     mkfield Optional (Enum "Mysqlx.Crud.DataModel") "data_model" 2;
     mkfield Optional (Message "Mysqlx.Expr.Expr") "criteria" 3;
     mkfield Optional (Message "Mysqlx.Crud.Limit") "limit" 4;
     mkfield Repeated (Message "Mysqlx.Crud.Order") "order" 5;
     mkfield Repeated (Message "Mysqlx.Datatypes.Scalar") "args" 6;
     mkfield Optional (Message "Mysqlx.Crud.LimitExpr") "limit_expr" 7]);
  ("Mysqlx.Crud.CreateView", [
     mkfield Required (Message "Mysqlx.Crud.Collection") "collection" 1;
     mkfield Optional Text "definer" 2;
     mkfield Optional (Enum "Mysqlx.Crud.ViewAlgorithm") "algorithm" 3;
     mkfield Optional (Enum "Mysqlx.Crud.ViewSqlSecurity") "security" 4;
     mkfield Optional (Enum "Mysqlx.Crud.ViewCheckOption") "check" 5;
     mkfield Repeated Text "column" 6;
     mkfield Required (Message "Mysqlx.Crud.Find") "stmt" 7;
     mkfield Optional Boolean "replace_existing" 8]);
  ("Mysqlx.Crud.ModifyView", [
     mkfield Required (Message "Mysqlx.Crud.Collection") "collection" 1;
     mkfield Optional Text "definer" 2;
     mkfield Optional (Enum "Mysqlx.Crud.ViewAlgorithm") "algorithm" 3;
     mkfield Optional (Enum "Mysqlx.Crud.ViewSqlSecurity") "security" 4;
     mkfield Optional (Enum "Mysqlx.Crud.ViewCheckOption") "check" 5;
     mkfield Repeated Text "column" 6;
     mkfield Optional (Message "Mysqlx.Crud.Find") "stmt" 7]);
  ("Mysqlx.Crud.DropView", [
     mkfield Required (Message "Mysqlx.Crud.Collection") "collection" 1;
     mkfield Optional Boolean "if_exists" 2]);
  (* mysqlx_cursor.proto *)
  ("Mysqlx.Cursor.Open", [
     mkfield Required Uint32 "cursor_id" 1;
     mkfield Required (Message "Mysqlx.Cursor.Open.OneOfMessage") "stmt" 4;
     mkfield Optional Uint64 "fetch_rows" 5]);
  ("Mysqlx.Cursor.Open.OneOfMessage", [
     mkfield Required (Enum "Mysqlx.Cursor.Open.OneOfMessage.Type") "type" 1;
     mkfield Optional (Message "Mysqlx.Prepare.Execute") "prepare_execute" 2]);
  ("Mysqlx.Cursor.Fetch", [
     mkfield Required Uint32 "cursor_id" 1;
     mkfield Optional Uint64 "fetch_rows" 5]);
  ("Mysqlx.Cursor.Close", [
     mkfield Required Uint32 "cursor_id" 1]);
  (* mysqlx_datatypes.proto *)
  ("Mysqlx.Datatypes.Scalar", [
     mkfield Required (Enum "Mysqlx.Datatypes.Scalar.Type") "type" 1;
     mkfield Optional Sint64 "v_signed_int" 2;
     mkfield Optional Uint64 "v_unsigned_int" 3;
     mkfield Optional (Message "Mysqlx.Datatypes.Scalar.Octets") "v_octets" 5;
     mkfield Optional Double "v_double" 6;
     mkfield Optional Float "v_float" 7;
     mkfield Optional Boolean "v_bool" 8;
     mkfield Optional (Message "Mysqlx.Datatypes.Scalar.String") "v_string" 9]);
  ("Mysqlx.Datatypes.Scalar.String", [
     mkfield Required Blob "value" 1;
     mkfield Optional Uint64 "collation" 2]);
  ("Mysqlx.Datatypes.Scalar.Octets", [
     mkfield Required Blob "value" 1;
     mkfield Optional Uint32 "content_type" 2]);
  ("Mysqlx.Datatypes.Object", [
     mkfield Repeated (Message "Mysqlx.Datatypes.Object.ObjectField") "fld" 1]);
  ("Mysqlx.Datatypes.Object.ObjectField", [
     mkfield Required Text "key" 1;
     mkfield Required (Message "Mysqlx.Datatypes.Any") "value" 2]);
  ("Mysqlx.Datatypes.Array", [
     mkfield Repeated (Message "Mysqlx.Datatypes.Any") "value" 1]);
  ("Mysqlx.Datatypes.Any", [
     mkfield Required (Enum "Mysqlx.Datatypes.Any.Type") "type" 1;
     mkfield Optional (Message "Mysqlx.Datatypes.Scalar") "scalar" 2;
     mkfield Optional (Message "Mysqlx.Datatypes.Object") "obj" 3;
     mkfield Optional (Message "Mysqlx.Datatypes.Array") "array" 4]);
  (* mysqlx_expect.proto *)
  ("Mysqlx.Expect.Open", [
     mkfield Optional (Enum "Mysqlx.Expect.Open.CtxOperation") "op" 1;
     mkfield Repeated (Message "Mysqlx.Expect.Open.Condition") "cond" 2]);
  ("Mysqlx.Expect.Open.Condition", [
     mkfield Required Uint32 "condition_key" 1;
     mkfield Optional Blob "condition_value" 2;
     mkfield Optional (Enum "Mysqlx.Expect.Open.Condition.ConditionOperation") "op" 3]);
  ("Mysqlx.Expect.Close", []);
  (* mysqlx_expr.proto *)
  ("Mysqlx.Expr.Expr", [
     mkfield Required (Enum "Mysqlx.Expr.Expr.Type") "type" 1;
     mkfield Optional (Message "Mysqlx.Expr.ColumnIdentifier") "identifier" 2;
     mkfield Optional Text "variable" 3;
     mkfield Optional (Message "Mysqlx.Datatypes.Scalar") "literal" 4;
     mkfield Optional (Message "Mysqlx.Expr.FunctionCall") "function_call" 5;
     mkfield Optional (Message "Mysqlx.Expr.Operator") "operator" 6;
     mkfield Optional Uint32 "position" 7;
     mkfield Optional (Message "Mysqlx.Expr.Object") "object" 8;
     mkfield Optional (Message "Mysqlx.Expr.Array") "array" 9]);
  ("Mysqlx.Expr.Identifier", [
     mkfield Required Text "name" 1;
     mkfield Optional Text "schema_name" 2]);
  ("Mysqlx.Expr.DocumentPathItem", [
     mkfield Required (Enum "Mysqlx.Expr.DocumentPathItem.Type") "type" 1;
     mkfield Optional Text "value" 2;
     mkfield Optional Uint32 "index" 3]);
  ("Mysqlx.Expr.ColumnIdentifier", [
     mkfield Repeated (Message "Mysqlx.Expr.DocumentPathItem") "document_path" 1;
     mkfield Optional Text "name" 2;
     mkfield Optional Text "table_name" 3;
     mkfield Optional Text "schema_name" 4]);
  ("Mysqlx.Expr.FunctionCall", [
     mkfield Required (Message "Mysqlx.Expr.Identifier") "name" 1;
     mkfield Repeated (Message "Mysqlx.Expr.Expr") "param" 2]);
  ("Mysqlx.Expr.Operator", [
     mkfield Required Text "name" 1;
     mkfield Repeated (Message "Mysqlx.Expr.Expr") "param" 2]);
  ("Mysqlx.Expr.Object", [
     mkfield Repeated (Message "Mysqlx.Expr.Object.ObjectField") "fld" 1]);
  ("Mysqlx.Expr.Object.ObjectField", [
     mkfield Required Text "key" 1;
     mkfield Required (Message "Mysqlx.Expr.Expr") "value" 2]);
  ("Mysqlx.Expr.Array", [
     mkfield Repeated (Message "Mysqlx.Expr.Expr") "value" 1]);
  (* mysqlx_notice.proto *)
  ("Mysqlx.Notice.Frame", [
     mkfield Required Uint32 "type" 1;
     mkfield Optional (Enum "Mysqlx.Notice.Frame.Scope") "scope" 2;
     mkfield Optional Blob "payload" 3]);
  ("Mysqlx.Notice.Warning", [
     mkfield Optional (Enum "Mysqlx.Notice.Warning.Level") "level" 1;
     mkfield Required Uint32 "code" 2;
     mkfield Required Text "msg" 3]);
  ("Mysqlx.Notice.SessionVariableChanged", [
     mkfield Required Text "param" 1;
     mkfield Optional (Message "Mysqlx.Datatypes.Scalar") "value" 2]);
  ("Mysqlx.Notice.SessionStateChanged", [
     mkfield Required (Enum "Mysqlx.Notice.SessionStateChanged.Parameter") "param" 1;
     mkfield Repeated (Message "Mysqlx.Datatypes.Scalar") "value" 2]);
  ("Mysqlx.Notice.GroupReplicationStateChanged", [
     mkfield Required Uint32 "type" 1;
     mkfield Optional Text "view_id" 2]);
  ("Mysqlx.Notice.ServerHello", []);
  (* mysqlx_prepare.proto *)
  ("Mysqlx.Prepare.Prepare", [
     mkfield Required Uint32 "stmt_id" 1;
     mkfield Required (Message "Mysqlx.Prepare.Prepare.OneOfMessage") "stmt" 2]);
  ("Mysqlx.Prepare.Prepare.OneOfMessage", [
     mkfield Required (Enum "Mysqlx.Prepare.Prepare.OneOfMessage.Type") "type" 1;
     mkfield Optional (Message "Mysqlx.Crud.Find") "find" 2;
     mkfield Optional (Message "Mysqlx.Crud.Insert") "insert" 3;
     mkfield Optional (Message "Mysqlx.Crud.Update") "update" 4;
     mkfield Optional (Message "Mysqlx.Crud.Delete") "delete" 5;
     mkfield Optional (Message "Mysqlx.Sql.StmtExecute") "stmt_execute" 6]);
  ("Mysqlx.Prepare.Execute", [
     mkfield Required Uint32 "stmt_id" 1;
     mkfield Repeated (Message "Mysqlx.Datatypes.Any") "args" 2;
     mkfield Optional Boolean "compact_metadata" 3]);
  ("Mysqlx.Prepare.Deallocate", [
     mkfield Required Uint32 "stmt_id" 1]);
  (* mysqlx_resultset.proto *)
  ("Mysqlx.Resultset.FetchDoneMoreOutParams", []);
  ("Mysqlx.Resultset.FetchDoneMoreResultsets", []);
  ("Mysqlx.Resultset.FetchDone", []);
  ("Mysqlx.Resultset.FetchSuspended", []);
  ("Mysqlx.Resultset.ColumnMetaData", [
     mkfield Required (Enum "Mysqlx.Resultset.ColumnMetaData.FieldType") "type" 1;
     mkfield Optional Blob "name" 2;
     mkfield Optional Blob "original_name" 3;
     mkfield Optional Blob "table" 4;
     mkfield Optional Blob "original_table" 5;
     mkfield Optional Blob "schema" 6;
     mkfield Optional Blob "catalog" 7;
     mkfield Optional Uint64 "collation" 8;
     mkfield Optional Uint32 "fractional_digits" 9;
     mkfield Optional Uint32 "length" 10;
     mkfield Optional Uint32 "flags" 11;
     mkfield Optional Uint32 "content_type" 12]);
  ("Mysqlx.Resultset.Row", [
     mkfield Repeated Blob "field" 1]);
  (* mysqlx_session.proto *)
  ("Mysqlx.Session.AuthenticateStart", [
     mkfield Required Text "mech_name" 1;
     mkfield Optional Blob "auth_data" 2;
     mkfield Optional Blob "initial_response" 3]);
  ("Mysqlx.Session.AuthenticateContinue", [
     mkfield Required Blob "auth_data" 1]);
  ("Mysqlx.Session.AuthenticateOk", [
     mkfield Optional Blob "auth_data" 1]);
  ("Mysqlx.Session.Reset", [
     mkfield Optional Boolean "keep_open" 1]);
  ("Mysqlx.Session.Close", []);
  (* mysqlx_sql.proto *)
  ("Mysqlx.Sql.StmtExecute", [
     mkfield Optional Text "namespace" 3;
     mkfield Required Blob "stmt" 1;
     mkfield Repeated (Message "Mysqlx.Datatypes.Any") "args" 2;
     mkfield Optional Boolean "compact_metadata" 4]);
  ("Mysqlx.Sql.StmtExecuteOk", [])].

Definition enums : list (string * list (string * N)) := [
  ("Mysqlx.ClientMessages.Type", [("CON_CAPABILITIES_GET", 1); ("CON_CAPABILITIES_SET", 2); ("CON_CLOSE", 3); ("SESS_AUTHENTICATE_START", 4); ("SESS_AUTHENTICATE_CONTINUE", 5); ("SESS_RESET", 6); ("SESS_CLOSE", 7); ("SQL_STMT_EXECUTE", 12); ("CRUD_FIND", 17); ("CRUD_INSERT", 18); ("CRUD_UPDATE", 19); ("CRUD_DELETE", 20); ("EXPECT_OPEN", 24); ("EXPECT_CLOSE", 25); ("CRUD_CREATE_VIEW", 30); ("CRUD_MODIFY_VIEW", 31); ("CRUD_DROP_VIEW", 32); ("PREPARE_PREPARE", 40); ("PREPARE_EXECUTE", 41); ("PREPARE_DEALLOCATE", 42); ("CURSOR_OPEN", 43); ("CURSOR_CLOSE", 44); ("CURSOR_FETCH", 45); ("COMPRESSION", 46)]);
  ("Mysqlx.ServerMessages.Type", [("OK", 0); ("ERROR", 1); ("CONN_CAPABILITIES", 2); ("SESS_AUTHENTICATE_CONTINUE", 3); ("SESS_AUTHENTICATE_OK", 4); ("NOTICE", 11); ("RESULTSET_COLUMN_META_DATA", 12); ("RESULTSET_ROW", 13); ("RESULTSET_FETCH_DONE", 14); ("RESULTSET_FETCH_SUSPENDED", 15); ("RESULTSET_FETCH_DONE_MORE_RESULTSETS", 16); ("SQL_STMT_EXECUTE_OK", 17); ("RESULTSET_FETCH_DONE_MORE_OUT_PARAMS", 18); ("COMPRESSION", 19)]);
  ("Mysqlx.Error.Severity", [("ERROR", 0); ("FATAL", 1)]);
  ("Mysqlx.Crud.DataModel", [("DOCUMENT", 1); ("TABLE", 2)]);
  ("Mysqlx.Crud.Order.Direction", [("ASC", 1); ("DESC", 2)]);
  ("Mysqlx.Crud.UpdateOperation.UpdateType", [("SET", 1); ("ITEM_REMOVE", 2); ("ITEM_SET", 3); ("ITEM_REPLACE", 4); ("ITEM_MERGE", 5); ("ARRAY_INSERT", 6); ("ARRAY_APPEND", 7); ("MERGE_PATCH", 8)]);
  ("Mysqlx.Crud.Find.RowLock", [("SHARED_LOCK", 1); ("EXCLUSIVE_LOCK", 2)]);
  ("Mysqlx.Crud.Find.RowLockOptions", [("NOWAIT", 1); ("SKIP_LOCKED", 2)]);
  ("Mysqlx.Crud.ViewAlgorithm", [("UNDEFINED", 1); ("MERGE", 2); ("TEMPTABLE", 3)]);
  ("Mysqlx.Crud.ViewSqlSecurity", [("INVOKER", 1); ("DEFINER", 2)]);
  ("Mysqlx.Crud.ViewCheckOption", [("LOCAL", 1); ("CASCADED", 2)]);
  ("Mysqlx.Cursor.Open.OneOfMessage.Type", [("PREPARE_EXECUTE", 0)]);
  ("Mysqlx.Datatypes.Scalar.Type", [("V_SINT", 1); ("V_UINT", 2); ("V_NULL", 3); ("V_OCTETS", 4); ("V_DOUBLE", 5); ("V_FLOAT", 6); ("V_BOOL", 7); ("V_STRING", 8)]);
  ("Mysqlx.Datatypes.Any.Type", [("SCALAR", 1); ("OBJECT", 2); ("ARRAY", 3)]);
  ("Mysqlx.Expect.Open.Condition.Key", [("EXPECT_NO_ERROR", 1); ("EXPECT_FIELD_EXIST", 2); ("EXPECT_DOCID_GENERATED", 3)]);
  ("Mysqlx.Expect.Open.Condition.ConditionOperation", [("EXPECT_OP_SET", 0); ("EXPECT_OP_UNSET", 1)]);
  ("Mysqlx.Expect.Open.CtxOperation", [("EXPECT_CTX_COPY_PREV", 0); ("EXPECT_CTX_EMPTY", 1)]);
  ("Mysqlx.Expr.Expr.Type", [("IDENT", 1); ("LITERAL", 2); ("VARIABLE", 3); ("FUNC_CALL", 4); ("OPERATOR", 5); ("PLACEHOLDER", 6); ("OBJECT", 7); ("ARRAY", 8)]);
  ("Mysqlx.Expr.DocumentPathItem.Type", [("MEMBER", 1); ("MEMBER_ASTERISK", 2); ("ARRAY_INDEX", 3); ("ARRAY_INDEX_ASTERISK", 4); ("DOUBLE_ASTERISK", 5)]);
  ("Mysqlx.Notice.Frame.Scope", [("GLOBAL", 1); ("LOCAL", 2)]);
  ("Mysqlx.Notice.Frame.Type", [("WARNING", 1); ("SESSION_VARIABLE_CHANGED", 2); ("SESSION_STATE_CHANGED", 3); ("GROUP_REPLICATION_STATE_CHANGED", 4); ("SERVER_HELLO", 5)]);
  ("Mysqlx.Notice.Warning.Level", [("NOTE", 1); ("WARNING", 2); ("ERROR", 3)]);
  ("Mysqlx.Notice.SessionStateChanged.Parameter", [("CURRENT_SCHEMA", 1); ("ACCOUNT_EXPIRED", 2); ("GENERATED_INSERT_ID", 3); ("ROWS_AFFECTED", 4); ("ROWS_FOUND", 5); ("ROWS_MATCHED", 6); ("TRX_COMMITTED", 7); ("TRX_ROLLEDBACK", 9); ("PRODUCED_MESSAGE", 10); ("CLIENT_ID_ASSIGNED", 11); ("GENERATED_DOCUMENT_IDS", 12)]);
  ("Mysqlx.Notice.GroupReplicationStateChanged.Type", [("MEMBERSHIP_QUORUM_LOSS", 1); ("MEMBERSHIP_VIEW_CHANGE", 2); ("MEMBER_ROLE_CHANGE", 3); ("MEMBER_STATE_CHANGE", 4)]);
  ("Mysqlx.Prepare.Prepare.OneOfMessage.Type", [("FIND", 0); ("INSERT", 1); ("UPDATE", 2); ("DELETE", 4); ("STMT", 5)]);
  ("Mysqlx.Resultset.ColumnMetaData.FieldType", [("SINT", 1); ("UINT", 2); ("DOUBLE", 5); ("FLOAT", 6); ("BYTES", 7); ("TIME", 10); ("DATETIME", 12); ("SET", 15); ("ENUM", 16); ("BIT", 17); ("DECIMAL", 18)]);
  ("Mysqlx.Resultset.ContentType_BYTES", [("GEOMETRY", 1); ("JSON", 2); ("XML", 3)]);
  ("Mysqlx.Resultset.ContentType_DATETIME", [("DATE", 1); ("DATETIME", 2)])].

Definition client_messages : list (N * string) := [
  (1, "Mysqlx.Connection.CapabilitiesGet") (* CON_CAPABILITIES_GET *);
  (2, "Mysqlx.Connection.CapabilitiesSet") (* CON_CAPABILITIES_SET *);
  (3, "Mysqlx.Connection.Close") (* CON_CLOSE *);
  (46, "Mysqlx.Connection.Compression") (* COMPRESSION *);
  (17, "Mysqlx.Crud.Find") (* CRUD_FIND *);
  (18, "Mysqlx.Crud.Insert") (* CRUD_INSERT *);
  (19, "Mysqlx.Crud.Update") (* CRUD_UPDATE *);
  (20, "Mysqlx.Crud.Delete") (* CRUD_DELETE *);
  (30, "Mysqlx.Crud.CreateView") (* CRUD_CREATE_VIEW *);
  (31, "Mysqlx.Crud.ModifyView") (* CRUD_MODIFY_VIEW *);
  (32, "Mysqlx.Crud.DropView") (* CRUD_DROP_VIEW *);
  (43, "Mysqlx.Cursor.Open") (* CURSOR_OPEN *);
  (45, "Mysqlx.Cursor.Fetch") (* CURSOR_FETCH *);
  (44, "Mysqlx.Cursor.Close") (* CURSOR_CLOSE *);
  (24, "Mysqlx.Expect.Open") (* EXPECT_OPEN *);
  (25, "Mysqlx.Expect.Close") (* EXPECT_CLOSE *);
  (40, "Mysqlx.Prepare.Prepare") (* PREPARE_PREPARE *);
  (41, "Mysqlx.Prepare.Execute") (* PREPARE_EXECUTE *);
  (42, "Mysqlx.Prepare.Deallocate") (* PREPARE_DEALLOCATE *);
  (4, "Mysqlx.Session.AuthenticateStart") (* SESS_AUTHENTICATE_START *);
  (5, "Mysqlx.Session.AuthenticateContinue") (* SESS_AUTHENTICATE_CONTINUE *);
  (6, "Mysqlx.Session.Reset") (* SESS_RESET *);
  (7, "Mysqlx.Session.Close") (* SESS_CLOSE *);
  (12, "Mysqlx.Sql.StmtExecute") (* SQL_STMT_EXECUTE *)].

Definition server_messages : list (N * string) := [
  (0, "Mysqlx.Ok") (* OK *);
  (1, "Mysqlx.Error") (* ERROR *);
  (2, "Mysqlx.Connection.Capabilities") (* CONN_CAPABILITIES *);
  (19, "Mysqlx.Connection.Compression") (* COMPRESSION *);
  (11, "Mysqlx.Notice.Frame") (* NOTICE *);
  (18, "Mysqlx.Resultset.FetchDoneMoreOutParams") (* RESULTSET_FETCH_DONE_MORE_OUT_PARAMS *);
  (16, "Mysqlx.Resultset.FetchDoneMoreResultsets") (* RESULTSET_FETCH_DONE_MORE_RESULTSETS *);
  (14, "Mysqlx.Resultset.FetchDone") (* RESULTSET_FETCH_DONE *);
  (15, "Mysqlx.Resultset.FetchSuspended") (* RESULTSET_FETCH_SUSPENDED *);
  (12, "Mysqlx.Resultset.ColumnMetaData") (* RESULTSET_COLUMN_META_DATA *);
  (13, "Mysqlx.Resultset.Row") (* RESULTSET_ROW *);
  (3, "Mysqlx.Session.AuthenticateContinue") (* SESS_AUTHENTICATE_CONTINUE *);
  (4, "Mysqlx.Session.AuthenticateOk") (* SESS_AUTHENTICATE_OK *);
  (17, "Mysqlx.Sql.StmtExecuteOk") (* SQL_STMT_EXECUTE_OK *)].
